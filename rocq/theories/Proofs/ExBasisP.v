(** Coordinate systems of the ambient occlusion example. *)
From Coq Require Import ZArith List Bool Lia Reals Lra.
From Flocq Require Import Core.
From Verif.Model Require Import Base FloatLane Llvm Tables MathTables Math Minimal MaskReduce Ops Cmp Float ExStencil ExRandom ExGeometry ExIntersect ExOcclusion.
From Verif.Spec Require Import Spec Floats MathSpec Stencil Rays Occlusion.
From Verif.Proofs Require Import Lib FloatP FloatOpsP FloatVecP FloatConstsP ExPacketP ExIntersectP ExIntersectMainP ExIntersectTopP.
Import ListNotations.
Open Scope Z_scope.
Local Notation pat := (pattern 4).
Local Notation dat := f32_datum.
Local Opaque fl_add fl_sub fl_mul fl_div fl_sqrt fl_lt fl_gt fl_ge fl_abs f32_neg.

(** *** Literals *)
Lemma p_06 : pat f32_06.
Proof. apply p_lit. unfold f32_06. lia. Qed.
Lemma p_m06 : pat f32_m06.
Proof. apply p_lit. unfold f32_m06. lia. Qed.
Lemma p_eps : pat f32_1em4.
Proof. apply p_lit. unfold f32_1em4. lia. Qed.
Lemma r_06 : rounded 4 (6 / 10) = (IZR 10066330 * bpow radix2 (-24))%R.
Proof.
  apply rounded_near; [exact fs4|reflexivity|reflexivity|vm_compute; discriminate|].
  change (Zneg 24) with (Z.opp 24). rewrite (bpow_inv 24) by lia. change (2 ^ 24) with 16777216. split; lra.
Qed.
Lemma d_06 : dat f32_06 = Fin false (rounded 4 (6 / 10)).
Proof.
  rewrite r_06. unfold f32_datum, datum_of, magnitude.
  change (exp_field 4 f32_06) with 126. change (sig_field 4 f32_06) with 1677722.
  change (sign_field 4 f32_06) with false. change (2 ^ exp_width 4 - 1) with 255. cbv beta iota. cbn [Z.eqb Pos.eqb].
  reflexivity.
Qed.
Lemma d_m06 : dat f32_m06 = Fin true (rounded 4 (- 6 / 10)).
Proof.
  replace (- 6 / 10)%R with (- (6 / 10))%R by lra. rewrite rounded_opp, r_06. unfold f32_datum, datum_of, magnitude.
  change (exp_field 4 f32_m06) with 126. change (sig_field 4 f32_m06) with 1677722.
  change (sign_field 4 f32_m06) with true. change (2 ^ exp_width 4 - 1) with 255. cbv beta iota. cbn [Z.eqb Pos.eqb].
  reflexivity.
Qed.
Lemma d_eps : dat f32_1em4 = Fin false (rounded 4 (/ 10000)).
Proof.
  assert (E : rounded 4 (/ 10000) = (IZR 13743895 * bpow radix2 (-37))%R).
  { apply rounded_near; [exact fs4|reflexivity|reflexivity|vm_compute; discriminate|].
    change (Zneg 37) with (Z.opp 37). rewrite (bpow_inv 37) by lia. change (2 ^ 37) with 137438953472. split; lra. }
  rewrite E. unfold f32_datum, datum_of, magnitude.
  change (exp_field 4 f32_1em4) with 113. change (sig_field 4 f32_1em4) with 5355287.
  change (sign_field 4 f32_1em4) with false. change (2 ^ exp_width 4 - 1) with 255. cbv beta iota. cbn [Z.eqb Pos.eqb].
  reflexivity.
Qed.

(** *** The axis *)
Definition inner (c : Z) : bool := fl_lt 4 c f32_06 && fl_gt 4 c f32_m06.
Definition axis_of (n : v3) : v3 :=
  if inner (vx n) then V3 f32_1 f32_0 f32_0
  else if inner (vy n) then V3 f32_0 f32_1 f32_0
  else if inner (vz n) then V3 f32_0 f32_0 f32_1
  else V3 f32_1 f32_0 f32_0.
Lemma inner_iff c : pat c -> (inner c = true <-> small (dat c)).
Proof.
  intros P. unfold inner, small. rewrite andb_true_iff. pose proof (d_lt c f32_06 P p_06) as H1. pose proof (d_gt c f32_m06 P p_m06) as H2.
  rewrite d_06 in H1. rewrite d_m06 in H2. tauto.
Qed.
Lemma p3_lit a b c : pat a -> pat b -> pat c -> pat3 (V3 a b c).
Proof. intros A B C. exact (conj A (conj B C)). Qed.
Lemma axis_ok n : pat3 n -> pat3 (axis_of n) /\ axis (point_of n) (point_of (axis_of n)).
Proof.
  intros (X & Y & Z). pose proof (inner_iff _ X) as HX. pose proof (inner_iff _ Y) as HY. pose proof (inner_iff _ Z) as HZ.
  assert (E : forall a b c, point_of (V3 a b c) = (dat a, dat b, dat c)) by reflexivity.
  unfold axis_of, axis. destruct n as [x y z]. rewrite (E x y z). cbn [vx vy vz] in *.
  destruct (inner x).
  { split; [apply p3_lit; auto using p_0, p_1|]. left. split; [now apply HX|]. rewrite E, d_1, d_0. reflexivity. }
  destruct (inner y).
  { split; [apply p3_lit; auto using p_0, p_1|]. right; left. split; [intros H; apply HX in H; discriminate|].
    split; [now apply HY|]. rewrite E, d_1, d_0. reflexivity. }
  assert (NX : ~ small (dat x)) by (intros H; apply HX in H; discriminate).
  assert (NY : ~ small (dat y)) by (intros H; apply HY in H; discriminate).
  destruct (inner z).
  { split; [apply p3_lit; auto using p_0, p_1|]. right; right; left. split; [exact NX|]. split; [exact NY|].
    split; [now apply HZ|]. rewrite E, d_1, d_0. reflexivity. }
  assert (NZ : ~ small (dat z)) by (intros H; apply HZ in H; discriminate).
  split; [apply p3_lit; auto using p_0, p_1|]. right; right; right. split; [exact NX|]. split; [exact NY|]. split; [exact NZ|].
  rewrite E, d_1, d_0. reflexivity.
Qed.

(** *** Cross products *)
Lemma minor_ok a b c d : pat a -> pat b -> pat c -> pat d ->
  pat (fl_sub 4 (fl_mul 4 a b) (fl_mul 4 c d)) /\ minor (dat a) (dat b) (dat c) (dat d) (dat (fl_sub 4 (fl_mul 4 a b) (fl_mul 4 c d))).
Proof.
  intros A B C D. split; [auto with pats|]. exists (dat (fl_mul 4 a b)), (dat (fl_mul 4 c d)).
  split; [now apply d_mul|]. split; [now apply d_mul|]. apply d_sub; auto with pats.
Qed.
Lemma cross_ok a b : pat3 a -> pat3 b -> pat3 (cross a b) /\ crossed (point_of a) (point_of b) (point_of (cross a b)).
Proof.
  intros (A1 & A2 & A3) (B1 & B2 & B3). unfold cross, crossed, point_of. cbn [vx vy vz].
  destruct (minor_ok _ _ _ _ A2 B3 A3 B2) as [X1 X2]. destruct (minor_ok _ _ _ _ A3 B1 A1 B3) as [Y1 Y2].
  destruct (minor_ok _ _ _ _ A1 B2 A2 B1) as [Z1 Z2]. split; [now apply p3_lit|]. auto.
Qed.

Section Basis.
  Variables (D : dotter) (dt : v3 -> v3 -> Z) (scale : Z -> v3 -> v3).
  Hypothesis HD : forall a b, pat3 a -> pat3 b -> pat (dt a b) /\ D (point_of a) (point_of b) (dat (dt a b)).
  Hypothesis HS : forall s a, pat s -> pat3 a -> pat3 (scale s a) /\ times (dat s) (point_of a) (point_of (scale s a)).

  Definition basis_at (n : v3) : m3 :=
    let b0 := nrm dt scale (cross (axis_of n) n) in
    (b0, nrm dt scale (cross n b0), n).
  Definition pat_m3 (m : m3) : Prop := pat3 (fst (fst m)) /\ pat3 (snd (fst m)) /\ pat3 (snd m).
  Definition points (m : m3) : point * point * point := (point_of (fst (fst m)), point_of (snd (fst m)), point_of (snd m)).
  Lemma basis_ok n : pat3 n -> pat_m3 (basis_at n) /\ basis_of D (point_of n) (points (basis_at n)).
  Proof.
    intros N. destruct (axis_ok n N) as [A1 A2]. destruct (cross_ok _ _ A1 N) as [C1 C2].
    destruct (nrm_ok D dt scale HD HS _ C1) as [B1 B2]. destruct (cross_ok _ _ N B1) as [E1 E2].
    destruct (nrm_ok D dt scale HD HS _ E1) as [F1 F2].
    unfold basis_at, pat_m3, points, basis_of. cbn [fst snd]. split; [exact (conj B1 (conj F1 N))|].
    eexists _, _, _. split; [exact A2|]. split; [exact C2|]. split; [exact B2|]. split; [exact E2|]. split; [exact F2|reflexivity].
  Qed.

  Definition turn (m : m3) (o : v3) : v3 :=
    let '(m0, m1, m2) := m in
    V3 (dt o (V3 (vx m0) (vx m1) (vx m2))) (dt o (V3 (vy m0) (vy m1) (vy m2))) (dt o (V3 (vz m0) (vz m1) (vz m2))).
  Lemma turn_ok m o : pat_m3 m -> pat3 o -> pat3 (turn m o) /\ turned D (points m) (point_of o) (point_of (turn m o)).
  Proof.
    destruct m as [[[x0 y0 z0] [x1 y1 z1]] [x2 y2 z2]]. intros (A & B & C) O. cbn [fst snd] in *.
    destruct A as (A1 & A2 & A3). destruct B as (B1 & B2 & B3). destruct C as (C1 & C2 & C3). cbn [vx vy vz] in *.
    unfold turn, turned, points. cbn [fst snd vx vy vz].
    destruct (HD o (V3 x0 x1 x2) O (p3_lit _ _ _ A1 B1 C1)) as [X1 X2].
    destruct (HD o (V3 y0 y1 y2) O (p3_lit _ _ _ A2 B2 C2)) as [Y1 Y2].
    destruct (HD o (V3 z0 z1 z2) O (p3_lit _ _ _ A3 B3 C3)) as [Z1 Z2].
    split; [now apply p3_lit|]. exact (conj X2 (conj Y2 Z2)).
  Qed.
End Basis.

Lemma ortho_basis_eq n : ortho_basis n = basis_at dot scale_v3 n.
Proof. reflexivity. Qed.
Lemma m3_mul_eq m o : m3_mul m o = turn dot m o.
Proof. reflexivity. Qed.

(** *** Packets *)
Section Packet.
  Variables (wide : bool) (X : externals) (tg : target) (junk : vec) (mad : mul_adder).
  Variables (M : Z -> Z -> Z -> Z) (Q : Z -> Z).
  Hypothesis HO : lane_ops wide X tg junk mad M Q.
  Variable L : list nat.
  Hypothesis HL : length L = vn (f32xN wide).
  Local Notation f := (f32xN wide).
  Local Notation m := (m32xN wide).

  Lemma o_cross a b : crosses wide (v3s_of L a) (v3s_of L b) = v3s_of L (fun k => cross (a k) (b k)).
  Proof. unfold crosses, v3s_of. cbn [xs ys zs]. now rewrite !o_mul, !o_sub. Qed.
  Lemma lnormalized_nrm a : lnormalized M a = nrm (ldot M) lscale a.
  Proof. reflexivity. Qed.

  Local Notation B n := (basis_at (ldot M) lscale n).
  Lemma o_basis n : (forall k, In k L -> pat3 (n k)) ->
    ortho_bases wide X tg (v3s_of L n) =
      Ok (v3s_of L (fun k => fst (fst (B (n k)))), v3s_of L (fun k => snd (fst (B (n k)))), v3s_of L (fun k => snd (B (n k)))).
  Proof.
    intros N. unfold ortho_bases, v3s_0. cbn [xs ys zs].
    change (xs (v3s_of L n)) with (map (fun k => vx (n k)) L). change (ys (v3s_of L n)) with (map (fun k => vy (n k)) L).
    change (zs (v3s_of L n)) with (map (fun k => vz (n k)) L).
    rewrite !(o_splat wide L HL), !o_lt, !o_gt.
    repeat first [rewrite o_and | rewrite (o_not wide L HL) | rewrite o_or | rewrite (o_sel wide L HL)]. cbn [bind].
    match goal with |- bind (normalizeds _ _ _ (crosses _ ?v _)) _ = _ => replace v with (v3s_of L (fun k => axis_of (n k))) end.
    2: { unfold v3s_of. f_equal; apply map_ext; intros k; unfold axis_of; fold (inner (vx (n k))) (inner (vy (n k))) (inner (vz (n k)));
         destruct (inner (vx (n k))), (inner (vy (n k))), (inner (vz (n k))); reflexivity. }
    rewrite o_cross.
    assert (A : forall k, In k L -> pat3 (cross (axis_of (n k)) (n k))).
    { intros k K. apply cross_ok; [apply axis_ok|]; auto. }
    rewrite (o_normal wide X tg junk mad M Q HO L HL) by exact A. cbn [bind]. rewrite o_cross.
    assert (DD := lane_dot wide X tg junk mad M Q HO).
    rewrite (o_normal wide X tg junk mad M Q HO L HL).
    - cbn [bind]. reflexivity.
    - intros k K. apply cross_ok; [auto|]. rewrite lnormalized_nrm. apply (nrm_ok (nested mad) (ldot M) lscale DD lane_scale). auto.
  Qed.
  Definition m3s_of (g : nat -> m3) : m3s :=
    (v3s_of L (fun k => fst (fst (g k))), v3s_of L (fun k => snd (fst (g k))), v3s_of L (fun k => snd (g k))).
  Lemma o_turn g o : (forall k, In k L -> pat_m3 (g k)) -> (forall k, In k L -> pat3 (o k)) ->
    m3s_mul wide X tg (m3s_of g) (v3s_of L o) = Ok (v3s_of L (fun k => turn (ldot M) (g k) (o k))).
  Proof.
    intros G O. unfold m3s_mul, m3s_of.
    assert (E : forall (a b c : v3 -> Z), (forall k, In k L -> pat (a (fst (fst (g k)))) /\ pat (b (snd (fst (g k)))) /\ pat (c (snd (g k)))) ->
      dots wide X tg (v3s_of L o) (V3s (map (fun k => a (fst (fst (g k)))) L) (map (fun k => b (snd (fst (g k)))) L) (map (fun k => c (snd (g k))) L)) =
      Ok (map (fun k => ldot M (o k) (V3 (a (fst (fst (g k)))) (b (snd (fst (g k)))) (c (snd (g k))))) L)).
    { intros a b c H. exact (o_dots wide X tg junk mad M Q HO L HL o (fun k => V3 (a (fst (fst (g k)))) (b (snd (fst (g k)))) (c (snd (g k)))) O H). }
    unfold v3s_of at 2 3 4. unfold v3s_of at 3 4 5. unfold v3s_of at 4 5 6. cbn [xs ys zs].
    rewrite !E; [|intros k K; destruct (G k K) as ((A1 & A2 & A3) & (B1 & B2 & B3) & (C1 & C2 & C3)); auto..]. cbn [bind].
    unfold v3s_of. do 2 f_equal; apply map_ext; intros k; destruct (g k) as [[? ?] ?]; reflexivity.
  Qed.
  Lemma o_turn1 g o : pat_m3 g -> (forall k, In k L -> pat3 (o k)) ->
    m3_muls wide X tg g (v3s_of L o) = Ok (v3s_of L (fun k => turn (ldot M) g (o k))).
  Proof.
    intros G O. destruct g as [[m0 m1] m2]. destruct G as (G0 & G1 & G2). cbn [fst snd] in *. unfold m3_muls.
    destruct HO as (HM & _).
    assert (E : forall p q r, pat p -> pat q -> pat r ->
      (s <- madd wide X tg (ys (v3s_of L o)) (splat f q) (mul f (zs (v3s_of L o)) (splat f r)) ;; madd wide X tg (xs (v3s_of L o)) (splat f p) s)
      = Ok (map (fun k => ldot M (o k) (V3 p q r)) L)).
    { intros p q r P1 Q1 R1. unfold v3s_of. cbn [xs ys zs]. rewrite !(o_splat wide L HL), o_mul.
      rewrite HM; [cbn [bind]; rewrite HM; [reflexivity| | | |]| | | |]; try exact HL;
        intros k K; destruct (O k K) as (A1 & A2 & A3); auto with pats.
      apply (p_M wide X tg junk mad M Q HO); auto with pats. }
    destruct G0 as (A1 & A2 & A3), G1 as (B1 & B2 & B3), G2 as (C1 & C2 & C3).
    rewrite !E by assumption. cbn [bind]. reflexivity.
  Qed.
End Packet.
