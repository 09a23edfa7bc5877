(** Intersections of packets, lane by lane. *)
From Coq Require Import ZArith List Bool Lia Reals.
From Verif.Model Require Import Base FloatLane Llvm Tables MathTables Math Minimal MaskReduce Ops Cmp Float ExStencil ExRandom ExGeometry ExIntersect.
From Verif.Spec Require Import Spec Floats MathSpec Stencil Rays.
From Verif.Proofs Require Import Lib MinimalP OpsP2 MaskReduceP FloatP FloatOpsP FloatVecP FloatApiP MathApiP MathLlvmP ExMandelbrotP ExPacketP.
Import ListNotations.
Open Scope Z_scope.
Local Notation pat := (pattern 4).

(** A packet whose lane [k] is [g k]. *)
Definition v3s_of (L : list nat) (g : nat -> v3) : v3s :=
  V3s (map (fun k => vx (g k)) L) (map (fun k => vy (g k)) L) (map (fun k => vz (g k)) L).
Definition rays_of (L : list nat) (g : nat -> ray) : rays :=
  Rays (v3s_of L (fun k => r_origin (g k))) (v3s_of L (fun k => r_dir (g k))).
Definition isects_of (L : list nat) (g : nat -> isect) : isects :=
  Isects (map (fun k => i_t (g k)) L) (v3s_of L (fun k => i_p (g k))) (v3s_of L (fun k => i_n (g k)))
         (map (fun k => mlane 4 (i_hit (g k))) L).

Definition pat3 (v : v3) : Prop := pat (vx v) /\ pat (vy v) /\ pat (vz v).

Lemma any_lanes wide tg (L : list nat) (u : nat -> bool) : length L = vn (f32xN wide) ->
  any tg (m32xN wide) (map (fun k => mlane 4 (u k)) L) = Ok (existsb u L).
Proof.
  intros HL.
  assert (M : canonical (m32xN wide) (map (fun k => mlane 4 (u k)) L)).
  { split; [now rewrite map_length, m_n|]. apply Forall_forall. intros p H. apply in_map_iff in H as (c & <- & _).
    unfold mlane, true_lane, width. rewrite m_b. destruct (u c); [left; reflexivity|right; reflexivity]. }
  assert (I : In (m32xN wide) mask_types).
  { unfold mask_types. destruct wide; cbn [m32xN In]; tauto. }
  destruct (all_canonical_masks tg (m32xN wide) _ I M) as [_ ->]. f_equal.
  unfold any_true. rewrite map_map. clear - u. induction L as [|c cs IH]; cbn [map existsb]; [auto|].
  rewrite IH, truth_mlane by lia. reflexivity.
Qed.

Section Lanes.
  Variables (wide : bool) (X : externals) (tg : target) (junk : vec) (mad : mul_adder).
  Variables (M : Z -> Z -> Z -> Z) (Q : Z -> Z).
  Hypothesis HO : lane_ops wide X tg junk mad M Q.
  Variable L : list nat.
  Hypothesis HL : length L = vn (f32xN wide).
  Local Notation f := (f32xN wide).
  Local Notation m := (m32xN wide).

  Lemma p_M p q s : pat p -> pat q -> pat s -> pat (M p q s).
  Proof. intros A B C. destruct HO as (_ & _ & _ & H & _). exact (proj1 (H p q s A B C)). Qed.
  Lemma p_Q p : pat p -> pat (Q p).
  Proof. intros A. destruct HO as (_ & _ & _ & _ & H). exact (proj1 (H p A)). Qed.
  Hint Resolve p_M p_Q : pats.

  (** *** Operations *)
  Lemma o_splat c : splat f c = map (fun _ : nat => c) L.
  Proof. apply repeat_map. exact HL. Qed.
  Lemma o_add a b : add f (map a L) (map b L) = map (fun k => fl_add 4 (a k) (b k)) L.
  Proof. unfold add, simd_add. rewrite f_k, f_b. apply map2_maps. Qed.
  Lemma o_sub a b : sub f (map a L) (map b L) = map (fun k => fl_sub 4 (a k) (b k)) L.
  Proof. unfold sub, simd_sub. rewrite f_k, f_b. apply map2_maps. Qed.
  Lemma o_mul a b : mul f (map a L) (map b L) = map (fun k => fl_mul 4 (a k) (b k)) L.
  Proof. unfold mul, simd_mul. rewrite f_k, f_b. apply map2_maps. Qed.
  Lemma o_div a b : div f (map a L) (map b L) = Ok (map (fun k => fl_div 4 (a k) (b k)) L).
  Proof.
    unfold div, simd_div. rewrite f_k, f_b. rewrite map2_maps. cbn [lane_div].
    rewrite <- (map_map (fun k => fl_div 4 (a k) (b k)) Some). apply all_ok_map_Some.
  Qed.
  Lemma o_neg a : neg f (map a L) = map (fun k => lneg (a k)) L.
  Proof. unfold neg. rewrite f_k, f_b. rewrite o_splat, o_mul. reflexivity. Qed.
  Lemma o_lt a b : vlt f (map a L) (map b L) = map (fun k => mlane 4 (fl_lt 4 (a k) (b k))) L.
  Proof. unfold vlt, is_mask, simd_lt. rewrite f_k, f_b. cbn [kind_eqb]. apply (map2_maps (fun p q => mlane 4 (fl_lt 4 p q))). Qed.
  Lemma o_gt a b : vgt f (map a L) (map b L) = map (fun k => mlane 4 (fl_gt 4 (a k) (b k))) L.
  Proof. unfold vgt, is_mask, simd_gt. rewrite f_k, f_b. cbn [kind_eqb]. apply (map2_maps (fun p q => mlane 4 (fl_gt 4 p q))). Qed.
  Lemma o_ge a b : vge f (map a L) (map b L) = map (fun k => mlane 4 (fl_ge 4 (a k) (b k))) L.
  Proof. unfold vge, is_mask, simd_ge. rewrite f_k, f_b. cbn [kind_eqb]. apply (map2_maps (fun p q => mlane 4 (fl_ge 4 p q))). Qed.
  Lemma o_and u v : mask_bitand m (map (fun k => mlane 4 (u k)) L) (map (fun k => mlane 4 (v k)) L) = map (fun k => mlane 4 (u k && v k)) L.
  Proof. unfold mask_bitand, simd_and. rewrite map2_maps. apply map_ext. intros k. apply mlane_land. Qed.
  Lemma o_or u v : mask_bitor m (map (fun k => mlane 4 (u k)) L) (map (fun k => mlane 4 (v k)) L) = map (fun k => mlane 4 (u k || v k)) L.
  Proof. unfold mask_bitor, simd_or. rewrite map2_maps. apply map_ext. intros k. apply mlane_lor. Qed.
  Lemma o_not u : mask_not m (map (fun k => mlane 4 (u k)) L) = map (fun k => mlane 4 (negb (u k))) L.
  Proof.
    unfold mask_not, simd_xor. rewrite mask_splat_repeat, m_b, m_n. rewrite (repeat_map _ L) by exact HL.
    rewrite map2_maps. apply map_ext. intros k. rewrite mlane_lxor. now destruct (u k).
  Qed.
  Lemma o_sel u a b : sel wide (map (fun k => mlane 4 (u k)) L) (map a L) (map b L) = Ok (map (fun k => if u k then a k else b k) L).
  Proof. unfold sel, select. rewrite m_b. apply select_maps. lia. Qed.

  (** *** Vectors in space *)
  Definition ldot (a o : v3) : Z := M (vx a) (vx o) (M (vy a) (vy o) (fl_mul 4 (vz a) (vz o))).
  Definition lscale (s : Z) (o : v3) : v3 := V3 (fl_mul 4 s (vx o)) (fl_mul 4 s (vy o)) (fl_mul 4 s (vz o)).
  Definition lnormalized (a : v3) : v3 := lscale (fl_div 4 f32_1 (fl_sqrt 4 (ldot a a))) a.
  Lemma p_dot a o : pat3 a -> pat3 o -> pat (ldot a o).
  Proof. intros (A1 & A2 & A3) (B1 & B2 & B3). unfold ldot. auto 10 with pats. Qed.
  Lemma p3_scale s o : pat s -> pat3 o -> pat3 (lscale s o).
  Proof. intros A (B1 & B2 & B3). unfold lscale. repeat split; cbn [vx vy vz]; auto with pats; apply p_mul; auto. Qed.
  Lemma p3_add a o : pat3 a -> pat3 o -> pat3 (v3_add a o).
  Proof. intros (A1 & A2 & A3) (B1 & B2 & B3). unfold v3_add. split; [|split]; cbn [vx vy vz]; auto with pats. Qed.
  Lemma p3_sub a o : pat3 a -> pat3 o -> pat3 (v3_sub a o).
  Proof. intros (A1 & A2 & A3) (B1 & B2 & B3). unfold v3_sub. split; [|split]; cbn [vx vy vz]; auto with pats. Qed.
  Lemma p3_if (c : bool) a b : pat3 a -> pat3 b -> pat3 (if c then a else b).
  Proof. now destruct c. Qed.

  Lemma o_dots a b : (forall k, In k L -> pat3 (a k)) -> (forall k, In k L -> pat3 (b k)) ->
    dots wide X tg (v3s_of L a) (v3s_of L b) = Ok (map (fun k => ldot (a k) (b k)) L).
  Proof.
    intros A B. destruct HO as (HM & _). unfold dots, v3s_of. cbn [xs ys zs]. rewrite o_mul.
    rewrite HM; [cbn [bind]; rewrite HM; [reflexivity| | | |]| | | |]; try exact HL;
      intros k K; destruct (A k K) as (A1 & A2 & A3); destruct (B k K) as (B1 & B2 & B3); auto with pats.
  Qed.
  Lemma o_dots1 a o : (forall k, In k L -> pat3 (a k)) -> pat3 o ->
    dots1 wide X tg (v3s_of L a) o = Ok (map (fun k => ldot (a k) o) L).
  Proof.
    intros A (B1 & B2 & B3). destruct HO as (HM & _). unfold dots1, v3s_of. cbn [xs ys zs]. unfold mul_vs. rewrite !o_splat, o_mul.
    rewrite HM; [cbn [bind]; rewrite HM; [reflexivity| | | |]| | | |]; try exact HL;
      intros k K; destruct (A k K) as (A1 & A2 & A3); auto with pats.
  Qed.
  Lemma o_add3 a b : v3s_add wide (v3s_of L a) (v3s_of L b) = v3s_of L (fun k => v3_add (a k) (b k)).
  Proof. unfold v3s_add, v3s_of. cbn [xs ys zs]. now rewrite !o_add. Qed.
  Lemma o_sub1 a o : v3s_sub1 wide (v3s_of L a) o = v3s_of L (fun k => v3_sub (a k) o).
  Proof. unfold v3s_sub1, v3s_of. cbn [xs ys zs]. now rewrite !o_splat, !o_sub. Qed.
  Lemma o_scale s a : scale_v3s wide (map s L) (v3s_of L a) = v3s_of L (fun k => lscale (s k) (a k)).
  Proof. unfold scale_v3s, v3s_of. cbn [xs ys zs]. now rewrite !o_mul. Qed.
  Lemma o_normal a : (forall k, In k L -> pat3 (a k)) ->
    normalizeds wide X tg (v3s_of L a) = Ok (v3s_of L (fun k => lnormalized (a k))).
  Proof.
    intros A. unfold normalizeds. rewrite o_dots by assumption. cbn [bind]. unfold rsqrte. rewrite f_k, f_b.
    unfold simd_fsqrt. rewrite map_map, o_splat, o_div. cbn [bind]. rewrite o_scale. reflexivity.
  Qed.
  Lemma map_if3 (u : nat -> bool) (a b : nat -> v3) :
    V3s (map (fun k => if u k then vx (a k) else vx (b k)) L) (map (fun k => if u k then vy (a k) else vy (b k)) L)
        (map (fun k => if u k then vz (a k) else vz (b k)) L) = v3s_of L (fun k => if u k then a k else b k).
  Proof. unfold v3s_of. f_equal; apply map_ext; intros k; now destruct (u k). Qed.
  Lemma o_sel3 u a b : v3s_sel wide (map (fun k => mlane 4 (u k)) L) (v3s_of L a) (v3s_of L b) = Ok (v3s_of L (fun k => if u k then a k else b k)).
  Proof. unfold v3s_sel, v3s_of. cbn [xs ys zs]. rewrite !o_sel. cbn [bind]. f_equal. apply map_if3. Qed.
  Lemma o_sel1 u a b : v3s_sel1 wide (map (fun k => mlane 4 (u k)) L) a (v3s_of L b) = Ok (v3s_of L (fun k => if u k then a else b k)).
  Proof.
    unfold v3s_sel1, v3s_of. cbn [xs ys zs]. rewrite !o_splat, !o_sel. cbn [bind]. f_equal. apply (map_if3 u (fun _ => a)).
  Qed.

  (** *** What happens to a lane *)
  Definition lplane (r : ray) (pl : plane) (i : isect) : isect :=
    let d := f32_neg (dot (p_p pl) (p_n pl)) in
    let v := ldot (r_dir r) (p_n pl) in
    let q := fl_div 4 (lneg (fl_add 4 (ldot (r_origin r) (p_n pl)) d)) v in
    if fl_ge 4 (fl_abs 4 v) f32_1em17 && fl_gt 4 q f32_0 && fl_lt 4 q (i_t i)
    then Isect q (v3_add (r_origin r) (lscale q (r_dir r))) (p_n pl) true
    else i.
  Definition lsphere (r : ray) (s : sphere) (i : isect) : isect :=
    let rs := v3_sub (r_origin r) (s_center s) in
    let b := ldot rs (r_dir r) in
    let c := M (s_radius s) (lneg (s_radius s)) (ldot rs rs) in
    let d := M b b (lneg c) in
    let q := fl_sub 4 (lneg b) (Q d) in
    if fl_gt 4 d f32_0 && fl_gt 4 q f32_0 && fl_lt 4 q (i_t i)
    then
      let p := v3_add (r_origin r) (lscale q (r_dir r)) in
      Isect q p (lnormalized (v3_sub p (s_center s))) true
    else i.

  Lemma isects_ext g h : (forall k, In k L -> g k = h k) -> isects_of L g = isects_of L h.
  Proof.
    intros H. unfold isects_of, v3s_of. f_equal; try match goal with |- V3s _ _ _ = _ => f_equal end; apply map_ext_in; intros k K; now rewrite H.
  Qed.

  (** The end of both functions: the lanes [c] are hit at [t]. *)
  Lemma update (c : nat -> bool) (q : nat -> Z) (p n : nat -> v3) (I : nat -> isect) (t := fun k => if c k then q k else i_t (I k))
      (h := fun k => c k && fl_gt 4 (t k) f32_0 && fl_lt 4 (t k) (i_t (I k))) :
    Isects (map (fun k => if h k then t k else i_t (I k)) L) (v3s_of L (fun k => if h k then p k else i_p (I k)))
      (v3s_of L (fun k => if h k then n k else i_n (I k))) (map (fun k => mlane 4 (i_hit (I k) || h k)) L) =
    isects_of L (fun k => if c k && fl_gt 4 (q k) f32_0 && fl_lt 4 (q k) (i_t (I k)) then Isect (q k) (p k) (n k) true else I k).
  Proof.
    assert (E : forall k, h k = c k && fl_gt 4 (q k) f32_0 && fl_lt 4 (q k) (i_t (I k))) by (intros k; unfold h, t; now destruct (c k)).
    unfold isects_of, v3s_of.
    f_equal; try match goal with |- V3s _ _ _ = _ => f_equal end; apply map_ext; intros k; rewrite <- E; destruct (h k) eqn:H; try reflexivity.
    - unfold t. unfold h in H. now destruct (c k).
    - cbn [i_hit]. now rewrite orb_true_r.
    - now rewrite orb_false_r.
  Qed.
  Lemma no_update (c : nat -> bool) (q : nat -> Z) (new : nat -> isect) (I : nat -> isect) (t := fun k => if c k then q k else i_t (I k)) :
    existsb (fun k => c k && fl_gt 4 (t k) f32_0 && fl_lt 4 (t k) (i_t (I k))) L = false ->
    isects_of L I = isects_of L (fun k => if c k && fl_gt 4 (q k) f32_0 && fl_lt 4 (q k) (i_t (I k)) then new k else I k).
  Proof.
    intros E. apply isects_ext. intros k K. destruct (c k && fl_gt 4 (q k) f32_0 && fl_lt 4 (q k) (i_t (I k))) eqn:H; [|reflexivity].
    exfalso. assert (existsb (fun k => c k && fl_gt 4 (t k) f32_0 && fl_lt 4 (t k) (i_t (I k))) L = true); [|congruence].
    apply existsb_exists. exists k. split; [exact K|]. unfold t. destruct (c k); [exact H|discriminate].
  Qed.
  Lemma no_lane (c : nat -> bool) (q : nat -> Z) (new : nat -> isect) (I : nat -> isect) : existsb c L = false ->
    isects_of L I = isects_of L (fun k => if c k && fl_gt 4 (q k) f32_0 && fl_lt 4 (q k) (i_t (I k)) then new k else I k).
  Proof.
    intros E. apply isects_ext. intros k K. destruct (c k) eqn:H; [|reflexivity].
    exfalso. assert (existsb c L = true); [|congruence]. apply existsb_exists. eauto.
  Qed.

  Variable R : nat -> ray.
  Variable I : nat -> isect.
  Hypothesis PO : forall k, In k L -> pat3 (r_origin (R k)).
  Hypothesis PD : forall k, In k L -> pat3 (r_dir (R k)).

  Lemma plane_lanes pl : pat3 (p_p pl) -> pat3 (p_n pl) ->
    intersects_plane wide false X tg junk (rays_of L R) pl (isects_of L I) = Ok (isects_of L (fun k => lplane (R k) pl (I k))).
  Proof.
    intros PP PN. unfold intersects_plane. cbv zeta. set (d := f32_neg (dot (p_p pl) (p_n pl))).
    assert (Pd : pat d).
    { destruct PP as (P1 & P2 & P3). destruct PN as (N1 & N2 & N3). apply p_neg. unfold dot. auto with pats. }
    unfold rays_of at 1 2 3 4. cbn [rs_origin rs_dir].
    rewrite o_dots1 by assumption. cbn [bind].
    destruct HO as (_ & HA & _ & _ & _). rewrite HA; [|exact HL|intros k K; apply p_dot; auto]. cbn [bind].
    rewrite !o_splat, o_ge. rewrite any_lanes by exact HL. cbn [bind].
    unfold checked. cbv iota.
    destruct (existsb _ L) eqn:E1; cbn [bind].
    - rewrite o_dots1 by assumption. cbn [bind]. unfold add_vs. rewrite o_splat, o_add, o_neg, o_div. cbn [bind].
      cbn [is_t is_p is_n is_hit isects_of]. rewrite o_sel. cbn [bind]. rewrite o_gt, o_lt, !o_and.
      rewrite any_lanes by exact HL. cbn [bind].
      destruct (existsb (fun k => _ && _ && _) L) eqn:E2; cbn [bind].
      + rewrite o_sel. cbn [bind]. unfold mask_bitor_assign. rewrite o_or. rewrite o_scale, o_add3, o_sel3. cbn [bind].
        rewrite o_sel1. cbn [bind]. f_equal.
        etransitivity;
          [exact (update (fun k => fl_ge 4 (fl_abs 4 (ldot (r_dir (R k)) (p_n pl))) f32_1em17)
            (fun k => fl_div 4 (lneg (fl_add 4 (ldot (r_origin (R k)) (p_n pl)) d)) (ldot (r_dir (R k)) (p_n pl))) _ _ I)|].
        apply isects_ext. intros k K. unfold lplane. fold d. now destruct (fl_ge 4 _ f32_1em17).
      + f_equal. apply (no_update _ _ _ I E2).
    - f_equal. apply (no_lane _ _ _ I E1).
  Qed.
  Hypothesis PT : forall k, In k L -> pat (i_t (I k)).
  Hypothesis PI : forall k, In k L -> pat3 (i_p (I k)).

  Lemma sphere_lanes s : pat3 (s_center s) -> pat (s_radius s) ->
    intersects_sphere wide false X tg junk (rays_of L R) s (isects_of L I) = Ok (isects_of L (fun k => lsphere (R k) s (I k))).
  Proof.
    intros PC PR. unfold intersects_sphere. cbv zeta.
    unfold rays_of at 1 2 3 4 5 6. cbn [rs_origin rs_dir]. rewrite o_sub1.
    assert (PS : forall k, In k L -> pat3 (v3_sub (r_origin (R k)) (s_center s))) by (intros k K; apply p3_sub; auto).
    rewrite !o_dots by assumption. cbn [bind]. rewrite !o_splat, !o_neg.
    assert (Pb : forall k, In k L -> pat (ldot (v3_sub (r_origin (R k)) (s_center s)) (r_dir (R k)))) by (intros k K; apply p_dot; auto).
    assert (Pr : forall k, In k L -> pat (ldot (v3_sub (r_origin (R k)) (s_center s)) (v3_sub (r_origin (R k)) (s_center s))))
      by (intros k K; apply p_dot; auto).
    pose proof HO as (HM & _ & HQ & _ & _).
    rewrite HM by (try exact HL; auto with pats). cbn [bind]. rewrite o_neg.
    rewrite HM by (try exact HL; auto with pats). cbn [bind].
    rewrite o_gt, any_lanes by exact HL. cbn [bind]. unfold checked. cbv iota.
    assert (Pd : forall k, In k L -> pat (M (ldot (v3_sub (r_origin (R k)) (s_center s)) (r_dir (R k)))
        (ldot (v3_sub (r_origin (R k)) (s_center s)) (r_dir (R k)))
        (lneg (M (s_radius s) (lneg (s_radius s)) (ldot (v3_sub (r_origin (R k)) (s_center s)) (v3_sub (r_origin (R k)) (s_center s)))))))
      by (intros k K; auto 10 with pats).
    destruct (existsb _ L) eqn:E1; cbn [bind].
    - rewrite HQ by (try exact HL; assumption). cbn [bind]. rewrite o_sub.
      cbn [is_t is_p is_n is_hit isects_of]. rewrite o_sel. cbn [bind]. rewrite o_gt, o_lt, !o_and.
      rewrite any_lanes by exact HL. cbn [bind].
      destruct (existsb (fun k => _ && _ && _) L) eqn:E2; cbn [bind].
      + rewrite o_sel. cbn [bind]. unfold mask_bitor_assign. rewrite o_or. rewrite o_scale, o_add3, o_sel3. cbn [bind].
        rewrite o_sub1, o_normal.
        2:{ intros k K. apply p3_sub; [|exact PC]. apply p3_if; [|auto]. apply p3_add; [auto|]. apply p3_scale; [|auto].
            apply p_if; [|auto]. apply p_sub; auto with pats. }
        cbn [bind]. rewrite o_sel3. cbn [bind]. f_equal.
        etransitivity; [exact (update (fun k => fl_gt 4 _ f32_0) (fun k => fl_sub 4 _ _) _ _ I)|].
        apply isects_ext. intros k K. unfold lsphere. cbv zeta.
        destruct (fl_gt 4 (M _ _ _) f32_0); cbn [andb]; [|reflexivity].
        destruct (_ && _); reflexivity.
      + f_equal. apply (no_update _ _ _ I E2).
    - f_equal. apply (no_lane _ _ _ I E1).
  Qed.
End Lanes.
