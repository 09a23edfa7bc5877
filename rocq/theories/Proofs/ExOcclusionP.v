(** How much light reaches a point, in the ambient occlusion example. *)
From Coq Require Import ZArith List Bool Lia Reals Lra.
From Flocq Require Import Core.
From Verif.Model Require Import Base FloatLane Llvm Tables MathTables Math Minimal MaskReduce Ops Cmp Float Reduce ExStencil ExRandom ExGeometry ExIntersect ExOcclusion.
From Verif.Spec Require Import Spec Floats MathSpec Examples Stencil Rays Occlusion.
From Verif.Proofs Require Import Lib ReduceP FloatP FloatOpsP FloatVecP FloatConstsP MathApiP ExactP ExPacketP ExIntersectP ExIntersectMainP ExIntersectTopP ExIntersectDebugP ExBasisP ExHemisphereP.
Import ListNotations.
Open Scope Z_scope.
Local Notation pat := (pattern 4).
Local Notation dat := f32_datum.
Local Notation PI := Rtrigo1.PI.
Local Opaque fl_add fl_sub fl_mul fl_div fl_sqrt fl_lt fl_gt fl_ge fl_abs f32_neg.

(** *** Loops *)
Lemma iterate_add {A} (body : A -> outcome A) : forall n m a, iterate (n + m) body a = bind (iterate n body a) (iterate m body).
Proof.
  induction n as [|n IH]; intros m a; cbn [Nat.add iterate]; [reflexivity|].
  destruct (body a); cbn [bind]; [apply IH|reflexivity|reflexivity].
Qed.
Lemma iterate_mul {A} (body : A -> outcome A) m : forall n a, iterate n (iterate m body) a = iterate (n * m) body a.
Proof.
  induction n as [|n IH]; intros a; cbn [Nat.mul]; [reflexivity|]. rewrite iterate_add. cbn [iterate].
  destruct (iterate m body a); cbn [bind]; [apply IH|reflexivity|reflexivity].
Qed.

(** *** Counting in f32 *)
Definition cnt (p : Z) (c : nat) : Prop := pat p /\ dat p = Fin false (INR c).
Lemma units_0 : unit_exponent 4 0.
Proof. vm_compute. split; congruence. Qed.
Lemma small_rounds c s r : Z.of_nat c <= 2 ^ 24 -> (c = 0%nat -> s = false) -> rounds_to 4 (INR c) s r -> r = Fin false (INR c).
Proof.
  intros H S R.
  assert (E : INR c = (IZR (Z.of_nat c) * bpow radix2 0)%R) by (cbn [bpow]; rewrite Rmult_1_r; apply INR_IZR_INZ).
  assert (G : Z.abs (Z.of_nat c) <= top 4) by (change (top 4) with (2 ^ 24); lia).
  destruct R as (z & (Z1 & Z2 & Z3) & ->).
  rewrite E. rewrite (grid_rounded 4 0 (Z.of_nat c) fs4 units_0 G), (grid_small 4 0 (Z.of_nat c) fs4 units_0 G).
  rewrite <- E. f_equal. destruct c as [|c]; [rewrite Z3 by reflexivity; now apply S|].
  apply Z2. apply lt_0_INR. lia.
Qed.
Lemma cnt_0 : cnt f32_0 0.
Proof. split; [exact p_0|exact d_0]. Qed.
Lemma cnt_1 : cnt f32_1 1.
Proof. split; [exact p_1|exact d_1]. Qed.
Lemma cnt_add p q a b : cnt p a -> cnt q b -> Z.of_nat (a + b) <= 2 ^ 24 -> cnt (fl_add 4 p q) (a + b).
Proof.
  intros [P1 P2] [Q1 Q2] H. split; [now apply p_add|]. pose proof (d_add p q P1 Q1) as D. rewrite P2, Q2 in D. cbn [ieee_add andb] in D.
  rewrite <- plus_INR in D. eapply small_rounds; [exact H|reflexivity|exact D].
Qed.
Lemma cnt_of n : Z.of_nat n <= 2 ^ 24 -> cnt (usize_f32 n) n.
Proof.
  intros H. destruct (of_int_datum 4 fs4 (Z.of_nat n)) as [P R]. split; [exact P|]. rewrite <- INR_IZR_INZ in R.
  eapply small_rounds; [exact H|reflexivity|exact R].
Qed.
Lemma share_ok p n c hs : cnt p c -> Z.of_nat n <= 2 ^ 24 -> c = count hs ->
  let r := fl_sub 4 f32_1 (fl_div 4 p (usize_f32 n)) in is_f32 r /\ free_share n hs (dat r).
Proof.
  intros [P1 P2] H -> r. destruct (cnt_of n H) as [N1 N2]. subst r. split; [apply p_sub; [exact p_1|now apply p_div]|].
  exists (dat (fl_div 4 p (usize_f32 n))). split; [rewrite <- P2, <- N2; now apply d_div|].
  unfold one. rewrite <- d_1. apply d_sub; [exact p_1|now apply p_div].
Qed.
Lemma count_app a b : count (a ++ b) = (count a + count b)%nat.
Proof. unfold count. now rewrite filter_app, app_length. Qed.
Lemma count_le hs : (count hs <= length hs)%nat.
Proof. unfold count. induction hs as [|[] hs IH]; cbn [filter length]; lia. Qed.
Lemma count_cons h hs : count (h :: hs) = ((if h then 1 else 0) + count hs)%nat.
Proof. now destruct h. Qed.

(** *** One ray at a time *)
Section ScalarLoop.
  Context {St : Type}.
  Variables (rand : St -> outcome (Z * St)) (R : Z -> Z -> bool -> Prop) (body : Z * St -> outcome (Z * St)).
  Hypothesis HB : forall occ st r1 st1 r2 st2, rand st = Ok (r1, st1) -> rand st1 = Ok (r2, st2) -> is_f32 r1 -> is_f32 r2 ->
    exists h, body (occ, st) = Ok (if h : bool then fl_add 4 occ f32_1 else occ, st2) /\ R r1 r2 h.
  Lemma scalar_loop : forall n l st st' occ c, draws rand st l st' -> Forall is_f32 l -> length l = (2 * n)%nat -> cnt occ c ->
    Z.of_nat (c + n) <= 2 ^ 24 ->
    exists occ' hs, iterate n body (occ, st) = Ok (occ', st') /\ Forall2 (fun p h => R (fst p) (snd p) h) (pairs l) hs /\
      cnt occ' (c + count hs).
  Proof.
    induction n as [|n IH]; intros l st st' occ c Hd Hf Hl Hc Hb.
    - destruct l; [|discriminate Hl]. inversion Hd; subst. exists occ, []. split; [reflexivity|]. split; [constructor|].
      cbn [count filter length]. now rewrite Nat.add_0_r.
    - destruct l as [|r1 [|r2 l]]; [discriminate Hl|cbn [length] in Hl; lia|].
      inversion Hd as [|? ? st1 ? ? E1 Hd1]; subst. inversion Hd1 as [|? ? st2 ? ? E2 Hd2]; subst.
      inversion Hf as [|? ? F1 Hf1]; subst. inversion Hf1 as [|? ? F2 Hf2]; subst.
      destruct (HB occ st r1 st1 r2 st2 E1 E2 F1 F2) as (h & EB & HR). cbn [iterate]. rewrite EB. cbn [bind].
      destruct (IH l st2 st' (if h then fl_add 4 occ f32_1 else occ) (c + if h then 1 else 0)%nat Hd2 Hf2) as (occ' & hs & E & F & C).
      + cbn [length] in Hl. lia.
      + destruct h; [|now rewrite Nat.add_0_r]. apply cnt_add; [exact Hc|exact cnt_1|]. lia.
      + destruct h; lia.
      + exists occ', (h :: hs). split; [exact E|]. split; [constructor; assumption|]. rewrite count_cons, Nat.add_assoc. exact C.
  Qed.
End ScalarLoop.

Section Scalar.
  Context {St : Type}.
  Variables (cosf sinf : Z -> Z) (cosine sine : datum -> datum -> Prop).
  Hypothesis HC : computes cosf cosine.
  Hypothesis HS : computes sinf sine.

  Lemma origin_ok i : is_isect i ->
    pat3 (v3_add (i_p i) (scale_v3 f32_1em4 (i_n i))) /\
    along (point_of (i_p i)) (point_of (i_n i)) (Fin false (rounded 4 (/ 10000))) (point_of (v3_add (i_p i) (scale_v3 f32_1em4 (i_n i)))).
  Proof.
    intros (_ & P & N). split.
    - apply p3_add; [exact P|apply scale_ok; [exact p_eps|exact N]].
    - rewrite <- d_eps. apply (along_ok scale_v3 scale_ok); [exact P|exact N|exact p_eps].
  Qed.
  Lemma isect_0_ok : is_isect isect_0.
  Proof.
    split; [apply p_lit; unfold isect_0, f32_1e17; cbn [i_t]; lia|].
    split; (split; [|split]); exact p_0.
  Qed.

  Lemma sample_scalar_ok (sc : scene St) i st r1 st1 r2 st2 : is_scene sc -> is_isect i ->
    sc_rand sc st = Ok (r1, st1) -> sc_rand sc st1 = Ok (r2, st2) -> is_f32 r1 -> is_f32 r2 ->
    exists h, sample_scalar cosf sinf sc (ortho_basis (i_n i)) (v3_add (i_p i) (scale_v3 f32_1em4 (i_n i))) st = Ok (h, st2) /\
      sampled left_to_right left_to_right rounded_twice cosine sine (objects sc) i r1 r2 h.
  Proof.
    intros [HP HSp] HI E1 E2 F1 F2. unfold sample_scalar. rewrite E1. cbn [bind]. rewrite E2. cbn [bind].
    destruct (hemi_ok cosine sine (fl_sqrt 4) (fl_sqrt 4) (fun p => fl_mul 4 (fl_mul 4 f32_2 f32_PI) p) cosf sinf
      (fun p P => conj (p_sqrt p P) (d_sqrt p P)) (fun p P => conj (p_sqrt p P) (d_sqrt p P))
      (fun p P => conj (p_mul _ _ (p_mul _ _ p_2 p_PI) P) (angle_scalar p P)) HC HS r1 r2 F1 F2) as [H1 H2].
    destruct (origin_ok i HI) as [O1 O2].
    destruct (basis_ok left_to_right dot scale_v3 ldot_scalar scale_ok (i_n i) (proj2 (proj2 HI))) as [B1 B2].
    destruct (turn_ok left_to_right dot ldot_scalar _ _ B1 H1) as [T1 T2].
    set (a := Ray (v3_add (i_p i) (scale_v3 f32_1em4 (i_n i)))
      (turn dot (basis_at dot scale_v3 (i_n i)) (hemi (fl_sqrt 4) (fl_sqrt 4) (fun p => fl_mul 4 (fl_mul 4 f32_2 f32_PI) p) cosf sinf r1 r2))).
    assert (A : is_ray a) by (split; [exact O1|exact T1]).
    destruct (scene_scalar (sc_spheres sc) (sc_plane sc) a isect_0 A HP HSp isect_0_ok) as [N _].
    exists (i_hit (intersect_scene (sc_spheres sc) (sc_plane sc) a isect_0)). split; [reflexivity|].
    eexists _, _, a, _. split; [exact B2|]. split; [exact H2|]. split; [exact O2|]. split; [exact T2|]. split; [exact N|reflexivity].
  Qed.

  Theorem ao_scalar_ok (sc : scene St) i st l st' : is_scene sc -> is_isect i ->
    draws (sc_rand sc) st l st' -> Forall is_f32 l -> length l = (2 * (nao sc * nao sc))%nat -> Z.of_nat (nao sc * nao sc) <= 2 ^ 24 ->
    exists r hs, ao_scalar cosf sinf sc i st = Ok (r, st') /\ is_f32 r /\
      Forall2 (fun p h => sampled left_to_right left_to_right rounded_twice cosine sine (objects sc) i (fst p) (snd p) h) (pairs l) hs /\
      free_share (nao sc * nao sc) hs (dat r).
  Proof.
    intros HSc HI Hd Hf Hl Hb. unfold ao_scalar. rewrite iterate_mul.
    match goal with |- context [iterate _ ?b _] => set (body := b) end.
    destruct (scalar_loop (sc_rand sc) (sampled left_to_right left_to_right rounded_twice cosine sine (objects sc) i) body) with
      (n := (nao sc * nao sc)%nat) (l := l) (st := st) (st' := st') (occ := f32_0) (c := 0%nat) as (occ & hs & E & F & C); auto.
    - intros occ s r1 s1 r2 s2 E1 E2 F1 F2. destruct (sample_scalar_ok sc i s r1 s1 r2 s2 HSc HI E1 E2 F1 F2) as (h & E & R).
      exists h. split; [|exact R]. subst body. cbv beta. cbn [fst snd]. rewrite E. reflexivity.
    - exact cnt_0.
    - rewrite E. cbn [bind]. destruct (share_ok occ (nao sc * nao sc) _ hs C Hb eq_refl) as [S1 S2].
      eexists _, hs. split; [reflexivity|]. auto.
  Qed.
End Scalar.
