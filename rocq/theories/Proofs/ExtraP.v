(** Further facts about lane access, scalar division, equality and reductions. *)
From Coq Require Import ZArith List Bool Lia Permutation.
From Verif.Model Require Import Base Llvm Tables Minimal MaskReduce Ops Cmp Reduce.
From Verif.Spec Require Import Spec Horizontal.
From Verif.Proofs Require Import Lib MinimalP OpsP OpsP2 MaskReduceP CmpP ReduceP AssignP LawsP.
Import ListNotations.
Open Scope Z_scope.

(** ** C01 *)
Theorem mask_new_full t xs :
  (length xs = vn t ->
     exists m, mask_new t xs = Some m /\ canonical t m
            /\ forall i c, nth_error xs i = Some c -> lane m i (mask_lane t c)) /\
  (length xs <> vn t -> mask_new t xs = None).
Proof.
  split; [exact (mask_new_spec t xs)|]. intros H. unfold mask_new, new. rewrite map_length.
  apply Nat.eqb_neq in H. now rewrite H.
Qed.

(** ** C07 *)
Lemma splat_lane_at t s x i a : is_vector t x -> lane x i a -> lane (splat t s) i s.
Proof.
  intros [L _] H. unfold lane, splat. apply nth_error_repeat. rewrite <- L.
  apply nth_error_Some. unfold lane in H. congruence.
Qed.

Theorem scalar_division_undefined t x s :
  integer_type t -> is_vector t x -> 0 <= s < 2 ^ width t ->
  let bad_vs := exists i a, lane x i a /\ bad_division t a s in
  let bad_sv := exists i a, lane x i a /\ bad_division t s a in
  (div_vs t x s = UB <-> bad_vs) /\ (rem_vs t x s = UB <-> bad_vs) /\
  (div_sv t s x = UB <-> bad_sv) /\ (rem_sv t s x = UB <-> bad_sv) /\
  (div_vs_assign t x s = UB <-> bad_vs) /\ (rem_vs_assign t x s = UB <-> bad_vs).
Proof.
  intros T X S bv bs. pose proof (splat_vector t s S) as V.
  assert (A : (exists i a b, lane x i a /\ lane (splat t s) i b /\ bad_division t a b) <-> bv).
  { unfold bv. split.
    - intros (i & a & b & La & Lb & B). rewrite (splat_lane_inv _ _ _ _ Lb) in B. eauto.
    - intros (i & a & La & B). exists i, a, s. eauto using splat_lane_at. }
  assert (C : (exists i a b, lane (splat t s) i a /\ lane x i b /\ bad_division t a b) <-> bs).
  { unfold bs. split.
    - intros (i & a & b & La & Lb & B). rewrite (splat_lane_inv _ _ _ _ La) in B. eauto.
    - intros (i & a & La & B). exists i, s, a. eauto using splat_lane_at. }
  unfold div_vs_assign, rem_vs_assign, div_vs, rem_vs, div_sv, rem_sv.
  pose proof (div_undefined_iff t x (splat t s) T X V) as [D1 _].
  pose proof (rem_undefined_iff t x (splat t s) T X V) as [R1 _].
  pose proof (div_undefined_iff t (splat t s) x T V X) as [D2 _].
  pose proof (rem_undefined_iff t (splat t s) x T V X) as [R2 _].
  rewrite A in D1, R1. rewrite C in D2, R2. auto 10.
Qed.

(** ** C16 *)
Theorem equality_operators_full tg t x y :
  ordered_type t -> crate_shape t -> valid t x -> valid t y ->
  (exists r, op_eq tg t x y = Ok r /\ lex_eq tg t x y = Ok r /\ (r = true <-> x = y)) /\
  (exists r, op_ne tg t x y = Ok r /\ lex_ne tg t x y = Ok r /\ (r = true <-> x <> y)).
Proof.
  intros T S X Y. destruct (equality_operators tg t x y T S X Y) as [(r & E & H) (q & F & G)].
  split; [exists r|exists q]; auto.
Qed.

Lemma veq_canonical t x y : ordered_type t -> valid t x -> valid t y ->
  canonical (mask_of t) (veq t x y) /\ canonical (mask_of t) (vne t x y).
Proof. intros T X Y. pose proof (vertical_comparisons t x y T X Y) as ((A & _) & (B & _) & _). auto. Qed.

Lemma ptr_shape k p n : p = 4%nat \/ p = 8%nat -> n = 2%nat \/ n = 4%nat \/ n = 8%nat -> crate_shape (V k p n).
Proof. intros P N. unfold crate_shape; cbn [vb vn]. destruct P as [-> | ->], N as [-> |[-> | ->]]; vm_compute; tauto. Qed.
Lemma op_eq_unfold tg t x y : op_eq tg t x y = all tg (mask_of t) (veq t x y). Proof. reflexivity. Qed.
Lemma op_ne_unfold tg t x y : op_ne tg t x y = any tg (mask_of t) (vne t x y). Proof. reflexivity. Qed.
Lemma glue_all tg n m r : t_ptr tg = 4%nat \/ t_ptr tg = 8%nat -> canonical (V KMask (t_ptr tg) n) m ->
  all tg (V KMask (t_ptr tg) n) m = Ok r -> msize_all tg n m = Some (Ok r).
Proof. intros P C E. pose proof (proj1 (msize_reduces tg n m P C)) as M. rewrite E in M. exact M. Qed.
Lemma glue_any tg n m r : t_ptr tg = 4%nat \/ t_ptr tg = 8%nat -> canonical (V KMask (t_ptr tg) n) m ->
  any tg (V KMask (t_ptr tg) n) m = Ok r -> msize_any tg n m = Some (Ok r).
Proof. intros P C E. pose proof (proj2 (msize_reduces tg n m P C)) as M. rewrite E in M. exact M. Qed.
Theorem pointer_sized_equality tg k n x y :
  t_ptr tg = 4%nat \/ t_ptr tg = 8%nat -> n = 2%nat \/ n = 4%nat \/ n = 8%nat ->
  k = KInt \/ k = KUint \/ k = KMask ->
  let t := V k (t_ptr tg) n in
  valid t x -> valid t y ->
  (exists r, size_op_eq tg k n x y = Some (Ok r) /\ (r = true <-> x = y)) /\
  (exists r, size_op_ne tg k n x y = Some (Ok r) /\ (r = true <-> x <> y)).
Proof.
  intros P N K. cbv zeta. pose proof (ptr_shape k _ _ P N) as S.
  assert (W : forall t, t = V k (t_ptr tg) n -> vector_type t).
  { intros t ->. unfold vector_type; cbn [vb vn].
    assert (0 < t_ptr tg)%nat by (clear - P; lia). assert (0 < n)%nat by (clear - N; lia).
    split; [auto|split; [auto|]]. destruct N as [-> |[-> | ->]]; reflexivity. }
  assert (Q : forall t, t = V k (t_ptr tg) n -> mask_of t = V KMask (t_ptr tg) n) by (intros t ->; reflexivity).
  unfold size_op_eq, size_op_ne.
  remember (V k (t_ptr tg) n) as t eqn:Et. specialize (W t eq_refl). specialize (Q t eq_refl). intros X Y.
  assert (T : ordered_type t).
  { destruct K as [-> |[-> | ->]].
    - left. left. split; [now subst|exact W].
    - left. right. split; [now subst|exact W].
    - right. split; [now subst|exact W]. }
  destruct (veq_canonical t x y T X Y) as [CE CN].
  destruct (equality_operators tg t x y T S X Y) as [(r & E & H) (q & F & G)].
  rewrite op_eq_unfold, Q in E. rewrite op_ne_unfold, Q in F.
  rewrite Q in CE, CN.
  split; [exists r; split; [exact (glue_all tg n _ r P CE E)|exact H]|exists q; split; [exact (glue_any tg n _ q P CN F)|exact G]].
Qed.

(** ** C28 *)
Lemma sum_map2_add b : forall v w, length v = length w ->
  wrap b (sum (map2 (fun x p => wrap b (x + p)) v w)) = wrap b (sum v + sum w).
Proof.
  induction v as [|a v IH]; intros [|c w] L; try discriminate; [reflexivity|].
  injection L as L. cbn [map2]. change (sum (?h :: ?l)) with (h + sum l).
  rewrite wrap_wrap_add_l, Z.add_comm, <- wrap_wrap_add_l, IH, wrap_wrap_add_l by auto.
  f_equal. change (sum (a :: v)) with (a + sum v). change (sum (c :: w)) with (c + sum w). lia.
Qed.

Theorem wrapping_sum_additive tg t v w :
  integer_type t -> is_vector t v -> is_vector t w ->
  exists a b c, wrapping_sum tg t v = Ok a /\ wrapping_sum tg t w = Ok b /\
    wrapping_sum tg t (add t v w) = Ok c /\ wraps_to t (value t a + value t b) (value t c).
Proof.
  intros T V W.
  assert (EA : add t v w = map2 (fun x p => wrap (vb t) (x + p)) v w)
    by (unfold add, simd_add; now rewrite lane_add_int).
  assert (A : is_vector t (add t v w)).
  { rewrite EA. destruct V as [LV _], W as [LW _]. split; [apply map2_length_eq; auto|].
    apply Forall_map2. intros; apply wrap_pattern. }
  rewrite !wrapping_sum_val by auto. do 3 eexists. split; [reflexivity|]. split; [reflexivity|].
  split; [reflexivity|]. rewrite EA, sum_map2_add by (destruct V, W; congruence).
  assert (D : wrap (vb t) (sum v + sum w) =
              wrap (vb t) (value t (wrap (vb t) (sum v)) + value t (wrap (vb t) (sum w)))).
  { apply divide_wrap.
    replace (sum v + sum w - (value t (wrap (vb t) (sum v)) + value t (wrap (vb t) (sum w))))
      with ((sum v - wrap (vb t) (sum v)) + (sum w - wrap (vb t) (sum w))
            + ((wrap (vb t) (sum v) - value t (wrap (vb t) (sum v)))
               + (wrap (vb t) (sum w) - value t (wrap (vb t) (sum w))))) by ring.
    apply Z.divide_add_r; apply Z.divide_add_r; try apply (value_divide t _ T);
      unfold wrap; apply Z.mod_divide; try (unfold modulus; apply Z.pow_nonzero; unfold bits; lia);
      rewrite Zminus_mod_idemp_r, Z.sub_diag; apply Zmod_0_l. }
  rewrite D. now apply wraps_to_pattern.
Qed.

(** ** C31 *)
Lemma iter_lanes t vs i :
  integer_type t -> Forall (is_vector t) vs -> (i < vn t)%nat ->
  nth_error (iter_sum t vs) i = Some (wrap (vb t) (sum (column i vs))) /\
  nth_error (iter_product t vs) i = Some (wrap (vb t) (product (column i vs))).
Proof.
  intros T F I. unfold iter_sum, iter_product.
  assert (EA : add t = fun a v => map2 (fun x p => wrap (vb t) (x + p)) a v)
    by (unfold add, simd_add; now rewrite lane_add_int).
  assert (EM : mul t = fun a v => map2 (fun x p => wrap (vb t) (x * p)) a v)
    by (unfold mul, simd_mul; now rewrite lane_mul_int).
  rewrite EA, EM, !lit_int by auto.
  pose proof (Forall_lengths t vs F) as FL.
  destruct (iter_fold_lane (fun x p => wrap (vb t) (x + p)) (vn t) i vs
              (splat t (wrap (vb t) 0)) FL (repeat_length _ _) I) as [_ NA].
  destruct (iter_fold_lane (fun x p => wrap (vb t) (x * p)) (vn t) i vs
              (splat t (wrap (vb t) 1)) FL (repeat_length _ _) I) as [_ NM].
  unfold splat in NA, NM. rewrite nth_repeat' in NA, NM by auto.
  rewrite fold_add_sum in NA. rewrite fold_mul_product in NM.
  rewrite Z.add_0_l in NA. rewrite Z.mul_1_l in NM. auto.
Qed.

Theorem iterator_order t vs ws :
  integer_type t -> Forall (is_vector t) vs -> Permutation vs ws ->
  iter_sum t vs = iter_sum t ws /\ iter_product t vs = iter_product t ws.
Proof.
  intros T F P.
  assert (G : Forall (is_vector t) ws) by (eapply Permutation_Forall; eauto).
  destruct (iterator_sums t vs T F) as (A & B & _). destruct (iterator_sums t ws T G) as (C & D & _).
  assert (Q : forall i, Permutation (column i vs) (column i ws)) by (intros i; now apply Permutation_map).
  split; apply (vec_ext t); auto; intros i a b La Lb.
  - pose proof (lane_index t _ _ _ A La) as I. unfold lane in La, Lb.
    destruct (iter_lanes t vs i T F I) as [E1 _]. destruct (iter_lanes t ws i T G I) as [E2 _].
    rewrite (sum_perm _ _ (Q i)) in E1. congruence.
  - pose proof (lane_index t _ _ _ B La) as I. unfold lane in La, Lb.
    destruct (iter_lanes t vs i T F I) as [_ E1]. destruct (iter_lanes t ws i T G I) as [_ E2].
    rewrite (product_perm _ _ (Q i)) in E1. congruence.
Qed.
