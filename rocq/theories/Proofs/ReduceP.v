(** Horizontal reductions: C22, C28 - C31. *)
From Coq Require Import ZArith List Bool Lia ZifyBool ZifyNat Arith Permutation.
From Verif.Model Require Import Base FloatLane Llvm Tables Minimal Ops Reduce.
From Verif.Spec Require Import Spec Horizontal.
From Verif.Proofs Require Import Lib MinimalP OpsP OpsP2 MaskReduceP.
Import ListNotations.
Open Scope Z_scope.

Lemma integer_vector_type t : integer_type t -> vector_type t.
Proof. intros [[_ H]|[_ H]]; auto. Qed.

(** ** The loop is a fold *)

Lemma for_loop_fold (f : Z -> Z -> Z) t v : vector_type t -> is_vector t v ->
  forall l pre x, v = pre ++ l ->
  for_loop (length l) (length pre) x (fun i x => p <- extract t v (Z.of_nat i) ;; Ok (f x p))
  = Ok (fold_left f l x).
Proof.
  intros T V. induction l as [|p l IH]; intros pre x E; cbn [for_loop length fold_left]; auto.
  rewrite (extract_lane t v (length pre) p T V).
  2: { unfold lane. rewrite E, nth_error_app2, Nat.sub_diag by lia. reflexivity. }
  cbn [bind]. specialize (IH (pre ++ [p]) (f x p)). rewrite app_length in IH. cbn in IH.
  replace (length pre + 1)%nat with (S (length pre)) in IH by lia.
  apply IH. rewrite <- app_assoc. exact E.
Qed.

Lemma reduce_loop_fold t f v : vector_type t -> is_vector t v ->
  exists p l, v = p :: l /\ reduce_loop t f v = Ok (fold_left f l p).
Proof.
  intros T V. pose proof V as [L _]. destruct T as (Tb & Tn & T32).
  assert (T : vector_type t) by (split; [|split]; auto).
  destruct v as [|p l]; [cbn in L; lia|]. exists p, l. split; auto.
  unfold reduce_loop. change 0 with (Z.of_nat 0) at 1.
  rewrite (extract_lane t (p :: l) 0 p T V) by reflexivity. cbn [bind].
  unfold lanes. replace (vn t - 1)%nat with (length l) by (cbn in L; lia).
  apply (for_loop_fold f t (p :: l) T V l [p] p). reflexivity.
Qed.

Lemma mask_for_loop_fold (f : bool -> bool -> bool) t v : vector_type t -> is_vector t v ->
  forall l pre x, v = pre ++ l ->
  for_loop (length l) (length pre) x (fun i x => p <- mask_extract t v (Z.of_nat i) ;; Ok (f x p))
  = Ok (fold_left f (map truth l) x).
Proof.
  intros T V. induction l as [|p l IH]; intros pre x E; cbn [for_loop length fold_left map]; auto.
  rewrite (mask_extract_lane t v (length pre) p T V).
  2: { unfold lane. rewrite E, nth_error_app2, Nat.sub_diag by lia. reflexivity. }
  cbn [bind]. specialize (IH (pre ++ [p]) (f x (truth p))). rewrite app_length in IH. cbn in IH.
  replace (length pre + 1)%nat with (S (length pre)) in IH by lia.
  apply IH. rewrite <- app_assoc. exact E.
Qed.

Lemma mask_reduce_loop_fold t f v : vector_type t -> is_vector t v ->
  exists p l, v = p :: l /\ mask_reduce_loop t f v = Ok (fold_left f (map truth l) (truth p)).
Proof.
  intros T V. pose proof V as [L _]. destruct T as (Tb & Tn & T32).
  assert (T : vector_type t) by (split; [|split]; auto).
  destruct v as [|p l]; [cbn in L; lia|]. exists p, l. split; auto.
  unfold mask_reduce_loop. change 0 with (Z.of_nat 0) at 1.
  rewrite (mask_extract_lane t (p :: l) 0 p T V) by reflexivity. cbn [bind].
  unfold lanes. replace (vn t - 1)%nat with (length l) by (cbn in L; lia).
  apply (mask_for_loop_fold f t (p :: l) T V l [p] (truth p)). reflexivity.
Qed.

(** ** Sums and products *)

Lemma sum_app l r : sum (l ++ r) = sum l + sum r.
Proof. unfold sum. induction l; cbn; lia. Qed.

Lemma product_app l r : product (l ++ r) = product l * product r.
Proof. unfold product. induction l; cbn [app fold_right]; [now rewrite Z.mul_1_l|rewrite IHl; ring]. Qed.

Lemma wrap_wrap_add_l b x y : wrap b (wrap b x + y) = wrap b (x + y).
Proof. unfold wrap. pose proof (modulus_pos b). now rewrite Zplus_mod_idemp_l. Qed.
Lemma wrap_wrap_mul_l b x y : wrap b (wrap b x * y) = wrap b (x * y).
Proof. unfold wrap. pose proof (modulus_pos b). now rewrite Zmult_mod_idemp_l. Qed.

Lemma fold_add_sum b l : forall x,
  fold_left (fun x p => wrap b (x + p)) l (wrap b x) = wrap b (x + sum l).
Proof.
  induction l as [|p l IH]; intros x; cbn [fold_left sum fold_right].
  - f_equal; lia.
  - rewrite wrap_wrap_add_l, IH. f_equal. unfold sum. lia.
Qed.

Lemma fold_mul_product b l : forall x,
  fold_left (fun x p => wrap b (x * p)) l (wrap b x) = wrap b (x * product l).
Proof.
  induction l as [|p l IH]; intros x; cbn [fold_left product fold_right].
  - f_equal; lia.
  - rewrite wrap_wrap_mul_l, IH. f_equal. unfold product. lia.
Qed.

Lemma divide_wrap b x y : (modulus b | x - y) -> wrap b x = wrap b y.
Proof.
  intros [k E]. unfold wrap. replace x with (y + k * modulus b) by lia.
  apply Z_mod_plus_full.
Qed.

Lemma wrap_sum_values t l : integer_type t -> wrap (vb t) (sum l) = wrap (vb t) (sum (values t l)).
Proof.
  intros T. apply divide_wrap. induction l as [|p l IH].
  - apply Z.divide_0_r.
  - change (sum (p :: l)) with (p + sum l).
    change (sum (values t (p :: l))) with (value t p + sum (values t l)).
    replace (p + sum l - (value t p + sum (values t l)))
      with ((p - value t p) + (sum l - sum (values t l))) by lia.
    apply Z.divide_add_r; auto. apply (value_divide t p T).
Qed.

Lemma wrap_product_values t l :
  integer_type t -> wrap (vb t) (product l) = wrap (vb t) (product (values t l)).
Proof.
  intros T. apply divide_wrap. induction l as [|p l IH].
  - apply Z.divide_0_r.
  - change (product (p :: l)) with (p * product l).
    change (product (values t (p :: l))) with (value t p * product (values t l)).
    replace (p * product l - value t p * product (values t l))
      with ((p - value t p) * product l + value t p * (product l - product (values t l))) by ring.
    apply Z.divide_add_r; [apply Z.divide_mul_l, (value_divide t p T)|now apply Z.divide_mul_r].
Qed.

Lemma lit_int t z : integer_type t -> lit (vkind t) (vb t) z = wrap (vb t) z.
Proof. intros [[-> _]|[-> _]]; reflexivity. Qed.

Lemma wrapping_sum_val tg t v : integer_type t -> is_vector t v ->
  wrapping_sum tg t v = Ok (wrap (vb t) (sum v)).
Proof.
  intros T V. unfold wrapping_sum. destruct (on_aarch64 tg).
  - destruct (reduce_loop_fold t (fun x p => wrap (vb t) (x + p)) v (integer_vector_type t T) V)
      as (p & l & -> & ->).
    f_equal. assert (P : pattern (vb t) p) by (eapply (is_vector_lane t (p :: l) 0); eauto; reflexivity).
    rewrite <- (wrap_id _ _ P), fold_add_sum. cbn. now rewrite (wrap_id _ _ P).
  - f_equal. unfold simd_reduce_add_ordered. rewrite lane_add_int, lit_int by auto.
    rewrite fold_add_sum. f_equal.
Qed.

Lemma wrapping_product_val tg t v : integer_type t -> is_vector t v ->
  wrapping_product tg t v = Ok (wrap (vb t) (product v)).
Proof.
  intros T V. unfold wrapping_product. destruct (on_aarch64 tg).
  - destruct (reduce_loop_fold t (fun x p => wrap (vb t) (x * p)) v (integer_vector_type t T) V)
      as (p & l & -> & ->).
    f_equal. assert (P : pattern (vb t) p) by (eapply (is_vector_lane t (p :: l) 0); eauto; reflexivity).
    rewrite <- (wrap_id _ _ P), fold_mul_product. cbn. now rewrite (wrap_id _ _ P).
  - f_equal. unfold simd_reduce_mul_ordered. rewrite lane_mul_int, lit_int by auto.
    rewrite fold_mul_product. f_equal. lia.
Qed.

(** C28 *)
Theorem wrapping_reductions tg t v :
  integer_type t -> is_vector t v ->
  exists s p, wrapping_sum tg t v = Ok s /\ wrapping_product tg t v = Ok p /\
    0 <= s < 2 ^ width t /\ 0 <= p < 2 ^ width t /\
    wraps_to t (sum (values t v)) (value t s) /\
    wraps_to t (product (values t v)) (value t p).
Proof.
  intros T V. exists (wrap (vb t) (sum v)), (wrap (vb t) (product v)).
  split; [apply wrapping_sum_val; auto|]. split; [apply wrapping_product_val; auto|].
  split; [apply wrap_pattern|]. split; [apply wrap_pattern|]. split.
  - rewrite wrap_sum_values by auto. now apply wraps_to_pattern.
  - rewrite wrap_product_values by auto. now apply wraps_to_pattern.
Qed.

(** C28: the same on all targets, whatever the order of the lanes. *)
Lemma sum_perm l r : Permutation l r -> sum l = sum r.
Proof. intros P; unfold sum; induction P; cbn; lia. Qed.
Lemma product_perm l r : Permutation l r -> product l = product r.
Proof. intros P; unfold product; induction P; cbn [fold_right]; congruence || ring. Qed.

Theorem wrapping_reductions_order tg tg' t v w :
  integer_type t -> is_vector t v -> is_vector t w -> Permutation v w ->
  wrapping_sum tg t v = wrapping_sum tg' t w /\ wrapping_product tg t v = wrapping_product tg' t w.
Proof.
  intros T V W P. rewrite !wrapping_sum_val, !wrapping_product_val by auto.
  rewrite (sum_perm _ _ P), (product_perm _ _ P). auto.
Qed.

(** ** Iterator sums *)

Lemma nth_error_column i v n : length v = n -> (i < n)%nat -> nth_error v i = Some (nth i v 0).
Proof. intros <- H. now apply nth_error_nth'. Qed.

Lemma iter_fold_lane (f : Z -> Z -> Z) n i : forall vs acc,
  Forall (fun v : vec => length v = n) vs -> length acc = n -> (i < n)%nat ->
  length (fold_left (fun a v => map2 f a v) vs acc) = n /\
  nth_error (fold_left (fun a v => map2 f a v) vs acc) i
  = Some (fold_left f (column i vs) (nth i acc 0)).
Proof.
  induction vs as [|v vs IH]; intros acc F A I; cbn [fold_left column map].
  - split; auto. now apply nth_error_column with n.
  - inversion F as [|? ? L F']. clear F. subst x l.
    assert (M : length (map2 f acc v) = n) by (apply map2_length_eq; auto).
    destruct (IH (map2 f acc v) F' M I) as [L2 N].
    split; [exact L2|]. rewrite N. f_equal. fold (column i vs). f_equal.
    apply nth_error_nth. apply nth_error_map2; apply nth_error_column with n; auto.
Qed.

Lemma nth_repeat' {A} (x d : A) n i : (i < n)%nat -> nth i (repeat x n) d = x.
Proof. intros H. apply nth_error_nth. now apply nth_error_repeat. Qed.

Lemma Forall_lengths t vs : Forall (is_vector t) vs -> Forall (fun v : vec => length v = vn t) vs.
Proof. intros F. eapply Forall_impl; [|exact F]. intros v [L _]; auto. Qed.

Lemma iter_pattern t (f : Z -> Z -> Z) vs :
  (forall x y, pattern (vb t) (f x y)) ->
  Forall (is_vector t) vs -> forall acc, is_vector t acc ->
  is_vector t (fold_left (fun a v => map2 f a v) vs acc).
Proof.
  intros P F. induction F as [|v vs V F IH]; intros acc A; cbn; auto.
  apply IH. destruct V as [LV _], A as [LA _]. split.
  - apply map2_length_eq; auto.
  - apply Forall_map2. intros; apply P.
Qed.

(** C31 *)
Theorem iterator_sums t vs :
  integer_type t -> Forall (is_vector t) vs ->
  is_vector t (iter_sum t vs) /\ is_vector t (iter_product t vs) /\
  forall i, (i < vn t)%nat ->
    exists s p, lane (iter_sum t vs) i s /\ lane (iter_product t vs) i p /\
      wraps_to t (sum (values t (column i vs))) (value t s) /\
      wraps_to t (product (values t (column i vs))) (value t p).
Proof.
  intros T F. unfold iter_sum, iter_product.
  assert (EA : add t = fun a v => map2 (fun x p => wrap (vb t) (x + p)) a v)
    by (unfold add, simd_add; now rewrite lane_add_int).
  assert (EM : mul t = fun a v => map2 (fun x p => wrap (vb t) (x * p)) a v)
    by (unfold mul, simd_mul; now rewrite lane_mul_int).
  rewrite EA, EM, !lit_int by auto.
  pose proof (Forall_lengths t vs F) as FL.
  assert (SP : forall z, is_vector t (splat t (wrap (vb t) z)))
    by (intros z; apply splat_spec, wrap_pattern).
  split; [apply iter_pattern; auto using wrap_pattern|].
  split; [apply iter_pattern; auto using wrap_pattern|].
  intros i I.
  destruct (iter_fold_lane (fun x p => wrap (vb t) (x + p)) (vn t) i vs
              (splat t (wrap (vb t) 0)) FL (repeat_length _ _) I) as [_ NA].
  destruct (iter_fold_lane (fun x p => wrap (vb t) (x * p)) (vn t) i vs
              (splat t (wrap (vb t) 1)) FL (repeat_length _ _) I) as [_ NM].
  unfold splat in NA, NM. rewrite nth_repeat' in NA, NM by auto.
  rewrite fold_add_sum in NA. rewrite fold_mul_product in NM.
  eexists _, _. split; [exact NA|]. split; [exact NM|].
  rewrite Z.add_0_l, Z.mul_1_l. split.
  - rewrite wrap_sum_values by auto. now apply wraps_to_pattern.
  - rewrite wrap_product_values by auto. now apply wraps_to_pattern.
Qed.

(** ** Bitwise reductions *)

Lemma fold_land_bit l : forall x j,
  Z.testbit (fold_left Z.land l x) j = Z.testbit x j && forallb (fun p => Z.testbit p j) l.
Proof.
  induction l as [|p l IH]; intros x j; cbn; [now rewrite andb_true_r|].
  rewrite IH, Z.land_spec. now rewrite andb_assoc.
Qed.
Lemma fold_lor_bit l : forall x j,
  Z.testbit (fold_left Z.lor l x) j = Z.testbit x j || existsb (fun p => Z.testbit p j) l.
Proof.
  induction l as [|p l IH]; intros x j; cbn; [now rewrite orb_false_r|].
  rewrite IH, Z.lor_spec. now rewrite orb_assoc.
Qed.
Lemma odd_count_cons c l : odd_count (c :: l) = xorb c (odd_count l).
Proof.
  unfold odd_count. destruct c; cbn [filter length]; [|now destruct (Nat.odd _)].
  rewrite Nat.odd_succ, <- Nat.negb_odd. now destruct (Nat.odd _).
Qed.
Lemma fold_lxor_bit l : forall x j,
  Z.testbit (fold_left Z.lxor l x) j = xorb (Z.testbit x j) (odd_count (bit_column j l)).
Proof.
  induction l as [|p l IH]; intros x j; cbn [fold_left bit_column map].
  - cbn. now rewrite xorb_false_r.
  - rewrite IH, Z.lxor_spec. fold (bit_column j l). rewrite odd_count_cons.
    now rewrite xorb_assoc.
Qed.


Lemma fold_pattern b (f : Z -> Z -> Z) l :
  (forall p q, pattern b p -> pattern b q -> pattern b (f p q)) -> Forall (pattern b) l ->
  forall x, pattern b x -> pattern b (fold_left f l x).
Proof. intros H F. induction F; intros y Y; cbn [fold_left]; auto. Qed.

(** All implementations start from the first lane or from a neutral element. *)
Lemma reduce_bits_val tg t v : vector_type t -> is_vector t v ->
  (exists r, reduce_and tg t v = Ok r /\ pattern (vb t) r /\
     forall j, 0 <= j < width t -> Z.testbit r j = forallb (fun c => c) (bit_column j v)) /\
  (exists r, reduce_or tg t v = Ok r /\ pattern (vb t) r /\
     forall j, Z.testbit r j = existsb (fun c => c) (bit_column j v)) /\
  (exists r, reduce_xor tg t v = Ok r /\ pattern (vb t) r /\
     forall j, Z.testbit r j = odd_count (bit_column j v)).
Proof.
  intros T V. pose proof V as [_ F].
  assert (FA : forall l j, forallb (fun c => c) (bit_column j l) = forallb (fun p => Z.testbit p j) l)
    by (unfold bit_column; induction l; intros; cbn [map forallb existsb]; f_equal; auto).
  assert (FO : forall l j, existsb (fun c => c) (bit_column j l) = existsb (fun p => Z.testbit p j) l)
    by (unfold bit_column; induction l; intros; cbn [map forallb existsb]; f_equal; auto).
  unfold reduce_and, reduce_or, reduce_xor. destruct (on_aarch64 tg).
  - destruct (reduce_loop_fold t Z.land v T V) as (p & l & E1 & ->).
    destruct (reduce_loop_fold t Z.lor v T V) as (p2 & l2 & E2 & ->).
    destruct (reduce_loop_fold t Z.lxor v T V) as (p3 & l3 & E3 & ->).
    rewrite E1 in E2, E3. injection E2 as <- <-. injection E3 as <- <-. subst v.
    inversion F as [|? ? P F']. subst x l0.
    split; [|split]; eexists; (split; [reflexivity|]).
    + split; [apply fold_pattern; auto using land_pattern|].
      intros j J. rewrite fold_land_bit, FA. reflexivity.
    + split; [apply fold_pattern; auto using lor_pattern|].
      intros j. rewrite fold_lor_bit, FO. reflexivity.
    + split; [apply fold_pattern; auto using lxor_pattern|].
      intros j. rewrite fold_lxor_bit. unfold bit_column. cbn [map]. now rewrite odd_count_cons.
  - unfold simd_reduce_and, simd_reduce_or, simd_reduce_xor.
    split; [|split]; eexists; (split; [reflexivity|]).
    + split; [apply fold_pattern; auto using land_pattern, ones_pattern|].
      intros j J. rewrite fold_land_bit, FA, testbit_ones by exact J. reflexivity.
    + split; [apply fold_pattern; auto using lor_pattern, zero_pattern|].
      intros j. rewrite fold_lor_bit, FO, Z.bits_0. reflexivity.
    + split; [apply fold_pattern; auto using lxor_pattern, zero_pattern|].
      intros j. rewrite fold_lxor_bit, Z.bits_0. now rewrite xorb_false_l.
Qed.

(** C29, integers *)
Theorem bit_reductions tg t v :
  integer_type t -> is_vector t v ->
  exists a o x, reduce_and tg t v = Ok a /\ reduce_or tg t v = Ok o /\ reduce_xor tg t v = Ok x /\
    0 <= a < 2 ^ width t /\ 0 <= o < 2 ^ width t /\ 0 <= x < 2 ^ width t /\
    forall j, 0 <= j < width t ->
      (Z.testbit a j = true <-> forall i p, lane v i p -> Z.testbit p j = true) /\
      (Z.testbit o j = true <-> exists i p, lane v i p /\ Z.testbit p j = true) /\
      Z.testbit x j = odd_count (bit_column j v).
Proof.
  intros T V.
  destruct (reduce_bits_val tg t v (integer_vector_type t T) V)
    as ((a & EA & PA & BA) & (o & EO & PO & BO) & (x & EX & PX & BX)).
  exists a, o, x. split; auto. split; auto. split; auto. split; [exact PA|]. split; [exact PO|].
  split; [exact PX|]. intros j J. rewrite BA, BO, BX by auto. split; [|split; auto].
  - rewrite forallb_forall. unfold bit_column. split.
    + intros H i p E. apply H. apply in_map_iff. exists p. split; auto. eapply nth_error_In; eauto.
    + intros H c C. apply in_map_iff in C as (p & <- & C). apply In_nth_error in C as [i C]. eapply H; eauto.
  - rewrite existsb_exists. unfold bit_column. split.
    + intros (c & C & ->). apply in_map_iff in C as (p & P & C). apply In_nth_error in C as [i C]. eauto.
    + intros (i & p & E & B). exists true. split; auto. apply in_map_iff. exists p. split; auto.
      eapply nth_error_In; eauto.
Qed.

Lemma fold_andb l : forall x, fold_left andb l x = x && forallb (fun c => c) l.
Proof. induction l as [|c l IH]; intros x; cbn; [now rewrite andb_true_r|]. now rewrite IH, andb_assoc. Qed.
Lemma fold_orb l : forall x, fold_left orb l x = x || existsb (fun c => c) l.
Proof. induction l as [|c l IH]; intros x; cbn; [now rewrite orb_false_r|]. now rewrite IH, orb_assoc. Qed.
Lemma fold_xorb l : forall x, fold_left xorb l x = xorb x (odd_count l).
Proof.
  induction l as [|c l IH]; intros x; cbn [fold_left]; [cbn; now rewrite xorb_false_r|].
  now rewrite IH, odd_count_cons, xorb_assoc.
Qed.

Lemma mlane_land b c d : Z.land (mlane b c) (mlane b d) = mlane b (c && d).
Proof. destruct c, d; cbn [mlane andb]; rewrite ?Z.land_0_l, ?Z.land_0_r; auto using Z.land_diag. Qed.
Lemma mlane_lor b c d : Z.lor (mlane b c) (mlane b d) = mlane b (c || d).
Proof. destruct c, d; cbn [mlane orb]; rewrite ?Z.lor_0_l, ?Z.lor_0_r; auto using Z.lor_diag. Qed.
Lemma mlane_lxor b c d : Z.lxor (mlane b c) (mlane b d) = mlane b (xorb c d).
Proof. destruct c, d; cbn [mlane xorb]; rewrite ?Z.lxor_0_l, ?Z.lxor_0_r, ?Z.lxor_nilpotent; auto. Qed.

Lemma fold_mlane b (f : Z -> Z -> Z) (g : bool -> bool -> bool) l :
  (forall c d, f (mlane b c) (mlane b d) = mlane b (g c d)) ->
  forall x, fold_left f (map (mlane b) l) (mlane b x) = mlane b (fold_left g l x).
Proof. intros H. induction l as [|c l IH]; intros x; cbn [map fold_left]; auto. now rewrite H. Qed.

Lemma mask_reduce_val tg t m : mask_type t -> canonical t m ->
  mask_and tg t m = Ok (forallb (fun c => c) (map truth m)) /\
  mask_or tg t m = Ok (existsb (fun c => c) (map truth m)) /\
  mask_xor tg t m = Ok (odd_count (map truth m)).
Proof.
  intros [_ T] C. pose proof (canonical_vector t m C) as V.
  unfold mask_and, mask_or, mask_xor. destruct (on_aarch64 tg).
  - destruct (mask_reduce_loop_fold t andb m T V) as (p & l & E1 & ->).
    destruct (mask_reduce_loop_fold t orb m T V) as (p2 & l2 & E2 & ->).
    destruct (mask_reduce_loop_fold t xorb m T V) as (p3 & l3 & E3 & ->).
    rewrite E1 in E2, E3. injection E2 as <- <-. injection E3 as <- <-. subst m.
    cbn [map]. rewrite fold_andb, fold_orb, fold_xorb, odd_count_cons. auto.
  - assert (Hb : (0 < vb t)%nat) by (destruct T; auto).
    unfold simd_reduce_and, simd_reduce_or, simd_reduce_xor.
    rewrite (canonical_map_truth t m C) at 1 3 5.
    change (ones (vb t)) with (mlane (vb t) true). change 0 with (mlane (vb t) false) at 2 4.
    rewrite (fold_mlane _ _ _ _ (mlane_land (vb t))), (fold_mlane _ _ _ _ (mlane_lor (vb t))),
      (fold_mlane _ _ _ _ (mlane_lxor (vb t))).
    rewrite !mlane_eqb0, !negb_involutive by auto.
    rewrite fold_andb, fold_orb, fold_xorb, xorb_false_l. auto.
Qed.

(** C29, masks *)
Theorem mask_bit_reductions tg t m :
  mask_type t -> canonical t m ->
  exists a o x, mask_and tg t m = Ok a /\ mask_or tg t m = Ok o /\ mask_xor tg t m = Ok x /\
    (a = true <-> forall i p, lane m i p -> truth p = true) /\
    (o = true <-> exists i p, lane m i p /\ truth p = true) /\
    x = odd_count (map truth m).
Proof.
  intros T C. destruct (mask_reduce_val tg t m T C) as (-> & -> & ->).
  eexists _, _, _. split; [reflexivity|]. split; [reflexivity|]. split; [reflexivity|].
  split; [|split; auto].
  - rewrite forallb_forall. split.
    + intros H i p E. apply H. apply in_map_iff. exists p. split; auto. eapply nth_error_In; eauto.
    + intros H c D. apply in_map_iff in D as (p & <- & D). apply In_nth_error in D as [i D]. eapply H; eauto.
  - rewrite existsb_exists. split.
    + intros (c & D & ->). apply in_map_iff in D as (p & P & D). apply In_nth_error in D as [i D]. eauto.
    + intros (i & p & E & B). exists true. split; auto. apply in_map_iff. exists p. split; auto.
      eapply nth_error_In; eauto.
Qed.

(** ** Extremal lanes *)

Lemma fold_extreme (R : Z -> Z -> Prop) (f : Z -> Z -> Z) l :
  (forall x, R x x) -> (forall x y z, R x y -> R y z -> R x z) ->
  (forall x p, (f x p = x \/ f x p = p) /\ R x (f x p) /\ R p (f x p)) ->
  forall x, In (fold_left f l x) (x :: l) /\ forall p, In p (x :: l) -> R p (fold_left f l x).
Proof.
  intros Rr Rt H. induction l as [|q l IH]; intros x; cbn [fold_left].
  - split; [cbn; auto|]. intros p [<-|[]]. apply Rr.
  - destruct (IH (f x q)) as [I B]. destruct (H x q) as (S & Rx & Rq). split.
    + destruct I as [<-|I]; [|cbn; auto]. destruct S as [-> | ->]; cbn; auto.
    + intros p [<-|[<-|P]].
      * eapply Rt; [exact Rx|]. apply B; cbn; auto.
      * eapply Rt; [exact Rq|]. apply B; cbn; auto.
      * apply B; cbn; auto.
Qed.

Lemma extreme_loop (R : Z -> Z -> Prop) t f v :
  (forall x, R x x) -> (forall x y z, R x y -> R y z -> R x z) ->
  (forall x p, (f x p = x \/ f x p = p) /\ R x (f x p) /\ R p (f x p)) ->
  vector_type t -> is_vector t v ->
  exists r, reduce_loop t f v = Ok r /\ In r v /\ forall p, In p v -> R p r.
Proof.
  intros Rr Rt H T V. destruct (reduce_loop_fold t f v T V) as (p & l & -> & ->).
  destruct (fold_extreme R f l Rr Rt H p) as [I B]. eauto.
Qed.

Definition val_le t (p q : Z) : Prop := value t p <= value t q.
Definition val_ge t (p q : Z) : Prop := value t q <= value t p.

Ltac ext_case := intros; split; [|split];
  repeat match goal with |- context [if ?c <? ?d then _ else _] => destruct (Z.ltb_spec c d) end;
  auto; unfold val_le, val_ge in *; lia.

Lemma value_ival' t p : integer_type t -> ival (vkind t) (vb t) p = value t p.
Proof. intros T. symmetry. apply value_ival. now apply int_kind. Qed.

(** C30 *)
Theorem extreme_elements tg t v :
  integer_type t -> is_vector t v ->
  exists mx mn, max_element tg t v = Ok mx /\ min_element tg t v = Ok mn /\
    (exists i, lane v i mx) /\ (exists i, lane v i mn) /\
    forall i p, lane v i p -> value t mn <= value t p <= value t mx.
Proof.
  intros T V. pose proof (integer_vector_type t T) as VT.
  assert (GX : exists mx, max_element tg t v = Ok mx /\ In mx v /\ forall p, In p v -> val_le t p mx).
  { assert (L : exists r, reduce_loop t (elem_max (vkind t) (vb t)) v = Ok r /\ In r v /\
                forall p, In p v -> val_le t p r).
    { apply extreme_loop; auto; try (unfold val_le; intros; lia).
      intros x p. unfold elem_max, val_le. rewrite !value_ival' by auto.
      destruct (int_kind t T) as [-> | ->];
      destruct (Z.ltb_spec (value t p) (value t x)); repeat split; auto; lia. }
    assert (D : exists r, Ok (simd_reduce_max (vkind t) (vb t) v) = Ok r /\ In r v /\
                forall p, In p v -> val_le t p r).
    { unfold simd_reduce_max. destruct v as [|p l].
      - destruct V as [V _], VT as (_ & N & _). cbn in V. lia.
      - eexists; split; [reflexivity|].
        apply (fold_extreme (val_le t)); try (unfold val_le; intros; lia).
        intros x q. unfold lane_max, val_le. rewrite !value_ival' by auto.
        destruct (int_kind t T) as [-> | ->];
        destruct (Z.ltb_spec (value t x) (value t q)); repeat split; auto; lia. }
    unfold max_element. destruct (t_arch tg); auto. }
  assert (GN : exists mn, min_element tg t v = Ok mn /\ In mn v /\ forall p, In p v -> val_ge t p mn).
  { assert (L : exists r, reduce_loop t (elem_min (vkind t) (vb t)) v = Ok r /\ In r v /\
                forall p, In p v -> val_ge t p r).
    { apply extreme_loop; auto; try (unfold val_ge; intros; lia).
      intros x p. unfold elem_min, val_ge. rewrite !value_ival' by auto.
      destruct (int_kind t T) as [-> | ->];
      destruct (Z.ltb_spec (value t p) (value t x)); repeat split; auto; lia. }
    assert (D : exists r, Ok (simd_reduce_min (vkind t) (vb t) v) = Ok r /\ In r v /\
                forall p, In p v -> val_ge t p r).
    { unfold simd_reduce_min. destruct v as [|p l].
      - destruct V as [V _], VT as (_ & N & _). cbn in V. lia.
      - eexists; split; [reflexivity|].
        apply (fold_extreme (val_ge t)); try (unfold val_ge; intros; lia).
        intros x q. unfold lane_min, val_ge. rewrite !value_ival' by auto.
        destruct (int_kind t T) as [-> | ->];
        destruct (Z.ltb_spec (value t q) (value t x)); repeat split; auto; lia. }
    unfold min_element. destruct (t_arch tg); auto. destruct (t_sse2 tg); auto. }
  destruct GX as (mx & EX & IX & BX), GN as (mn & EN & IN & BN).
  exists mx, mn. split; auto. split; auto.
  split; [apply In_nth_error in IX; exact IX|]. split; [apply In_nth_error in IN; exact IN|].
  intros i p E. apply nth_error_In in E. split; [apply BN|apply BX]; auto.
Qed.

(** ** Bit masks *)

Lemma pack_testbit l : forall i, (i < length l)%nat ->
  Z.testbit (pack l) (Z.of_nat i) = nth i l false.
Proof.
  induction l as [|c l IH]; intros i I; cbn [length] in I; [lia|].
  cbn [pack nth]. destruct i as [|i].
  - rewrite Z.add_comm. apply Z.testbit_0_r.
  - rewrite Nat2Z.inj_succ, Z.add_comm, Z.testbit_succ_r by lia. apply IH. lia.
Qed.

Lemma pack_testbit_high l j : Z.of_nat (length l) <= j -> Z.testbit (pack l) j = false.
Proof.
  intros J. destruct (Z.eq_dec (pack l) 0) as [->|N]; [apply Z.bits_0|].
  pose proof (pack_nonneg l). pose proof (pack_bound l).
  apply Z.bits_above_log2; auto. eapply Z.lt_le_trans; [|exact J].
  apply Z.log2_lt_pow2; lia.
Qed.

Lemma bitmask_length tg t v : is_vector t v ->
  length (if t_big_endian tg then rev (map (msb (vb t)) v) else map (msb (vb t)) v) = vn t.
Proof. intros [L _]. destruct (t_big_endian tg); rewrite ?rev_length, map_length; auto. Qed.

Lemma bitmask_bits tg t v i p : is_vector t v -> lane v i p ->
  Z.testbit (bitmask tg t v) (Z.of_nat (if t_big_endian tg then vn t - 1 - i else i))
  = msb (vb t) p.
Proof.
  intros V E. pose proof (lane_index t v i p V E) as I. pose proof V as [L _].
  unfold bitmask, simd_bitmask.
  assert (N : nth i (map (msb (vb t)) v) false = msb (vb t) p)
    by (apply nth_error_nth, map_nth_error, E).
  destruct (t_big_endian tg).
  - rewrite pack_testbit by (rewrite rev_length, map_length; lia).
    rewrite rev_nth by (rewrite map_length; lia).
    rewrite map_length, L. replace (vn t - S (vn t - 1 - i))%nat with i by lia. exact N.
  - rewrite pack_testbit by (rewrite map_length; lia). exact N.
Qed.

Lemma msb_negative t p : (0 < vb t)%nat -> pattern (vb t) p ->
  (msb (vb t) p = true <-> 2 ^ (width t - 1) <= p).
Proof.
  intros Hb [P0 P1]. unfold msb. fold (width t).
  pose proof (half_pos (vb t) Hb) as HP. pose proof (modulus_half (vb t) Hb) as MH.
  change (bits (vb t)) with (width t) in *.
  assert (W : 0 <= width t - 1) by (unfold width; clear - Hb; lia).
  rewrite Z.testbit_true by exact W.
  destruct (Z.lt_ge_cases p (2 ^ (width t - 1))) as [S|S].
  - rewrite Z.div_small by (split; auto). cbn. split; [discriminate|].
    intros H. exfalso. exact (Z.lt_irrefl _ (Z.le_lt_trans _ _ _ H S)).
  - split; auto. intros _.
    replace (p / 2 ^ (width t - 1)) with 1; [reflexivity|].
    apply Z.div_unique with (p - 2 ^ (width t - 1)); [left|]; lia.
Qed.

(** C22 *)
Theorem bitmask_spec tg t v :
  vector_type t -> is_vector t v ->
  0 <= bitmask tg t v < 2 ^ Z.of_nat (vn t) /\
  forall i p, lane v i p ->
    Z.testbit (bitmask tg t v) (Z.of_nat (if t_big_endian tg then vn t - 1 - i else i))
    = Z.testbit p (width t - 1).
Proof.
  intros T V. split; [split|].
  - apply pack_nonneg.
  - unfold bitmask, simd_bitmask. eapply Z.lt_le_trans; [apply pack_bound|].
    rewrite (bitmask_length tg t v V). lia.
  - intros i p E. apply bitmask_bits; auto.
Qed.

Theorem bitmask_mask tg t m :
  mask_type t -> canonical t m ->
  (forall i p, lane m i p ->
     Z.testbit (bitmask tg t m) (Z.of_nat (if t_big_endian tg then vn t - 1 - i else i)) = truth p) /\
  (bitmask tg t m = 0 <-> forall i p, lane m i p -> truth p = false) /\
  (bitmask tg t m = 2 ^ Z.of_nat (vn t) - 1 <-> forall i p, lane m i p -> truth p = true).
Proof.
  intros [_ T] C. pose proof (canonical_vector t m C) as V. pose proof T as (Hb & _).
  assert (M : map (msb (vb t)) m = map truth m).
  { rewrite (canonical_map_truth t m C) at 1. rewrite map_map.
    rewrite <- (map_id (map truth m)) at 2. apply map_ext. intros c. now apply msb_mlane. }
  split; [|].
  - intros i p E. rewrite (bitmask_bits tg t m i p V E).
    rewrite (canonical_lane t m i p C E), <- mlane_mask_lane, msb_mlane by auto.
    now rewrite truth_mlane.
  - pose proof (bitmask_length tg t m V) as BL.
    assert (IN : forall c, In c (if t_big_endian tg then rev (map (msb (vb t)) m) else map (msb (vb t)) m)
                 <-> exists i p, lane m i p /\ truth p = c).
    { intros c. rewrite M. transitivity (In c (map truth m)).
      - destruct (t_big_endian tg); [symmetry; apply in_rev|reflexivity].
      - rewrite in_map_iff. split.
        + intros (p & <- & I). apply In_nth_error in I as [i I]. eauto.
        + intros (i & p & E & <-). exists p; split; auto. eapply nth_error_In; eauto. }
    unfold bitmask, simd_bitmask.
    set (l := if t_big_endian tg then _ else _) in *. clearbody l. rewrite <- BL. split.
    + rewrite <- Z.eqb_eq, pack_zero, negb_true_iff. unfold any_true.
      rewrite <- not_true_iff_false, existsb_exists. split.
      * intros H i p E. destruct (truth p) eqn:D; auto. exfalso. apply H. exists true.
        split; auto. apply IN. eauto.
      * intros H (c & I & ->). apply IN in I as (i & p & E & D). rewrite (H i p E) in D. discriminate.
    + rewrite <- Z.eqb_eq, pack_full. unfold all_true. rewrite forallb_forall. split.
      * intros H i p E. apply H. apply IN. eauto.
      * intros H c I. apply IN in I as (i & p & E & <-). eauto.
Qed.

(** The result type of [bitmask] has a bit for every lane. *)
Theorem bitmask_fits pb d tg v :
  In d (decls pb) -> vkind (d_ty d) <> KFloat -> vkind (d_ty d) <> KPtr ->
  vector_type (d_ty d) -> is_vector (d_ty d) v ->
  bitmask tg (d_ty d) v < 2 ^ (8 * Z.of_nat (d_bitmask d)).
Proof.
  intros D NF NP T V. destruct (bitmask_spec tg (d_ty d) v T V) as [[_ B] _].
  eapply Z.lt_le_trans; [exact B|]. apply Z.pow_le_mono_r; [lia|].
  assert (H : forallb (fun d => match vkind (d_ty d) with KFloat | KPtr => true
              | _ => Nat.leb (vn (d_ty d)) (8 * d_bitmask d) end) (decls pb) = true)
    by (vm_compute; reflexivity).
  rewrite forallb_forall in H. specialize (H d D).
  destruct (vkind (d_ty d)); try congruence; apply Nat.leb_le in H; clear - H; lia.
Qed.
