(** Vectors of pointers: offsets, comparisons, gather and scatter. *)
From Coq Require Import ZArith List Bool Lia.
From Verif.Model Require Import Base Llvm Bytes Minimal MaskReduce Ops Cmp Cast Tables Ptr.
From Verif.Spec Require Import Spec Memory.
From Verif.Proofs Require Import Lib MinimalP OpsP OpsP2 BytesP MaskReduceP CmpP SliceP CastP LawsP.
Import ListNotations.
Open Scope Z_scope.

Lemma same_size_id tg n v : is_vector (ptr_ty tg n) v -> same_size tg n v = v.
Proof. intros H. apply is_vector_wf in H. now apply transmute_id. Qed.

Lemma isize_int tg n : vector_type (ptr_ty tg n) -> integer_type (isize_ty tg n).
Proof. intros H. left. split; [reflexivity|exact H]. Qed.
Lemma usize_int tg n : vector_type (ptr_ty tg n) -> integer_type (usize_ty tg n).
Proof. intros H. right. split; [reflexivity|exact H]. Qed.

Lemma wrap_eq b x y : (modulus b | x - y) -> wrap b x = wrap b y.
Proof.
  intros [k E]. unfold wrap. replace x with (y + k * modulus b) by lia.
  apply Z.mod_add. pose proof (modulus_pos b). lia.
Qed.

Lemma wrap_add_wrap_r b x y : wrap b (x + wrap b y) = wrap b (x + y).
Proof. unfold wrap. apply Z.add_mod_idemp_r. pose proof (modulus_pos b). lia. Qed.
Lemma wrap_add_wrap_l b x y : wrap b (wrap b x + y) = wrap b (x + y).
Proof. unfold wrap. apply Z.add_mod_idemp_l. pose proof (modulus_pos b). lia. Qed.
Lemma wrap_mul_wrap_r b x y : wrap b (x * wrap b y) = wrap b (x * y).
Proof. unfold wrap. apply Z.mul_mod_idemp_r. pose proof (modulus_pos b). lia. Qed.
Lemma wrap_mul_wrap_l b x y : wrap b (wrap b x * y) = wrap b (x * y).
Proof. unfold wrap. apply Z.mul_mod_idemp_l. pose proof (modulus_pos b). lia. Qed.

Lemma offset_lanes tg n size p c :
  vector_type (ptr_ty tg n) -> is_vector (ptr_ty tg n) p -> is_vector (isize_ty tg n) c ->
  wrapping_offset tg n size p c = map2 (fun a k => wrap (t_ptr tg) (a + k * size)) p c.
Proof.
  intros T P C. unfold wrapping_offset. rewrite (same_size_id tg n p P).
  rewrite add_eq by (now apply isize_int). unfold mul_vs. rewrite mul_eq by (now apply isize_int).
  unfold splat. rewrite map2_repeat_r by apply C. rewrite map2_map_r.
  assert (E : map2 (fun a b => wrap (vb (isize_ty tg n))
      (a + wrap (vb (isize_ty tg n)) (b * size_as_isize tg size))) p c
      = map2 (fun a k => wrap (t_ptr tg) (a + k * size)) p c).
  { apply map2_ext. intros a k _ _. cbn [vb isize_ty]. unfold size_as_isize.
    rewrite wrap_mul_wrap_r. apply wrap_add_wrap_r. }
  rewrite E. apply same_size_id. split.
  - apply map2_length_eq; [apply P|apply C].
  - apply Forall_map2. intros a k _ _. apply wrap_pattern.
Qed.

Lemma offset_vector tg n size p c :
  vector_type (ptr_ty tg n) -> is_vector (ptr_ty tg n) p -> is_vector (isize_ty tg n) c ->
  is_vector (ptr_ty tg n) (wrapping_offset tg n size p c).
Proof.
  intros T P C. rewrite offset_lanes by auto. split.
  - apply map2_length_eq; [apply P|apply C].
  - apply Forall_map2. intros a k _ _. apply wrap_pattern.
Qed.

Lemma wrap_value tg n k : (0 < t_ptr tg)%nat -> pattern (t_ptr tg) k ->
  forall a size, wrap (t_ptr tg) (a + k * size) = wrap (t_ptr tg) (a + value (isize_ty tg n) k * size).
Proof.
  intros B K a size. apply wrap_eq.
  assert (D : (modulus (t_ptr tg) | k - value (isize_ty tg n) k)) by exact (sval_divide (t_ptr tg) k).
  destruct D as [q E]. exists (q * size). lia.
Qed.

Theorem offsets tg n size p c :
  vector_type (ptr_ty tg n) -> is_vector (ptr_ty tg n) p -> is_vector (isize_ty tg n) c ->
  lanewise2 (ptr_ty tg n) p c (wrapping_offset tg n size p c)
    (fun a k r => r = (a + value (isize_ty tg n) k * size) mod 2 ^ width (ptr_ty tg n)) /\
  offset tg n size p c = wrapping_offset tg n size p c.
Proof.
  intros T P C. split; [|reflexivity]. rewrite offset_lanes by auto.
  apply (lanewise2_map2 (ptr_ty tg n)); auto.
  intros a k _ K. split; [apply wrap_pattern|]. apply wrap_value; auto. apply T.
Qed.

Lemma as_isize_ok tg n c : is_vector (usize_ty tg n) c -> as_isize tg n c = Ok c.
Proof.
  intros [L F]. unfold as_isize, cast, from_cast, from_cast_plain.
  rewrite simd_cast_int; [|unfold int_like; auto|unfold int_like; auto]. f_equal.
  rewrite <- (map_id c) at 2. apply map_ext_in. intros a A. rewrite Forall_forall in F.
  cbn [vb isize_ty]. unfold ival. cbn [is_signed vkind usize_ty]. apply wrap_id. exact (F a A).
Qed.

Theorem counted_offsets tg n size p c :
  vector_type (ptr_ty tg n) -> is_vector (ptr_ty tg n) p -> is_vector (usize_ty tg n) c ->
  (exists r, ptr_wrapping_add tg n size p c = Ok r /\ ptr_add tg n size p c = Ok r /\
     lanewise2 (ptr_ty tg n) p c r (fun a k r => r = (a + k * size) mod 2 ^ width (ptr_ty tg n))) /\
  (exists r, ptr_wrapping_sub tg n size p c = Ok r /\ ptr_sub tg n size p c = Ok r /\
     lanewise2 (ptr_ty tg n) p c r (fun a k r => r = (a - k * size) mod 2 ^ width (ptr_ty tg n))).
Proof.
  intros T P C.
  assert (CI : is_vector (isize_ty tg n) c) by exact C.
  unfold ptr_wrapping_add, ptr_add, ptr_wrapping_sub, ptr_sub, offset.
  rewrite as_isize_ok by auto. cbn [bind]. split; (eexists; split; [reflexivity|split; [reflexivity|]]).
  - rewrite offset_lanes by auto. apply (lanewise2_map2 (ptr_ty tg n)); auto.
    intros a k _ K. split; [apply wrap_pattern|]. reflexivity.
  - unfold mul_sv. rewrite mul_eq by now apply isize_int. unfold splat.
    rewrite map2_repeat_l by apply C. cbn [vb isize_ty].
    rewrite offset_lanes; auto.
    + rewrite map2_map_r. apply (lanewise2_map2 (ptr_ty tg n)); auto.
      intros a k _ K. split; [apply wrap_pattern|].
      change (wrap (t_ptr tg) (a + wrap (t_ptr tg) (wrap (t_ptr tg) (-1) * k) * size)
              = wrap (t_ptr tg) (a - k * size)).
      rewrite wrap_mul_wrap_l. rewrite <- wrap_add_wrap_r, wrap_mul_wrap_l, wrap_add_wrap_r.
      f_equal. ring.
    + apply is_vector_wf. split; [rewrite map_length; apply C|].
      apply Forall_forall. intros q Q. apply in_map_iff in Q as (k & <- & _). apply wrap_pattern.
Qed.

Theorem offset_laws tg n size p c d :
  vector_type (ptr_ty tg n) -> is_vector (ptr_ty tg n) p ->
  is_vector (isize_ty tg n) c -> is_vector (isize_ty tg n) d ->
  wrapping_offset tg n size (wrapping_offset tg n size p c) d
    = wrapping_offset tg n size p (add (isize_ty tg n) c d) /\
  wrapping_offset tg n size p (splat (isize_ty tg n) 0) = p /\
  (forall r, ptr_wrapping_add tg n size p c = Ok r -> ptr_wrapping_sub tg n size r c = Ok p).
Proof.
  intros T P C D. pose proof (offset_vector tg n size p c T P C) as V1.
  assert (CU : is_vector (usize_ty tg n) c) by exact C.
  pose proof (modulus_pos (t_ptr tg)) as MP.
  split; [|split].
  - rewrite (offset_lanes tg n size (wrapping_offset _ _ _ _ _) d) by auto.
    assert (A : is_vector (isize_ty tg n) (add (isize_ty tg n) c d)).
    { rewrite add_eq by now apply isize_int. apply is_vector_wf. split.
      - apply map2_length_eq; [apply C|apply D].
      - apply Forall_map2. intros; apply wrap_pattern. }
    rewrite !offset_lanes by auto. rewrite add_eq by now apply isize_int. cbn [vb isize_ty].
    clear. revert c d. induction p as [|a p IH]; intros [|k c] [|l d]; cbn [map2]; auto.
    f_equal; [|apply IH]. rewrite wrap_add_wrap_l, <- (wrap_add_wrap_r _ a), wrap_mul_wrap_l, wrap_add_wrap_r.
    f_equal. ring.
  - assert (S0 : is_vector (isize_ty tg n) (splat (isize_ty tg n) 0)).
    { apply is_vector_splat. cbv beta. split; [lia|]. exact MP. }
    rewrite offset_lanes by auto. unfold splat. rewrite map2_repeat_r by apply P.
    rewrite <- (map_id p) at 2. apply map_ext_in. intros a A.
    destruct P as [_ F]. rewrite Forall_forall in F.
    replace (a + 0 * size) with a by ring. apply wrap_id. exact (F a A).
  - intros r E. destruct (counted_offsets tg n size p c T P CU) as [(r' & E1 & _ & V' & L1) _].
    assert (r' = r) by congruence. subst r'.
    destruct (counted_offsets tg n size r c T V' CU) as [_ (q & E2 & _ & VQ & L2)].
    rewrite E2. f_equal. apply (vec_ext (ptr_ty tg n)); auto.
    intros i x a X A.
    destruct (is_vector_ex (usize_ty tg n) c i CU) as [k K]; [exact (lane_index _ _ _ _ P A)|].
    destruct (L1 i a k A K) as (b & B & ->).
    destruct (L2 i _ k B K) as (y & Y & ->).
    unfold lane in X, Y. rewrite X in Y. injection Y as ->.
    pose proof (is_vector_lane _ _ _ _ P A) as PA.
    change (wrap (t_ptr tg) (wrap (t_ptr tg) (a + k * size) - k * size) = a).
    unfold Z.sub. rewrite wrap_add_wrap_l. rewrite <- (wrap_id (t_ptr tg) a PA) at 2.
    f_equal. ring.
Qed.

(** *** wrapping_offset_from *)

Lemma offset_from_div tg n size p q :
  vector_type (ptr_ty tg n) -> is_vector (ptr_ty tg n) p -> is_vector (ptr_ty tg n) q ->
  wrapping_offset_from tg n size p q
  = div_vs (isize_ty tg n) (sub (isize_ty tg n) q p) (size_as_isize tg size).
Proof. intros T P Q. unfold wrapping_offset_from. now rewrite !same_size_id by auto. Qed.

Lemma small_size tg n size :
  (0 < t_ptr tg)%nat -> 0 <= size < 2 ^ (width (ptr_ty tg n) - 1) ->
  size_as_isize tg size = size /\ value (isize_ty tg n) size = size /\
  0 <= size < 2 ^ width (isize_ty tg n).
Proof.
  intros B S. pose proof (modulus_half (t_ptr tg) B) as H.
  change (width (ptr_ty tg n)) with (bits (t_ptr tg)) in S.
  assert (R : pattern (t_ptr tg) size) by (unfold pattern; clear - S H; lia).
  split; [|split]; [now apply wrap_id| |exact R].
  unfold value. cbn [vkind isize_ty]. change (width (isize_ty tg n)) with (bits (t_ptr tg)).
  destruct (Z.ltb_spec size (2 ^ (bits (t_ptr tg) - 1))); [reflexivity|clear - S H0; lia].
Qed.

Theorem offset_from_spec tg n size p q :
  vector_type (ptr_ty tg n) -> is_vector (ptr_ty tg n) p -> is_vector (ptr_ty tg n) q ->
  0 < size < 2 ^ (width (ptr_ty tg n) - 1) ->
  exists r, wrapping_offset_from tg n size p q = Ok r /\ offset_from tg n size p q = Ok r /\
    lanewise2 (isize_ty tg n) p q r (fun a b k =>
      exists d, wraps_to (isize_ty tg n) (b - a) d /\ value (isize_ty tg n) k = Z.quot d size).
Proof.
  intros T P Q S. unfold offset_from. rewrite offset_from_div by auto.
  pose proof (isize_int tg n T) as TI.
  destruct (small_size tg n size (proj1 T)) as (E1 & E2 & E3); [clear - S; lia|].
  rewrite E1.
  assert (D : is_vector (isize_ty tg n) (sub (isize_ty tg n) q p)).
  { rewrite sub_eq by auto. apply is_vector_wf. split.
    - apply map2_length_eq; [apply Q|apply P].
    - apply Forall_map2. intros; apply wrap_pattern. }
  destruct (div_correct (isize_ty tg n) (sub (isize_ty tg n) q p) (splat (isize_ty tg n) size))
    as (r & E & V & L); auto.
  - apply is_vector_splat. exact E3.
  - intros i a b _ B [Z | (_ & _ & M)]; apply splat_lane_inv in B; subst b; rewrite E2 in *; clear - S Z || clear - S M; lia.
  - exists r. split; [exact E|]. split; [exact E|]. split; [exact V|].
    intros i a b A B.
    destruct (L i (wrap (t_ptr tg) (b - a)) size) as (k & K & EK).
    + rewrite sub_eq by auto. exact (nth_error_map2 _ _ _ _ _ _ B A).
    + exact (lane_splat (ptr_ty tg n) p i a size P A).
    + exists k. split; [exact K|]. rewrite E2 in EK. eexists. split; [|exact EK].
      exact (wraps_to_pattern (isize_ty tg n) (b - a) TI).
Qed.

Theorem offset_from_undefined tg n p q :
  vector_type (ptr_ty tg n) -> is_vector (ptr_ty tg n) p -> is_vector (ptr_ty tg n) q ->
  wrapping_offset_from tg n 0 p q = UB.
Proof.
  intros T P Q. rewrite offset_from_div by auto. pose proof (isize_int tg n T) as TI.
  assert (D : is_vector (isize_ty tg n) (sub (isize_ty tg n) q p)).
  { rewrite sub_eq by auto. apply is_vector_wf. split.
    - apply map2_length_eq; [apply Q|apply P].
    - apply Forall_map2. intros; apply wrap_pattern. }
  assert (Z0 : size_as_isize tg 0 = 0) by (unfold size_as_isize, wrap; apply Z.mod_0_l; pose proof (modulus_pos (t_ptr tg)); lia).
  rewrite Z0. unfold div_vs.
  assert (S0 : is_vector (isize_ty tg n) (splat (isize_ty tg n) 0)).
  { apply is_vector_splat. split; [lia|]. exact (modulus_pos (t_ptr tg)). }
  apply (div_undefined_iff (isize_ty tg n) _ _ TI D S0).
  destruct (is_vector_ex _ _ 0%nat D) as [a A]; [apply T|].
  exists 0%nat, a, 0. split; [exact A|]. split; [exact (lane_splat _ _ _ _ 0 D A)|].
  left. apply value_zero_iff; auto using zero_pattern.
Qed.

Theorem offset_from_offset tg n size p c :
  vector_type (ptr_ty tg n) -> is_vector (ptr_ty tg n) p -> is_vector (isize_ty tg n) c ->
  0 < size < 2 ^ (width (ptr_ty tg n) - 1) ->
  (forall i k, lane c i k ->
     - 2 ^ (width (ptr_ty tg n) - 1) < value (isize_ty tg n) k * size < 2 ^ (width (ptr_ty tg n) - 1)) ->
  exists r, wrapping_offset_from tg n size (wrapping_offset tg n size p c) p = Ok r /\
    lanewise1 (isize_ty tg n) c r (fun k l => value (isize_ty tg n) l = - value (isize_ty tg n) k) /\
  exists r', wrapping_offset_from tg n size p (wrapping_offset tg n size p c) = Ok r' /\ r' = c.
Proof.
  intros T P C S B. pose proof (isize_int tg n T) as TI.
  pose proof (offset_vector tg n size p c T P C) as V1.
  destruct (offsets tg n size p c T P C) as [[_ LO] _].
  assert (K0 : forall a r, wraps_to (isize_ty tg n) a r -> - 2 ^ (width (ptr_ty tg n) - 1) <= a < 2 ^ (width (ptr_ty tg n) - 1) -> r = a).
  { intros a r W R. apply (wraps_to_in_range (isize_ty tg n) a r TI W).
    unfold in_range, min_value, max_value. cbn [vkind isize_ty].
    change (width (isize_ty tg n)) with (width (ptr_ty tg n)). clear - R. lia. }
  destruct (offset_from_spec tg n size (wrapping_offset tg n size p c) p T V1 P S) as (r & E & _ & VR & L).
  exists r. split; [exact E|]. split; [split; [exact VR|]|].
  - intros i k K. destruct (is_vector_ex _ _ i P) as [a A]; [exact (lane_index _ _ _ _ C K)|].
    destruct (LO i a k A K) as (b & LB & EB).
    destruct (L i b a LB A) as (l & LL & d & W & EV). exists l. split; [exact LL|].
    rewrite EV. assert (ED : d = - (value (isize_ty tg n) k * size)).
    { apply K0; [|specialize (B i k K); clear - B; lia].
      apply (wraps_to_congr _ _ (a - b)); [|exact W].
      rewrite EB. replace (- (value (isize_ty tg n) k * size) - (a - (a + value (isize_ty tg n) k * size) mod 2 ^ width (ptr_ty tg n)))
        with ((a + value (isize_ty tg n) k * size) mod 2 ^ width (ptr_ty tg n) - (a + value (isize_ty tg n) k * size)) by ring.
      apply divide_sub_sym. exact (wrap_divide (t_ptr tg) (a + value (isize_ty tg n) k * size)). }
    rewrite ED. replace (- (value (isize_ty tg n) k * size)) with (- value (isize_ty tg n) k * size) by ring.
    apply Z.quot_mul. clear - S. lia.
  - destruct (offset_from_spec tg n size p (wrapping_offset tg n size p c) T P V1 S) as (r' & E' & _ & VR' & L').
    exists r'. split; [exact E'|]. apply (vec_ext (isize_ty tg n)); auto.
    intros i l k LL K. destruct (is_vector_ex _ _ i P) as [a A]; [exact (lane_index _ _ _ _ C K)|].
    destruct (LO i a k A K) as (b & LB & EB).
    destruct (L' i a b A LB) as (l' & LL' & d & W & EV).
    unfold lane in LL, LL'. rewrite LL in LL'. injection LL' as <-.
    apply (value_inj (isize_ty tg n)); auto.
    { exact (is_vector_lane _ _ _ _ VR' LL). } { exact (is_vector_lane _ _ _ _ C K). }
    rewrite EV. assert (ED : d = value (isize_ty tg n) k * size).
    { apply K0; [|specialize (B i k K); clear - B; lia].
      apply (wraps_to_congr _ _ (b - a)); [|exact W].
      rewrite EB. replace (value (isize_ty tg n) k * size - ((a + value (isize_ty tg n) k * size) mod 2 ^ width (ptr_ty tg n) - a))
        with ((a + value (isize_ty tg n) k * size) - (a + value (isize_ty tg n) k * size) mod 2 ^ width (ptr_ty tg n)) by ring.
      exact (wrap_divide (t_ptr tg) (a + value (isize_ty tg n) k * size)). }
    rewrite ED. apply Z.quot_mul. clear - S. lia.
Qed.

(** *** Comparisons *)

Theorem ptr_comparisons tg n x y :
  vector_type (ptr_ty tg n) -> is_vector (ptr_ty tg n) x -> is_vector (ptr_ty tg n) y ->
  let ok (m : vec) (R : Z -> Z -> bool) :=
    canonical (msize_ty tg n) m /\
    forall i a b, lane x i a -> lane y i b -> lane m i (mask_lane (msize_ty tg n) (R a b)) in
  ok (ptr_eq tg n x y) Z.eqb /\ ok (ptr_ne tg n x y) (fun a b => negb (a =? b)) /\
  ok (ptr_lt tg n x y) Z.ltb /\ ok (ptr_le tg n x y) Z.leb /\
  ok (ptr_gt tg n x y) Z.gtb /\ ok (ptr_ge tg n x y) Z.geb.
Proof.
  intros T X Y. unfold ptr_eq, ptr_ne, ptr_lt, ptr_le, ptr_gt, ptr_ge, ptr_cmp.
  rewrite !same_size_id by auto.
  assert (O : ordered_type (usize_ty tg n)) by (left; now apply usize_int).
  assert (VX : valid (usize_ty tg n) x) by (split; [exact X|discriminate]).
  assert (VY : valid (usize_ty tg n) y) by (split; [exact Y|discriminate]).
  exact (vertical_comparisons (usize_ty tg n) x y O VX VY).
Qed.

Theorem ptr_nulls tg n x :
  vector_type (ptr_ty tg n) -> is_vector (ptr_ty tg n) x ->
  canonical (msize_ty tg n) (ptr_is_null tg n x) /\
  (forall i a, lane x i a -> lane (ptr_is_null tg n x) i (mask_lane (msize_ty tg n) (a =? 0))) /\
  is_vector (ptr_ty tg n) (ptr_null tg n) /\
  (forall i, (i < n)%nat -> lane (ptr_null tg n) i 0) /\
  ptr_default tg n = ptr_null tg n.
Proof.
  intros T X.
  assert (N : is_vector (ptr_ty tg n) (ptr_null tg n)).
  { apply is_vector_splat. split; [lia|]. exact (modulus_pos (t_ptr tg)). }
  destruct (ptr_comparisons tg n x (ptr_null tg n) T X N) as [[C L] _].
  split; [exact C|]. split; [|split; [exact N|split; [|reflexivity]]].
  - intros i a A. apply L; auto. exact (lane_splat (ptr_ty tg n) x i a 0 X A).
  - intros i I. exact (nth_error_repeat 0 n i I).
Qed.

Theorem ptr_equality tg n x y :
  t_ptr tg = 4%nat \/ t_ptr tg = 8%nat -> n = 2%nat \/ n = 4%nat \/ n = 8%nat ->
  is_vector (ptr_ty tg n) x -> is_vector (ptr_ty tg n) y ->
  (exists r, ptr_op_eq tg n x y = Some (Ok r) /\ (r = true <-> x = y)) /\
  (exists r, ptr_op_ne tg n x y = Some (Ok r) /\ (r = true <-> x <> y)).
Proof.
  intros B N X Y.
  assert (T : vector_type (ptr_ty tg n)).
  { unfold vector_type. cbn [vb vn ptr_ty]. change (2 ^ 32) with 4294967296. clear - B N. lia. }
  destruct (ptr_comparisons tg n x y T X Y) as ((CE & LE) & (CN & LN) & _).
  unfold ptr_op_eq, ptr_op_ne.
  destruct (msize_reductions tg n (ptr_eq tg n x y) B N CE) as [(r1 & E1 & H1) _].
  destruct (msize_reductions tg n (ptr_ne tg n x y) B N CN) as [_ (r2 & E2 & H2)].
  assert (TB : (0 < vb (msize_ty tg n))%nat) by apply T.
  split.
  - exists r1. split; [exact E1|]. rewrite H1. split.
    + intros A. apply (vec_ext (ptr_ty tg n)); auto. intros i a b LA LB.
      specialize (A i _ (LE i a b LA LB)). rewrite truth_mask_lane in A by auto. now apply Z.eqb_eq.
    + intros <- i p P.
      assert (I : (i < n)%nat) by exact (lane_index (msize_ty tg n) _ _ _ (canonical_vector _ _ CE) P).
      destruct (is_vector_ex _ _ i X) as [a A]; [exact I|].
      pose proof (LE i a a A A) as Q. unfold lane in P, Q. rewrite P in Q. injection Q as ->.
      rewrite truth_mask_lane by auto. apply Z.eqb_refl.
  - exists r2. split; [exact E2|]. rewrite H2. split.
    + intros (i & p & P & TP) <-.
      assert (I : (i < n)%nat) by exact (lane_index (msize_ty tg n) _ _ _ (canonical_vector _ _ CN) P).
      destruct (is_vector_ex _ _ i X) as [a A]; [exact I|].
      pose proof (LN i a a A A) as Q. unfold lane in P, Q. rewrite P in Q. injection Q as ->.
      rewrite truth_mask_lane, Z.eqb_refl in TP by auto. discriminate.
    + intros D. destruct (list_eq_dec Z.eq_dec x y) as [|_]; [contradiction|].
      assert (X0 : exists i a b, lane x i a /\ lane y i b /\ a <> b).
      { destruct X as [LX _], Y as [LY _].
        assert (LL : length x = length y) by (unfold ptr_ty in LX, LY; congruence). clear - D LL.
        revert y D LL. induction x as [|a x IH]; intros [|b y] D LL; try discriminate; [now elim D|].
        destruct (Z.eq_dec a b) as [->|NE].
        - destruct (IH y) as (i & p & q & P & Q & NE); [congruence|now injection LL|].
          exists (S i), p, q. auto.
        - exists 0%nat, a, b. split; [reflexivity|]. split; [reflexivity|exact NE]. }
      destruct X0 as (i & a & b & A & Bq & NE).
      exists i, (mask_lane (msize_ty tg n) (negb (a =? b))). split; [now apply LN|].
      rewrite truth_mask_lane by auto. apply Z.eqb_neq in NE. now rewrite NE.
Qed.
