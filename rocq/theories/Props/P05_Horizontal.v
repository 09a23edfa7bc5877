(** C22, C28 - C31: bitmask, horizontal reductions and iterator sums. *)
From Coq Require Import ZArith List Bool Lia Permutation.
From Verif.Model Require Import Base Tables Ops Reduce.
From Verif.Spec Require Import Spec Horizontal.
From Verif.Proofs Require Import Lib ReduceP ExtraP.
From Verif.Props Require Import Tac Targets.
Import ListNotations.
Open Scope Z_scope.

(** C22: on a little-endian target bit i of bitmask() is the top bit of lane i; on a big-endian one lanes come in the opposite order; no other bit is set. *)
Theorem C22_bitmask : forall tg t v,
  vector_type t -> is_vector t v ->
  0 <= bitmask tg t v < 2 ^ Z.of_nat (vn t) /\
  forall i p, lane v i p ->
    Z.testbit (bitmask tg t v) (Z.of_nat (if t_big_endian tg then vn t - 1 - i else i))
    = Z.testbit p (width t - 1).
Proof. exact bitmask_spec. Qed.
Print Assumptions C22_bitmask.

(** C22: for masks these are the truth values; bitmask() is 0 iff no lane is true and 2^lanes - 1 iff all are. *)
Theorem C22_masks : forall tg t m,
  mask_type t -> canonical t m ->
  (forall i p, lane m i p ->
     Z.testbit (bitmask tg t m) (Z.of_nat (if t_big_endian tg then vn t - 1 - i else i)) = truth p) /\
  (bitmask tg t m = 0 <-> forall i p, lane m i p -> truth p = false) /\
  (bitmask tg t m = 2 ^ Z.of_nat (vn t) - 1 <-> forall i p, lane m i p -> truth p = true).
Proof. exact bitmask_mask. Qed.
Print Assumptions C22_masks.

(** C22: the integer type returned by bitmask() has room for every lane. *)
Theorem C22_fits : forall pb d tg v,
  In d (decls pb) -> vkind (d_ty d) <> KFloat -> vkind (d_ty d) <> KPtr ->
  vector_type (d_ty d) -> is_vector (d_ty d) v ->
  bitmask tg (d_ty d) v < 2 ^ (8 * Z.of_nat (d_bitmask d)).
Proof. exact bitmask_fits. Qed.
Print Assumptions C22_fits.

(** C22: "bit i is lane i" does not hold on every target. *)
Theorem C22_same_on_all_targets_refuted : exists tg tg' t m,
  mask_type t /\ canonical t m /\ bitmask tg t m = 1 /\ bitmask tg' t m = 2.
Proof.
  exists x86_64_avx2, s390x, m8x2, [255; 0]. split; [ty|]. split; [canon|].
  split; vm_compute; reflexivity.
Qed.
Print Assumptions C22_same_on_all_targets_refuted.

Example C22_example :
  vector_type i8x4 /\ is_vector i8x4 [128; 127; 255; 0] /\
  bitmask x86_64_avx2 i8x4 [128; 127; 255; 0] = 5 /\ bitmask s390x i8x4 [128; 127; 255; 0] = 10.
Proof. split; [ty|]. split; [isv|]. split; vm_compute; reflexivity. Qed.

(** C28: wrapping_sum and wrapping_product are the wrapped sum and product of the lanes. *)
Theorem C28_reductions : forall tg t v,
  integer_type t -> is_vector t v ->
  exists s p, wrapping_sum tg t v = Ok s /\ wrapping_product tg t v = Ok p /\
    0 <= s < 2 ^ width t /\ 0 <= p < 2 ^ width t /\
    wraps_to t (sum (values t v)) (value t s) /\
    wraps_to t (product (values t v)) (value t p).
Proof. exact wrapping_reductions. Qed.
Print Assumptions C28_reductions.

(** C28: the order of the lanes and the target do not matter. *)
Theorem C28_order : forall tg tg' t v w,
  integer_type t -> is_vector t v -> is_vector t w -> Permutation v w ->
  wrapping_sum tg t v = wrapping_sum tg' t w /\ wrapping_product tg t v = wrapping_product tg' t w.
Proof. exact wrapping_reductions_order. Qed.
Print Assumptions C28_order.

(** C28: wrapping_sum is additive. *)
Theorem C28_additive : forall tg t v w,
  integer_type t -> is_vector t v -> is_vector t w ->
  exists a b c, wrapping_sum tg t v = Ok a /\ wrapping_sum tg t w = Ok b /\
    wrapping_sum tg t (add t v w) = Ok c /\ wraps_to t (value t a + value t b) (value t c).
Proof. exact wrapping_sum_additive. Qed.
Print Assumptions C28_additive.

Example C28_example :
  integer_type i8x4 /\ is_vector i8x4 [100; 100; 255; 2] /\
  wrapping_sum x86_64_avx2 i8x4 [100; 100; 255; 2] = Ok 201 /\
  wrapping_sum aarch64_neon i8x4 [2; 255; 100; 100] = Ok 201 /\
  sum (values i8x4 [100; 100; 255; 2]) = 201 /\ value i8x4 201 = -55.
Proof. split; [ity|]. split; [isv|]. repeat split; vm_compute; reflexivity. Qed.

(** C29: and / or / xor of integer vectors, bit by bit. *)
Theorem C29_integers : forall tg t v,
  integer_type t -> is_vector t v ->
  exists a o x, reduce_and tg t v = Ok a /\ reduce_or tg t v = Ok o /\ reduce_xor tg t v = Ok x /\
    0 <= a < 2 ^ width t /\ 0 <= o < 2 ^ width t /\ 0 <= x < 2 ^ width t /\
    forall j, 0 <= j < width t ->
      (Z.testbit a j = true <-> forall i p, lane v i p -> Z.testbit p j = true) /\
      (Z.testbit o j = true <-> exists i p, lane v i p /\ Z.testbit p j = true) /\
      Z.testbit x j = odd_count (bit_column j v).
Proof. exact bit_reductions. Qed.
Print Assumptions C29_integers.

(** C29: and / or / xor of masks. *)
Theorem C29_masks : forall tg t m,
  mask_type t -> canonical t m ->
  exists a o x, mask_and tg t m = Ok a /\ mask_or tg t m = Ok o /\ mask_xor tg t m = Ok x /\
    (a = true <-> forall i p, lane m i p -> truth p = true) /\
    (o = true <-> exists i p, lane m i p /\ truth p = true) /\
    x = odd_count (map truth m).
Proof. exact mask_bit_reductions. Qed.
Print Assumptions C29_masks.

Example C29_example :
  integer_type u8x4 /\ is_vector u8x4 [12; 10; 14; 11] /\
  reduce_and x86_64_avx2 u8x4 [12; 10; 14; 11] = Ok 8 /\
  reduce_or aarch64_neon u8x4 [12; 10; 14; 11] = Ok 15 /\
  reduce_xor x86_64_avx2 u8x4 [12; 10; 14; 11] = Ok 3 /\
  mask_type m8x2 /\ canonical m8x2 [255; 0] /\
  mask_and x86_64_avx2 m8x2 [255; 0] = Ok false /\ mask_xor aarch64_neon m8x2 [255; 0] = Ok true.
Proof.
  split; [ity|]. split; [isv|]. do 3 (split; [vm_compute; reflexivity|]).
  split; [ty|]. split; [canon|]. split; vm_compute; reflexivity.
Qed.

(** C30: max_element and min_element are the largest and the smallest lane, on every target. *)
Theorem C30_elements : forall tg t v,
  integer_type t -> is_vector t v ->
  exists mx mn, max_element tg t v = Ok mx /\ min_element tg t v = Ok mn /\
    (exists i, lane v i mx) /\ (exists i, lane v i mn) /\
    forall i p, lane v i p -> value t mn <= value t p <= value t mx.
Proof. exact extreme_elements. Qed.
Print Assumptions C30_elements.

Example C30_example :
  integer_type i8x4 /\ is_vector i8x4 [5; 128; 127; 0] /\
  max_element x86_64_avx2 i8x4 [5; 128; 127; 0] = Ok 127 /\
  min_element aarch64_neon i8x4 [5; 128; 127; 0] = Ok 128.
Proof. split; [ity|]. split; [isv|]. split; vm_compute; reflexivity. Qed.

(** C31: Sum and Product over an iterator of vectors are lane-wise wrapped sums and products; an empty iterator gives 0 and 1. *)
Theorem C31_iterators : forall t vs,
  integer_type t -> Forall (is_vector t) vs ->
  is_vector t (iter_sum t vs) /\ is_vector t (iter_product t vs) /\
  forall i, (i < vn t)%nat ->
    exists s p, lane (iter_sum t vs) i s /\ lane (iter_product t vs) i p /\
      wraps_to t (sum (values t (column i vs))) (value t s) /\
      wraps_to t (product (values t (column i vs))) (value t p).
Proof. exact iterator_sums. Qed.
Print Assumptions C31_iterators.

(** C31: the order of the items does not matter. *)
Theorem C31_order : forall t vs ws,
  integer_type t -> Forall (is_vector t) vs -> Permutation vs ws ->
  iter_sum t vs = iter_sum t ws /\ iter_product t vs = iter_product t ws.
Proof. exact iterator_order. Qed.
Print Assumptions C31_order.

Example C31_example :
  integer_type u8x2 /\ Forall (is_vector u8x2) [[200; 1]; [100; 2]; [3; 3]] /\
  iter_sum u8x2 [[200; 1]; [100; 2]; [3; 3]] = [47; 6] /\
  iter_product u8x2 [] = [1; 1].
Proof.
  split; [ity|]. split; [repeat (apply Forall_cons; [isv|]); apply Forall_nil|].
  split; vm_compute; reflexivity.
Qed.
