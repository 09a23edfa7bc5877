(** C26, C27, C52: byte swaps, endian conversions and bit counting. *)
From Coq Require Import ZArith List Bool Lia.
From Verif.Model Require Import Base Tables Bytes SwapBytes BitManip.
From Verif.Spec Require Import Spec Memory Horizontal Conv.
From Verif.Proofs Require Import Lib CastP SwapBytesP BitManipP.
From Verif.Props Require Import Tac Targets.
Import ListNotations.
Open Scope Z_scope.

(** C26: swap_bytes reverses the bytes of the whole vector: the lanes are reversed and each is byte-swapped; it is its own inverse. *)
Theorem C26_swap_bytes : forall pb be d v,
  (pb = 1 \/ pb = 2 \/ pb = 4 \/ pb = 8)%nat ->
  In d (decls pb) -> integer_type (d_ty d) -> is_vector (d_ty d) v ->
  let t := d_ty d in let sz := pointer_sized d in
  exists r, swap_bytes be sz t v = Ok r /\ is_vector t r /\
    (forall i p, lane v i p -> exists q, lane r (vn t - 1 - i) q /\ bytes_swapped (vb t) p q) /\
    (forall k x, (k < vb t * vn t)%nat ->
       (vector_byte be t r k x <-> vector_byte be t v (vb t * vn t - 1 - k) x)) /\
    swap_bytes be sz t r = Ok v.
Proof. exact swap_bytes_spec. Qed.
Print Assumptions C26_swap_bytes.

(** C26: to_le, to_be, from_le and from_be are the identity or swap_bytes depending on the target, and are inverse to each other. *)
Theorem C26_endian : forall pb be d v,
  (pb = 1 \/ pb = 2 \/ pb = 4 \/ pb = 8)%nat ->
  In d (decls pb) -> integer_type (d_ty d) -> is_vector (d_ty d) v ->
  let t := d_ty d in let sz := pointer_sized d in
  (be = false -> to_le be sz t v = Ok v /\ from_le be sz t v = Ok v /\
     to_be be sz t v = swap_bytes be sz t v /\ from_be be sz t v = swap_bytes be sz t v) /\
  (be = true -> to_be be sz t v = Ok v /\ from_be be sz t v = Ok v /\
     to_le be sz t v = swap_bytes be sz t v /\ from_le be sz t v = swap_bytes be sz t v) /\
  (exists r, to_le be sz t v = Ok r /\ from_le be sz t r = Ok v) /\
  (exists r, to_be be sz t v = Ok r /\ from_be be sz t r = Ok v).
Proof. exact endian_conversions. Qed.
Print Assumptions C26_endian.

Example C26_example : exists d,
  In d (decls 8) /\ integer_type (d_ty d) /\ is_vector (d_ty d) [258; 772] /\
  swap_bytes false (pointer_sized d) (d_ty d) [258; 772] = Ok [1027; 513] /\
  swap_bytes true (pointer_sized d) (d_ty d) [258; 772] = Ok [1027; 513].
Proof.
  destruct (find (fun d => vty_eqb (d_ty d) u16x2) (decls 8)) as [d|] eqn:E; [|vm_compute in E; discriminate].
  exists d. pose proof (find_some _ _ E) as [I _]. vm_compute in E. injection E as <-.
  split; [exact I|]. split; [ity|]. split; [isv|]. split; vm_compute; reflexivity.
Qed.

(** C52: the bytes of to_le() on a big-endian target are those of the lane-reversed vector on a little-endian one, so they agree exactly for vectors that read the same in both directions; likewise to_be(). *)
Theorem C52_images : forall pb d v r1 r2,
  (pb = 1 \/ pb = 2 \/ pb = 4 \/ pb = 8)%nat ->
  In d (decls pb) -> integer_type (d_ty d) -> is_vector (d_ty d) v ->
  let t := d_ty d in let sz := pointer_sized d in
  (to_le false sz t v = Ok r1 -> to_le true sz t v = Ok r2 ->
     (forall k x, vector_byte true t r2 k x <-> vector_byte false t (rev v) k x) /\
     ((forall k x, vector_byte true t r2 k x <-> vector_byte false t r1 k x) <-> v = rev v)) /\
  (to_be false sz t v = Ok r1 -> to_be true sz t v = Ok r2 ->
     (forall k x, vector_byte false t r1 k x <-> vector_byte true t (rev v) k x) /\
     ((forall k x, vector_byte true t r2 k x <-> vector_byte false t r1 k x) <-> v = rev v)).
Proof. exact endian_images. Qed.
Print Assumptions C52_images.

(** C52: to_le is not a portable serialisation. *)
Theorem C52_portable_refuted : exists d v r1 r2,
  In d (decls 8) /\ integer_type (d_ty d) /\ is_vector (d_ty d) v /\
  to_le false (pointer_sized d) (d_ty d) v = Ok r1 /\ to_le true (pointer_sized d) (d_ty d) v = Ok r2 /\
  ~ (forall k x, vector_byte true (d_ty d) r2 k x <-> vector_byte false (d_ty d) r1 k x).
Proof.
  destruct (find (fun d => vty_eqb (d_ty d) u16x2) (decls 8)) as [d|] eqn:E; [|vm_compute in E; discriminate].
  exists d, [1; 2], [1; 2], [512; 256]. pose proof (find_some _ _ E) as [I _]. vm_compute in E. injection E as <-.
  split; [exact I|]. split; [ity|]. split; [isv|].
  split; [vm_compute; reflexivity|]. split; [vm_compute; reflexivity|].
  intros H. specialize (H 0%nat 1). destruct H as [_ H].
  destruct H as (i & j & p & E & J & L & X).
  - exists 0%nat, 0%nat, 1. split; [reflexivity|]. split; [vm_compute; lia|]. split; reflexivity.
  - cbn [d_ty vb] in *. assert (i = 0%nat /\ j = 0%nat) as [-> ->] by lia.
    unfold lane in L. cbn in L. injection L as <-. vm_compute in X. discriminate.
Qed.
Print Assumptions C52_portable_refuted.

(** C27: the four bit-counting methods, lane by lane and on every target. *)
Theorem C27_counts : forall tg t x,
  integer_type t -> is_vector t x ->
  exists c1 c0 lz tz,
    count_ones tg t x = Ok c1 /\ count_zeros tg t x = Ok c0 /\
    leading_zeros tg t x = Ok lz /\ trailing_zeros tg t x = Ok tz /\
    lanewise1 t x c1 (fun a c => value t c = one_bits (8 * vb t) a) /\
    lanewise1 t x c0 (fun a c => value t c = zero_bits (8 * vb t) a) /\
    lanewise1 t x lz (fun a c => highest_zeros (width t) a (value t c)) /\
    lanewise1 t x tz (fun a c => lowest_zeros (width t) a (value t c)).
Proof. exact bit_counts. Qed.
Print Assumptions C27_counts.

Example C27_example :
  integer_type i8x2 /\ is_vector i8x2 [130; 0] /\
  count_ones x86_64_avx2 i8x2 [130; 0] = Ok [2; 0] /\ count_zeros s390x i8x2 [130; 0] = Ok [6; 8] /\
  leading_zeros x86_64_avx2 i8x2 [130; 0] = Ok [0; 8] /\ trailing_zeros s390x i8x2 [130; 0] = Ok [1; 8].
Proof. split; [ity|]. split; [isv|]. repeat split; vm_compute; reflexivity. Qed.
