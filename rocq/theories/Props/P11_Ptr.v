(** C36-C39, C43: vectors of pointers. *)
From Coq Require Import ZArith List Bool Lia.
From Verif.Model Require Import Base Llvm Bytes Tables Minimal Ptr Ops.
From Verif.Spec Require Import Spec Memory.
From Verif.Proofs Require Import Lib PtrP GatherP.
From Verif.Props Require Import Tac Targets.
Import ListNotations.
Open Scope Z_scope.

(** C36: wrapping_offset adds the signed count times the element size, modulo the pointer width; offset agrees. *)
Theorem C36_offsets : forall tg n size p c,
  vector_type (ptr_ty tg n) -> is_vector (ptr_ty tg n) p -> is_vector (isize_ty tg n) c ->
  lanewise2 (ptr_ty tg n) p c (wrapping_offset tg n size p c)
    (fun a k r => r = (a + value (isize_ty tg n) k * size) mod 2 ^ width (ptr_ty tg n)) /\
  offset tg n size p c = wrapping_offset tg n size p c.
Proof. exact offsets. Qed.
Print Assumptions C36_offsets.

(** C36: wrapping_add/add and wrapping_sub/sub move by the unsigned count. *)
Theorem C36_counted_offsets : forall tg n size p c,
  vector_type (ptr_ty tg n) -> is_vector (ptr_ty tg n) p -> is_vector (usize_ty tg n) c ->
  (exists r, ptr_wrapping_add tg n size p c = Ok r /\ ptr_add tg n size p c = Ok r /\
     lanewise2 (ptr_ty tg n) p c r (fun a k r => r = (a + k * size) mod 2 ^ width (ptr_ty tg n))) /\
  (exists r, ptr_wrapping_sub tg n size p c = Ok r /\ ptr_sub tg n size p c = Ok r /\
     lanewise2 (ptr_ty tg n) p c r (fun a k r => r = (a - k * size) mod 2 ^ width (ptr_ty tg n))).
Proof. exact counted_offsets. Qed.
Print Assumptions C36_counted_offsets.

(** C36: offsets compose additively, 0 is neutral, and wrapping_sub undoes wrapping_add. *)
Theorem C36_laws : forall tg n size p c d,
  vector_type (ptr_ty tg n) -> is_vector (ptr_ty tg n) p ->
  is_vector (isize_ty tg n) c -> is_vector (isize_ty tg n) d ->
  wrapping_offset tg n size (wrapping_offset tg n size p c) d
    = wrapping_offset tg n size p (add (isize_ty tg n) c d) /\
  wrapping_offset tg n size p (splat (isize_ty tg n) 0) = p /\
  (forall r, ptr_wrapping_add tg n size p c = Ok r -> ptr_wrapping_sub tg n size r c = Ok p).
Proof. exact offset_laws. Qed.
Print Assumptions C36_laws.

Example C36_example :
  vector_type (ptr_ty x86_64_base 2) /\ is_vector (ptr_ty x86_64_base 2) [2 ^ 64 - 8; 4096] /\
  is_vector (isize_ty x86_64_base 2) [3; 2 ^ 64 - 5] /\
  wrapping_offset x86_64_base 2 4 [2 ^ 64 - 8; 4096] [3; 2 ^ 64 - 5] = [4; 4076] /\
  ptr_wrapping_sub x86_64_base 2 4 [4; 4096] [3; 5] = Ok [2 ^ 64 - 8; 4076].
Proof. split; [ty|]. split; [isv|]. split; [isv|]. split; vm_compute; reflexivity. Qed.

(** C37: wrapping_offset_from(origin) is (origin - self) / size in wrapping signed arithmetic; offset_from agrees. *)
Theorem C37_difference : forall tg n size p q,
  vector_type (ptr_ty tg n) -> is_vector (ptr_ty tg n) p -> is_vector (ptr_ty tg n) q ->
  0 < size < 2 ^ (width (ptr_ty tg n) - 1) ->
  exists r, wrapping_offset_from tg n size p q = Ok r /\ offset_from tg n size p q = Ok r /\
    lanewise2 (isize_ty tg n) p q r (fun a b k =>
      exists d, wraps_to (isize_ty tg n) (b - a) d /\ value (isize_ty tg n) k = Z.quot d size).
Proof. exact offset_from_spec. Qed.
Print Assumptions C37_difference.

(** C37: p.wrapping_offset(c).wrapping_offset_from(p) is -c; with receiver and origin exchanged it is c. *)
Theorem C37_after_offset : forall tg n size p c,
  vector_type (ptr_ty tg n) -> is_vector (ptr_ty tg n) p -> is_vector (isize_ty tg n) c ->
  0 < size < 2 ^ (width (ptr_ty tg n) - 1) ->
  (forall i k, lane c i k ->
     - 2 ^ (width (ptr_ty tg n) - 1) < value (isize_ty tg n) k * size < 2 ^ (width (ptr_ty tg n) - 1)) ->
  exists r, wrapping_offset_from tg n size (wrapping_offset tg n size p c) p = Ok r /\
    lanewise1 (isize_ty tg n) c r (fun k l => value (isize_ty tg n) l = - value (isize_ty tg n) k) /\
  exists r', wrapping_offset_from tg n size p (wrapping_offset tg n size p c) = Ok r' /\ r' = c.
Proof. exact offset_from_offset. Qed.
Print Assumptions C37_after_offset.

(** C37: for zero-sized elements the division is undefined. *)
Theorem C37_zero_sized : forall tg n p q,
  vector_type (ptr_ty tg n) -> is_vector (ptr_ty tg n) p -> is_vector (ptr_ty tg n) q ->
  wrapping_offset_from tg n 0 p q = UB.
Proof. exact offset_from_undefined. Qed.
Print Assumptions C37_zero_sized.

(** C37: so the documented inverse relation is false. *)
Theorem C37_inverse_of_offset_refuted : exists tg n size p c,
  vector_type (ptr_ty tg n) /\ is_vector (ptr_ty tg n) p /\ is_vector (isize_ty tg n) c /\ 0 < size /\
  wrapping_offset_from tg n size (wrapping_offset tg n size p c) p <> Ok c.
Proof.
  exists x86_64_base, 2%nat, 4, [4096; 8192], [3; 1].
  split; [ty|]. split; [isv|]. split; [isv|]. split; [lia|]. vm_compute. discriminate.
Qed.
Print Assumptions C37_inverse_of_offset_refuted.

Example C37_example :
  vector_type (ptr_ty x86_64_base 2) /\ is_vector (ptr_ty x86_64_base 2) [4096; 8192] /\
  is_vector (isize_ty x86_64_base 2) [3; 1] /\ 0 < 4 < 2 ^ (width (ptr_ty x86_64_base 2) - 1) /\
  (forall i k, lane [3; 1] i k -> - 2 ^ (width (ptr_ty x86_64_base 2) - 1) <
     value (isize_ty x86_64_base 2) k * 4 < 2 ^ (width (ptr_ty x86_64_base 2) - 1)) /\
  wrapping_offset_from x86_64_base 2 4 [4108; 8196] [4096; 8192] = Ok [2 ^ 64 - 3; 2 ^ 64 - 1].
Proof.
  split; [ty|]. split; [isv|]. split; [isv|]. split; [vm_compute; split; reflexivity|].
  split; [|vm_compute; reflexivity].
  intros [|[|[|i]]] k; cbn [lane nth_error]; intros [= <-]; vm_compute; split; reflexivity.
Qed.

(** C38: enabled lanes are read from memory, disabled ones taken from the default; undefined exactly if some enabled lane is misaligned or inaccessible. *)
Theorem C38_gather : forall tg t tm al m ptrs mask value,
  vector_type t -> 0 < al -> mask_type tm -> vn tm = vn t -> canonical tm mask ->
  is_vector (ptr_ty tg (vn t)) ptrs -> is_vector t value ->
  (forall a x, m a = Some x -> 0 <= x < 256) ->
  ((forall i p, enabled mask i -> lane ptrs i p -> valid_at (vb t) al m p) ->
     exists r, ptr_read tg t tm al m ptrs mask value = Ok r /\ is_vector t r /\
       (forall i p q, enabled mask i -> lane ptrs i p -> 0 <= q < 2 ^ width t ->
          holds (t_big_endian tg) (vb t) m p q -> lane r i q) /\
       (forall i v, disabled mask i -> lane value i v -> lane r i v)) /\
  (~ (forall i p, enabled mask i -> lane ptrs i p -> valid_at (vb t) al m p) ->
     ptr_read tg t tm al m ptrs mask value = UB).
Proof. exact gather_spec. Qed.
Print Assumptions C38_gather.

(** C38: only the bytes of enabled lanes matter: a disabled lane may hold any pointer. *)
Theorem C38_local : forall tg t tm al m m' ptrs mask value,
  vn tm = vn t -> canonical tm mask -> is_vector (ptr_ty tg (vn t)) ptrs -> is_vector t value ->
  (forall i p a, enabled mask i -> lane ptrs i p -> covers (vb t) p a -> m a = m' a) ->
  ptr_read tg t tm al m ptrs mask value = ptr_read tg t tm al m' ptrs mask value.
Proof. exact gather_local. Qed.
Print Assumptions C38_local.

Example C38_example :
  let m := fun a => if (64 <=? a) && (a <? 72) then Some a else None in
  vector_type u32x4 /\ mask_type m32x4 /\ canonical m32x4 [2 ^ 32 - 1; 0; 2 ^ 32 - 1; 0] /\
  is_vector (ptr_ty x86_64_base 4) [68; 0; 64; 2 ^ 64 - 1] /\ is_vector u32x4 [1; 2; 3; 4] /\
  (forall a x, m a = Some x -> 0 <= x < 256) /\
  (forall i p, enabled [2 ^ 32 - 1; 0; 2 ^ 32 - 1; 0] i -> lane [68; 0; 64; 2 ^ 64 - 1] i p -> valid_at 4 4 m p) /\
  ptr_read x86_64_base u32x4 m32x4 4 m [68; 0; 64; 2 ^ 64 - 1] [2 ^ 32 - 1; 0; 2 ^ 32 - 1; 0] [1; 2; 3; 4]
    = Ok [1195787588; 2; 1128415552; 4] /\
  ptr_read x86_64_base u32x4 m32x4 4 m [66; 0; 64; 2 ^ 64 - 1] [2 ^ 32 - 1; 0; 2 ^ 32 - 1; 0] [1; 2; 3; 4] = UB.
Proof.
  intros m. split; [ty|]. split; [ty|]. split; [canon|]. split; [isv|]. split; [isv|]. split; [|split; [|split]].
  - intros a x. unfold m. destruct ((64 <=? a) && (a <? 72)) eqn:E; [|discriminate].
    apply andb_prop in E as [E1 E2]. intros [= <-]. lia.
  - intros [|[|[|[|[|i]]]]] p (c & L & T) P; cbn [lane nth_error] in L, P; try discriminate;
      injection L as <-; injection P as <-; try discriminate;
      (split; [apply Z.mod_divide; [discriminate|reflexivity]|]); intros a R; unfold m;
      (replace ((64 <=? a) && (a <? 72)) with true; [discriminate|symmetry; apply andb_true_intro; lia]).
  - vm_compute; reflexivity.
  - vm_compute; reflexivity.
Qed.

(** C39: every byte of an enabled lane holds the value of the last enabled lane covering it, no other byte changes; undefined exactly if some enabled lane is misaligned or inaccessible. *)
Theorem C39_scatter : forall tg t tm al m ptrs mask value,
  vector_type t -> 0 < al -> mask_type tm -> vn tm = vn t -> canonical tm mask ->
  is_vector (ptr_ty tg (vn t)) ptrs -> is_vector t value ->
  ((forall i p, enabled mask i -> lane ptrs i p -> valid_at (vb t) al m p) ->
     exists m', ptr_write tg t tm al m ptrs mask value = Ok m' /\
       (forall a, (forall i p, enabled mask i -> lane ptrs i p -> ~ covers (vb t) p a) -> m' a = m a) /\
       (forall i p v a, enabled mask i -> lane ptrs i p -> lane value i v -> covers (vb t) p a ->
          (forall j q, (i < j)%nat -> enabled mask j -> lane ptrs j q -> ~ covers (vb t) q a) ->
          m' a = Some (byte_of (t_big_endian tg) (vb t) v (Z.to_nat (a - p))))) /\
  (~ (forall i p, enabled mask i -> lane ptrs i p -> valid_at (vb t) al m p) ->
     ptr_write tg t tm al m ptrs mask value = UB).
Proof. exact scatter_spec. Qed.
Print Assumptions C39_scatter.

(** C39: when enabled pointers are equal or disjoint, a gather returns the last value scattered to each address. *)
Theorem C39_gather_after_scatter : forall tg t tm al m m' ptrs mask value other,
  vector_type t -> 0 < al -> mask_type tm -> vn tm = vn t -> canonical tm mask ->
  is_vector (ptr_ty tg (vn t)) ptrs -> is_vector t value -> is_vector t other ->
  (forall a x, m a = Some x -> 0 <= x < 256) ->
  (forall i j p q, enabled mask i -> enabled mask j -> lane ptrs i p -> lane ptrs j q ->
     p = q \/ p + Z.of_nat (vb t) <= q \/ q + Z.of_nat (vb t) <= p) ->
  ptr_write tg t tm al m ptrs mask value = Ok m' ->
  exists r, ptr_read tg t tm al m' ptrs mask other = Ok r /\ is_vector t r /\
    (forall i j p v, enabled mask i -> enabled mask j -> lane ptrs i p -> lane ptrs j p -> lane value j v ->
       (forall k, (j < k)%nat -> enabled mask k -> ~ lane ptrs k p) -> lane r i v) /\
    (forall i x, disabled mask i -> lane other i x -> lane r i x).
Proof. exact gather_scatter. Qed.
Print Assumptions C39_gather_after_scatter.

Example C39_example :
  let m := fun a => if (64 <=? a) && (a <? 72) then Some a else None in
  vector_type u16x4 /\ mask_type m16x4 /\ canonical m16x4 [65535; 0; 65535; 65535] /\
  is_vector (ptr_ty x86_64_base 4) [68; 0; 64; 68] /\ is_vector u16x4 [1; 2; 3; 1027] /\
  (forall i p, enabled [65535; 0; 65535; 65535] i -> lane [68; 0; 64; 68] i p -> valid_at 2 2 m p) /\
  (exists m', ptr_write x86_64_base u16x4 m16x4 2 m [68; 0; 64; 68] [65535; 0; 65535; 65535] [1; 2; 3; 1027] = Ok m' /\
     map m' [0; 64; 65; 66; 67; 68; 69; 70] =
       [None; Some 3; Some 0; Some 66; Some 67; Some 3; Some 4; Some 70] /\
     ptr_read x86_64_base u16x4 m16x4 2 m' [68; 0; 64; 68] [65535; 0; 65535; 65535] [9; 9; 9; 9] = Ok [1027; 9; 3; 1027]).
Proof.
  intros m. split; [ty|]. split; [ty|]. split; [canon|]. split; [isv|]. split; [isv|]. split.
  - intros [|[|[|[|[|i]]]]] p (c & L & T) P; cbn [lane nth_error] in L, P; try discriminate;
      injection L as <-; injection P as <-; try discriminate;
      (split; [apply Z.mod_divide; [discriminate|reflexivity]|]); intros a R; unfold m;
      (replace ((64 <=? a) && (a <? 72)) with true; [discriminate|symmetry; apply andb_true_intro; lia]).
  - eexists. split; [vm_compute; reflexivity|]. split; vm_compute; reflexivity.
Qed.

(** C43: vertical comparisons compare the addresses as unsigned integers. *)
Theorem C43_comparisons : forall tg n x y,
  vector_type (ptr_ty tg n) -> is_vector (ptr_ty tg n) x -> is_vector (ptr_ty tg n) y ->
  let ok (m : vec) (R : Z -> Z -> bool) :=
    canonical (msize_ty tg n) m /\
    forall i a b, lane x i a -> lane y i b -> lane m i (mask_lane (msize_ty tg n) (R a b)) in
  ok (ptr_eq tg n x y) Z.eqb /\ ok (ptr_ne tg n x y) (fun a b => negb (a =? b)) /\
  ok (ptr_lt tg n x y) Z.ltb /\ ok (ptr_le tg n x y) Z.leb /\
  ok (ptr_gt tg n x y) Z.gtb /\ ok (ptr_ge tg n x y) Z.geb.
Proof. exact ptr_comparisons. Qed.
Print Assumptions C43_comparisons.

(** C43: is_null tests for address 0; null() and the default are null in every lane. *)
Theorem C43_null : forall tg n x,
  vector_type (ptr_ty tg n) -> is_vector (ptr_ty tg n) x ->
  canonical (msize_ty tg n) (ptr_is_null tg n x) /\
  (forall i a, lane x i a -> lane (ptr_is_null tg n x) i (mask_lane (msize_ty tg n) (a =? 0))) /\
  is_vector (ptr_ty tg n) (ptr_null tg n) /\
  (forall i, (i < n)%nat -> lane (ptr_null tg n) i 0) /\
  ptr_default tg n = ptr_null tg n.
Proof. exact ptr_nulls. Qed.
Print Assumptions C43_null.

(** C43: == and != are equality of all addresses. *)
Theorem C43_equality : forall tg n x y,
  t_ptr tg = 4%nat \/ t_ptr tg = 8%nat -> n = 2%nat \/ n = 4%nat \/ n = 8%nat ->
  is_vector (ptr_ty tg n) x -> is_vector (ptr_ty tg n) y ->
  (exists r, ptr_op_eq tg n x y = Some (Ok r) /\ (r = true <-> x = y)) /\
  (exists r, ptr_op_ne tg n x y = Some (Ok r) /\ (r = true <-> x <> y)).
Proof. exact ptr_equality. Qed.
Print Assumptions C43_equality.

Example C43_example :
  vector_type (ptr_ty x86_64_base 2) /\ is_vector (ptr_ty x86_64_base 2) [0; 2 ^ 63] /\
  is_vector (ptr_ty x86_64_base 2) [1; 5] /\
  ptr_lt x86_64_base 2 [0; 2 ^ 63] [1; 5] = [2 ^ 64 - 1; 0] /\
  ptr_is_null x86_64_base 2 [0; 2 ^ 63] = [2 ^ 64 - 1; 0] /\
  ptr_op_eq x86_64_base 2 [0; 2 ^ 63] [0; 2 ^ 63] = Some (Ok true) /\
  ptr_op_ne x86_64_base 2 [0; 2 ^ 63] [0; 5] = Some (Ok true).
Proof. split; [ty|]. split; [isv|]. split; [isv|]. split; [|split; [|split]]; vm_compute; reflexivity. Qed.
