(** C02, C03: reading from and writing to slices. *)
From Coq Require Import ZArith List Bool Lia.
From Verif.Model Require Import Base Tables Bytes Slice.
From Verif.Spec Require Import Spec Memory.
From Verif.Proofs Require Import Lib SliceP.
From Verif.Props Require Import Tac Targets.
Import ListNotations.
Open Scope Z_scope.

(** C02: from_slice_* read the first lanes() elements; the checked forms panic exactly when the slice is too short or misaligned. *)
Theorem C02_read : forall be dbg t al m s xs,
  vector_type t -> 0 < al -> length xs = s_len s ->
  Forall (fun p => 0 <= p < 2 ^ width t) xs ->
  array_at be (vb t) m (s_ptr s) xs ->
  ((s_len s < vn t)%nat ->
     from_slice_unaligned be dbg t m s = Panic /\ from_slice_aligned be dbg t al m s = Panic) /\
  ((vn t <= s_len s)%nat ->
     exists v, from_slice_unaligned be dbg t m s = Ok v /\
       from_slice_unaligned_unchecked be dbg t m s = Ok v /\
       (~ (al | s_ptr s) -> from_slice_aligned be dbg t al m s = Panic) /\
       ((al | s_ptr s) -> from_slice_aligned be dbg t al m s = Ok v /\
                          from_slice_aligned_unchecked be dbg t al m s = Ok v) /\
       is_vector t v /\ forall i p, (i < vn t)%nat -> (lane v i p <-> nth_error xs i = Some p)).
Proof. exact slice_read. Qed.
Print Assumptions C02_read.

(** C02: they depend on no memory outside the first lanes() elements. *)
Theorem C02_bounded : forall be dbg t al m m' s,
  (forall a, in_first (vb t) (vn t) (s_ptr s) a -> m a = m' a) ->
  from_slice_unaligned be dbg t m s = from_slice_unaligned be dbg t m' s /\
  from_slice_aligned be dbg t al m s = from_slice_aligned be dbg t al m' s.
Proof. exact slice_read_bounded. Qed.
Print Assumptions C02_bounded.

(** C03: write_to_slice_* store the lanes in the first lanes() elements and change nothing else; a panicking call changes nothing. *)
Theorem C03_write : forall be dbg t al v m s,
  vector_type t -> 0 < al -> is_vector t v ->
  accessible (vb t) (s_len s) m (s_ptr s) ->
  ((s_len s < vn t)%nat ->
     write_to_slice_unaligned be dbg t v m s = (m, Panic) /\
     write_to_slice_aligned be dbg t al v m s = (m, Panic)) /\
  ((vn t <= s_len s)%nat ->
     exists m', write_to_slice_unaligned be dbg t v m s = (m', Ok tt) /\
       write_to_slice_unaligned_unchecked be dbg t v m s = (m', Ok tt) /\
       (~ (al | s_ptr s) -> write_to_slice_aligned be dbg t al v m s = (m, Panic)) /\
       ((al | s_ptr s) -> write_to_slice_aligned be dbg t al v m s = (m', Ok tt) /\
                          write_to_slice_aligned_unchecked be dbg t al v m s = (m', Ok tt)) /\
       array_at be (vb t) m' (s_ptr s) v /\
       (forall a, ~ in_first (vb t) (vn t) (s_ptr s) a -> m' a = m a)).
Proof. exact slice_write. Qed.
Print Assumptions C03_write.

(** C03: reading back what was written gives the vector. *)
Theorem C03_round_trip : forall be dbg t v m s m',
  vector_type t -> is_vector t v -> accessible (vb t) (s_len s) m (s_ptr s) ->
  (vn t <= s_len s)%nat -> write_to_slice_unaligned be dbg t v m s = (m', Ok tt) ->
  from_slice_unaligned be dbg t m' s = Ok v.
Proof. exact slice_round_trip. Qed.
Print Assumptions C03_round_trip.

(** A memory with the eight bytes 1, 2, .., 8 from address 100 on. *)
Definition sample_mem : mem :=
  fun a => if (100 <=? a) && (a <? 108) then Some (a - 99) else None.

Example C02_example :
  vector_type u16x2 /\ Forall (fun p => 0 <= p < 2 ^ width u16x2) [513; 1027; 1541] /\
  array_at false (vb u16x2) sample_mem 100 [513; 1027; 1541] /\
  from_slice_unaligned false true u16x2 sample_mem {| s_ptr := 100; s_len := 3 |} = Ok [513; 1027] /\
  from_slice_aligned false true u16x2 8 sample_mem {| s_ptr := 100; s_len := 3 |} = Panic /\
  from_slice_aligned false true u16x2 4 sample_mem {| s_ptr := 100; s_len := 3 |} = Ok [513; 1027] /\
  from_slice_unaligned false true u16x2 sample_mem {| s_ptr := 100; s_len := 1 |} = Panic.
Proof.
  split; [ty|]. split; [repeat constructor; vm_compute; congruence|]. split.
  - intros [|[|[|i]]] p E; cbn in E; try (destruct i; discriminate E); injection E as <-;
      intros [|[|k]] K; try (cbn in K; lia); vm_compute; reflexivity.
  - repeat split; vm_compute; reflexivity.
Qed.

Example C03_example :
  vector_type u16x2 /\ is_vector u16x2 [65535; 258] /\ accessible (vb u16x2) 3 sample_mem 100 /\
  (let (m, r) := write_to_slice_unaligned false true u16x2 [65535; 258] sample_mem
                   {| s_ptr := 100; s_len := 3 |} in
   r = Ok tt /\ map m [99; 100; 101; 102; 103; 104] =
     [None; Some 255; Some 255; Some 2; Some 1; Some 5]).
Proof.
  split; [ty|]. split; [isv|]. split.
  - intros a [A1 A2]. cbn in A2. unfold sample_mem.
    destruct (Z.leb_spec 100 a); [|lia]. destruct (Z.ltb_spec a 108); [|lia]. discriminate.
  - vm_compute. split; reflexivity.
Qed.
