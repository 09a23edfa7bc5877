(** Reading from and writing to slices (src/api/slice/from_slice.rs,
    src/api/slice/write_to_slice.rs; the same code for pointer vectors in
    src/api/minimal/ptr.rs:583-640, 797-853, without the debug assertions).

    [al] is [align_of::<Self>()], which the ABI decides.  [be] is the byte order,
    [dbg] whether debug assertions are on. *)
From Coq Require Import ZArith List Bool.
From Verif.Model Require Import Base Bytes Minimal.
Import ListNotations.
Open Scope Z_scope.

(** [size_of::<Self>()]. *)
Definition size_of (t : vty) : nat := (vb t * vn t)%nat.

Definition debug_assert (dbg c : bool) : outcome unit := assert (negb dbg || c).

(** [slice.len() >= $elem_count]. *)
Definition long_enough (t : vty) (s : slice) : bool := Nat.leb (vn t) (s_len s).

(** [*(ptr as *const Self)]: undefined unless aligned and accessible. *)
Definition deref_vec (be : bool) (t : vty) (al : Z) (m : mem) (a : Z) : outcome vec :=
  if aligned a al
  then l <- load_bytes m a (size_of t) ;; Ok (of_image be (vb t) (vn t) l)
  else UB.

(** from_slice_aligned_unchecked (from_slice.rs:42-49). *)
Definition from_slice_aligned_unchecked (be dbg : bool) (t : vty) (al : Z) (m : mem) (s : slice)
    : outcome vec :=
  _ <- debug_assert dbg (long_enough t s) ;;
  _ <- debug_assert dbg (aligned (s_ptr s) al) ;;
  deref_vec be t al m (s_ptr s).

(** from_slice_unaligned_unchecked (57-65): bytes are copied over a zero vector. *)
Definition from_slice_unaligned_unchecked (be dbg : bool) (t : vty) (m : mem) (s : slice)
    : outcome vec :=
  _ <- debug_assert dbg (long_enough t s) ;;
  l <- load_bytes m (s_ptr s) (size_of t) ;;
  Ok (of_image be (vb t) (vn t) l).

(** from_slice_aligned (13-20). *)
Definition from_slice_aligned (be dbg : bool) (t : vty) (al : Z) (m : mem) (s : slice) : outcome vec :=
  _ <- assert (long_enough t s) ;;
  _ <- assert (aligned (s_ptr s) al) ;;
  from_slice_aligned_unchecked be dbg t al m s.

(** from_slice_unaligned (28-33). *)
Definition from_slice_unaligned (be dbg : bool) (t : vty) (m : mem) (s : slice) : outcome vec :=
  _ <- assert (long_enough t s) ;;
  from_slice_unaligned_unchecked be dbg t m s.

(** A procedure that may change memory: the memory afterwards (also when it
    panics) and the outcome. *)
Definition effect := (mem * outcome unit)%type.
Definition eassert (c : bool) (m : mem) (k : effect) : effect :=
  if c then k else (m, Panic).
Definition edebug_assert (dbg c : bool) (m : mem) (k : effect) : effect :=
  eassert (negb dbg || c) m k.
Definition estore (m : mem) (a : Z) (l : list Z) : effect :=
  match store_bytes m a l with
  | Ok m' => (m', Ok tt)
  | Panic => (m, Panic)
  | UB => (m, UB)
  end.

(** write_to_slice_aligned_unchecked (write_to_slice.rs:43-53). *)
Definition write_to_slice_aligned_unchecked (be dbg : bool) (t : vty) (al : Z) (v : vec) (m : mem)
    (s : slice) : effect :=
  edebug_assert dbg (long_enough t s) m (
  edebug_assert dbg (aligned (s_ptr s) al) m (
  if aligned (s_ptr s) al then estore m (s_ptr s) (image be (vb t) v) else (m, UB))).

(** write_to_slice_unaligned_unchecked (61-66). *)
Definition write_to_slice_unaligned_unchecked (be dbg : bool) (t : vty) (v : vec) (m : mem)
    (s : slice) : effect :=
  edebug_assert dbg (long_enough t s) m (
  estore m (s_ptr s) (image be (vb t) v)).

(** write_to_slice_aligned (13-20). *)
Definition write_to_slice_aligned (be dbg : bool) (t : vty) (al : Z) (v : vec) (m : mem) (s : slice)
    : effect :=
  eassert (long_enough t s) m (
  eassert (aligned (s_ptr s) al) m (
  write_to_slice_aligned_unchecked be dbg t al v m s)).

(** write_to_slice_unaligned (28-33). *)
Definition write_to_slice_unaligned (be dbg : bool) (t : vty) (v : vec) (m : mem) (s : slice) : effect :=
  eassert (long_enough t s) m (
  write_to_slice_unaligned_unchecked be dbg t v m s).
