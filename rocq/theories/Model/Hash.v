(** Hash (src/api/hash.rs, src/api/minimal/ptr.rs).  A hasher is an arbitrary state
    machine; what core feeds it is a sequence of calls. *)
From Coq Require Import ZArith List Bool.
From Verif.Model Require Import Base Bytes Cast Ptr.
Import ListNotations.
Open Scope Z_scope.

(** The methods of [core::hash::Hasher] that hashing an integer array calls. *)
Inductive hasher_call :=
| WriteLength (n : Z)            (* write_usize / write_length_prefix *)
| Write (bytes : list Z).

(** A hasher with states [S]. *)
Record hasher (S : Type) := {
  on_length : S -> Z -> S;
  on_bytes : S -> list Z -> S
}.
Arguments on_length {S} h s n.
Arguments on_bytes {S} h s l.
Definition feed {S} (h : hasher S) (s : S) (calls : list hasher_call) : S :=
  fold_left (fun s c => match c with WriteLength n => on_length h s n | Write l => on_bytes h s l end) calls s.

(** core's [Hash for [T; N]] with T an integer type of [b] bytes: the length, then
    the bytes of the slice in one write (core::hash, impl_write!). *)
Definition array_calls (be : bool) (b : nat) (a : list Z) : list hasher_call :=
  [WriteLength (Z.of_nat (length a)); Write (array_image be b a)].

(** [hash] of an integer vector (src/api/hash.rs:5-16): a union gives the array. *)
Definition hash_calls (tg : target) (t : vty) (v : vec) : list hasher_call :=
  array_calls (t_big_endian tg) (vb t) (into_array (t_big_endian tg) t v).

(** [hash] of a pointer vector (src/api/minimal/ptr.rs:991-997): as usizexN. *)
Definition ptr_hash_calls (tg : target) (n : nat) (v : vec) : list hasher_call :=
  hash_calls tg (usize_ty tg n) (same_size tg n v).
