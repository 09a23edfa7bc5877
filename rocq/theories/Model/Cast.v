(** Casts and conversions (src/api/cast.rs, src/api/cast/macros.rs, src/api/from,
    src/api/into_bits). *)
From Coq Require Import ZArith List Bool.
From Verif.Model Require Import Base Llvm Bytes Tables Minimal Cmp.
Import ListNotations.
Open Scope Z_scope.

(** [from_cast] of [impl_from_cast_!] (src/api/cast/macros.rs:5-11).  The debug
    assertion (line 8) compares two lane counts that are equal for every entry of
    the tables, and is left out. *)
Definition from_cast_plain (tf tt : vty) (x : vec) : outcome vec :=
  simd_cast (vkind tf) (vb tf) (vkind tt) (vb tt) x.

(** [from_cast] of [impl_from_cast_mask_!] (src/api/cast/macros.rs:39-46): compare
    with the default, select true / false. *)
Definition from_cast_mask (tf tt : vty) (x : vec) : outcome vec :=
  select (mask_of tf) (vne tf x (vdefault tf)) (mask_splat tt true) (mask_splat tt false).

Definition from_cast (i : cast_impl) (tf tt : vty) (x : vec) : outcome vec :=
  match i with
  | PlainCast => from_cast_plain tf tt x
  | MaskCast => from_cast_mask tf tt x
  end.

(** [x.cast()] (src/api/cast.rs:65-79) is [from_cast]; the reflexive
    implementation (82-87) is the identity. *)
Definition cast (i : cast_impl) (tf tt : vty) (x : vec) : outcome vec := from_cast i tf tt x.
Definition cast_refl (x : vec) : vec := x.

(** [From<$source> for $id] (src/api/from/from_vector.rs:6-19). *)
Definition from_vector (tf tt : vty) (x : vec) : outcome vec :=
  simd_cast (vkind tf) (vb tf) (vkind tt) (vb tt) x.

(** [From<[T; N]>] and back (src/api/from/from_array.rs:6-15, 17-26): a union of
    the array and the vector.  An array is the list of its elements. *)
Definition array_image (be : bool) (b : nat) (a : list Z) : list Z := flat_map (lane_bytes be b) a.
Definition from_array (be : bool) (t : vty) (a : list Z) : vec :=
  of_image be (vb t) (vn t) (array_image be (vb t) a).
Definition into_array (be : bool) (t : vty) (v : vec) : list Z :=
  map (lane_value be) (groups (vn t) (vb t) (image be (vb t) v)).

(** [from_bits] (src/api/into_bits/macros.rs:5-9) and [into_bits]
    (src/api/into_bits.rs:18-27, whose debug assertion compares sizes that are
    equal for every entry of the tables); the reflexive [from_bits] (30-35). *)
Definition from_bits (be : bool) (tf tt : vty) (x : vec) : vec :=
  transmute be (vb tf) (vb tt) (vn tt) x.
Definition into_bits (be : bool) (tf tt : vty) (x : vec) : vec := from_bits be tf tt x.
Definition from_bits_refl (x : vec) : vec := x.
