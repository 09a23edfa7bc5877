(** The minimal API: construction and lane access
    (src/api/minimal/iuf.rs, src/api/minimal/mask.rs), defaults and select. *)
From Coq Require Import ZArith List Bool.
From Verif.Model Require Import Base FloatLane Llvm.
Import ListNotations.
Open Scope Z_scope.

(** [$id::lanes()] (src/api/minimal/iuf.rs:28-30, mask.rs:33-35). *)
Definition lanes (t : vty) : nat := vn t.

(** [index as u32]: the conversion from [usize] truncates. *)
Definition as_u32 (i : Z) : Z := i mod 2 ^ 32.

(** [$id::new(x0, x1, ..)] (src/api/minimal/iuf.rs:22-24).  The arguments are
    given as a list; a call with a number of arguments other than lanes() does
    not compile ([None]). *)
Definition new (t : vty) (xs : list Z) : option vec :=
  if Nat.eqb (length xs) (vn t) then Some xs else None.

(** [$id::splat(value)] (src/api/minimal/iuf.rs:35-41). *)
Definition splat (t : vty) (x : Z) : vec := repeat x (vn t).

(** [extract_unchecked] / [extract] (src/api/minimal/iuf.rs:60-64, 49-52). *)
Definition extract_unchecked (t : vty) (v : vec) (index : Z) : outcome Z :=
  simd_extract v (as_u32 index).
Definition extract (t : vty) (v : vec) (index : Z) : outcome Z :=
  _ <- assert (index <? Z.of_nat (vn t)) ;;
  extract_unchecked t v index.

(** [replace_unchecked] / [replace] (src/api/minimal/iuf.rs:91-98, 76-79). *)
Definition replace_unchecked (t : vty) (v : vec) (index : Z) (x : Z) : outcome vec :=
  simd_insert v (as_u32 index) x.
Definition replace (t : vty) (v : vec) (index : Z) (x : Z) : outcome vec :=
  _ <- assert (index <? Z.of_nat (vn t)) ;;
  replace_unchecked t v index x.

(** Masks.  [bool_to_internal] (src/api/minimal/mask.rs:27-29):
    [0, !0][x as usize]. *)
Definition bool_to_internal (b : nat) (x : bool) : Z :=
  nth (if x then 1%nat else 0%nat) [0; wrap b (Z.lnot 0)] 0.

(** mask [new] (src/api/minimal/mask.rs:20-22), [splat] (40-46). *)
Definition mask_new (t : vty) (xs : list bool) : option vec :=
  new t (map (bool_to_internal (vb t)) xs).
Definition mask_splat (t : vty) (x : bool) : vec := splat t (bool_to_internal (vb t) x).

(** mask [extract_unchecked] / [extract] (src/api/minimal/mask.rs:65-69, 54-57). *)
Definition mask_extract_unchecked (t : vty) (v : vec) (index : Z) : outcome bool :=
  x <- simd_extract v (as_u32 index) ;; Ok (negb (x =? 0)).
Definition mask_extract (t : vty) (v : vec) (index : Z) : outcome bool :=
  _ <- assert (index <? Z.of_nat (vn t)) ;;
  mask_extract_unchecked t v index.

(** mask [replace_unchecked] / [replace] (src/api/minimal/mask.rs:98-106, 82-85). *)
Definition mask_replace_unchecked (t : vty) (v : vec) (index : Z) (x : bool) : outcome vec :=
  simd_insert v (as_u32 index) (bool_to_internal (vb t) x).
Definition mask_replace (t : vty) (v : vec) (index : Z) (x : bool) : outcome vec :=
  _ <- assert (index <? Z.of_nat (vn t)) ;;
  mask_replace_unchecked t v index x.

(** [z as $elem_ty] for a small integer literal. *)
Definition lit (k : kind) (b : nat) (z : Z) : Z :=
  match k with KFloat => fl_of_int b z | _ => wrap b z end.

(** [Default] (src/api/default.rs:3-12 for integers and floats: splat of the
    element's default, which is 0; src/api.rs:254 for masks: splat(false)). *)
Definition vdefault (t : vty) : vec :=
  match vkind t with
  | KMask => mask_splat t false
  | _ => splat t (lit (vkind t) (vb t) 0)
  end.

(** [mask.select(a, b)] (src/api/select.rs:13-19); [tm] is the mask's type. *)
Definition select (tm : vty) (m a b : vec) : outcome vec := simd_select (vb tm) m a b.
