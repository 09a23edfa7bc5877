(** Vectors of pointers (src/api/minimal/ptr.rs, src/api/ptr/gather_scatter.rs,
    src/vPtr.rs).  A pointer is its address; provenance is not modelled.  [tg] gives
    the pointer width and the byte order, [n] is 2, 4 or 8 (src/vPtr.rs:6-34).
    [*const T] and [*mut T] vectors share the code of impl_minimal_p!.  Slices and
    arrays of pointers: Model/Slice.v and Model/Cast.v. *)
From Coq Require Import ZArith List Bool.
From Verif.Model Require Import Base Llvm Bytes Minimal MaskReduce Ops Cmp Cast Tables.
Import ListNotations.
Open Scope Z_scope.

(** cptrxN / mptrxN, usizexN, isizexN and msizexN. *)
Definition ptr_ty (tg : target) (n : nat) : vty := V KPtr (t_ptr tg) n.
Definition usize_ty (tg : target) (n : nat) : vty := V KUint (t_ptr tg) n.
Definition isize_ty (tg : target) (n : nat) : vty := V KInt (t_ptr tg) n.
Definition msize_ty (tg : target) (n : nat) : vty := V KMask (t_ptr tg) n.

(** [mem::transmute] between pointer, usize and isize vectors. *)
Definition same_size (tg : target) (n : nat) (v : vec) : vec :=
  transmute (t_big_endian tg) (t_ptr tg) (t_ptr tg) n v.

(** new 23-25, splat 36-42, extract 64-78, replace 92-114: as for the other
    vectors (Model/Minimal.v). *)
Definition ptr_new (tg : target) (n : nat) (xs : list Z) : option vec := new (ptr_ty tg n) xs.
Definition ptr_splat (tg : target) (n : nat) (a : Z) : vec := splat (ptr_ty tg n) a.
Definition ptr_extract (tg : target) (n : nat) (v : vec) (i : Z) : outcome Z := extract (ptr_ty tg n) v i.
Definition ptr_replace (tg : target) (n : nat) (v : vec) (i a : Z) : outcome vec :=
  replace (ptr_ty tg n) v i a.

(** null 47-49: splat of the null pointer, address 0. *)
Definition ptr_null (tg : target) (n : nat) : vec := ptr_splat tg n 0.

(** Vertical comparisons on the addresses as usize: eq 299-306, ne 310-317, lt
    321-328, le 332-339, gt 343-350, ge 354-361. *)
Definition ptr_cmp (op : kind -> nat -> nat -> vec -> vec -> vec) (tg : target) (n : nat) (x y : vec) : vec :=
  op KUint (t_ptr tg) (t_ptr tg) (same_size tg n x) (same_size tg n y).
Definition ptr_eq := ptr_cmp simd_eq.
Definition ptr_ne := ptr_cmp simd_ne.
Definition ptr_lt := ptr_cmp simd_lt.
Definition ptr_le := ptr_cmp simd_le.
Definition ptr_gt := ptr_cmp simd_gt.
Definition ptr_ge := ptr_cmp simd_ge.

(** is_null 54-56. *)
Definition ptr_is_null (tg : target) (n : nat) (x : vec) : vec := ptr_eq tg n x (ptr_null tg n).

(** PartialEq 425-434; LexicographicallyOrdered 438-449 is the same.  [None]: the
    pointer width has no msizexN reductions, a compile-time error. *)
Definition ptr_op_eq (tg : target) (n : nat) (x y : vec) : option (outcome bool) :=
  msize_all tg n (ptr_eq tg n x y).
Definition ptr_op_ne (tg : target) (n : nat) (x y : vec) : option (outcome bool) :=
  msize_any tg n (ptr_ne tg n x y).

(** Default 269-275. *)
Definition ptr_default (tg : target) (n : nat) : vec := ptr_null tg n.

(** [mem::size_of::<T>() as isize]. *)
Definition size_as_isize (tg : target) (size : Z) : Z := wrap (t_ptr tg) size.

(** wrapping_offset 1093-1101; [size] is [size_of::<T>()]. *)
Definition wrapping_offset (tg : target) (n : nat) (size : Z) (self count : vec) : vec :=
  let x := same_size tg n self in
  same_size tg n
    (add (isize_ty tg n) x (mul_vs (isize_ty tg n) count (size_as_isize tg size))).

(** offset 1075-1078. *)
Definition offset (tg : target) (n : nat) (size : Z) (self count : vec) : vec :=
  wrapping_offset tg n size self count.

(** wrapping_offset_from 1165-1170, offset_from 1146-1149. *)
Definition wrapping_offset_from (tg : target) (n : nat) (size : Z) (self origin : vec) : outcome vec :=
  let x := same_size tg n self in
  let y := same_size tg n origin in
  div_vs (isize_ty tg n) (sub (isize_ty tg n) y x) (size_as_isize tg size).
Definition offset_from (tg : target) (n : nat) (size : Z) (self origin : vec) : outcome vec :=
  wrapping_offset_from tg n size self origin.

(** [count.cast()] from usizexN to isizexN (src/api/cast/v128.rs, v256.rs, v512.rs:
    an entry of Tables.cast_table). *)
Definition as_isize (tg : target) (n : nat) (count : vec) : outcome vec :=
  cast PlainCast (usize_ty tg n) (isize_ty tg n) count.

(** add 1212-1214, sub 1257-1261, wrapping_add 1277-1279, wrapping_sub 1296-1299. *)
Definition ptr_add (tg : target) (n : nat) (size : Z) (self count : vec) : outcome vec :=
  c <- as_isize tg n count ;; Ok (offset tg n size self c).
Definition ptr_sub (tg : target) (n : nat) (size : Z) (self count : vec) : outcome vec :=
  x <- as_isize tg n count ;; Ok (offset tg n size self (neg (isize_ty tg n) x)).
Definition ptr_wrapping_add (tg : target) (n : nat) (size : Z) (self count : vec) : outcome vec :=
  c <- as_isize tg n count ;; Ok (wrapping_offset tg n size self c).
Definition ptr_wrapping_sub (tg : target) (n : nat) (size : Z) (self count : vec) : outcome vec :=
  x <- as_isize tg n count ;;
  Ok (wrapping_offset tg n size self (mul_sv (isize_ty tg n) (wrap (t_ptr tg) (-1)) x)).

(** simd_gather and simd_scatter (src/codegen/llvm.rs:118-119): the compiler's
    masked accesses.  Mask lanes ([bm] bytes) must be 0 or !0; an enabled lane must
    be aligned and accessible; lanes are written in order.  [b]: bytes of the
    element, [al] its alignment. *)
Fixpoint gather_lanes (be : bool) (b : nat) (al : Z) (m : mem) (ptrs mask value : vec) : outcome vec :=
  match ptrs, mask, value with
  | p :: ptrs', c :: mask', v :: value' =>
      x <- (if c =? 0 then Ok v
            else if aligned p al then load_lane be b m p else UB) ;;
      r <- gather_lanes be b al m ptrs' mask' value' ;;
      Ok (x :: r)
  | _, _, _ => Ok []
  end.
Definition simd_gather (be : bool) (b bm : nat) (al : Z) (m : mem) (value ptrs mask : vec) : outcome vec :=
  if forallb (mask_lane_ok bm) mask then gather_lanes be b al m ptrs mask value else UB.

Fixpoint scatter_lanes (be : bool) (b : nat) (al : Z) (m : mem) (ptrs mask value : vec) : outcome mem :=
  match ptrs, mask, value with
  | p :: ptrs', c :: mask', v :: value' =>
      m' <- (if c =? 0 then Ok m
             else if aligned p al then store_lane be b m p v else UB) ;;
      scatter_lanes be b al m' ptrs' mask' value'
  | _, _, _ => Ok m
  end.
Definition simd_scatter (be : bool) (b bm : nat) (al : Z) (m : mem) (value ptrs mask : vec) : outcome mem :=
  if forallb (mask_lane_ok bm) mask then scatter_lanes be b al m ptrs mask value else UB.

(** read (src/api/ptr/gather_scatter.rs:24-35) and write (132-139); [t] is the type
    of the values, [tm] that of the mask. *)
Definition ptr_read (tg : target) (t tm : vty) (al : Z) (m : mem) (self mask value : vec) : outcome vec :=
  simd_gather (t_big_endian tg) (vb t) (vb tm) al m value self mask.
Definition ptr_write (tg : target) (t tm : vty) (al : Z) (m : mem) (self mask value : vec) : outcome mem :=
  simd_scatter (t_big_endian tg) (vb t) (vb tm) al m value self mask.
