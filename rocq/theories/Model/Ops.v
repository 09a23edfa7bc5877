(** Operators (src/api/ops/*.rs).  [t] is the vector's type.  An [_assign]
    function gives the new value of [*self]. *)
From Coq Require Import ZArith List Bool.
From Verif.Model Require Import Base FloatLane Llvm Minimal.
Import ListNotations.
Open Scope Z_scope.

(** ** Vector-vector arithmetic (src/api/ops/vector_arithmetic.rs) *)

(** Add 5-12, Sub 14-21, Mul 23-30, Div 32-39, Rem 41-48. *)
Definition add (t : vty) (x y : vec) : vec := simd_add (vkind t) (vb t) x y.
Definition sub (t : vty) (x y : vec) : vec := simd_sub (vkind t) (vb t) x y.
Definition mul (t : vty) (x y : vec) : vec := simd_mul (vkind t) (vb t) x y.
Definition div (t : vty) (x y : vec) : outcome vec := simd_div (vkind t) (vb t) x y.
Definition rem (t : vty) (x y : vec) : outcome vec := simd_rem (vkind t) (vb t) x y.

(** AddAssign .. RemAssign 50-83. *)
Definition add_assign (t : vty) (self other : vec) : vec := add t self other.
Definition sub_assign (t : vty) (self other : vec) : vec := sub t self other.
Definition mul_assign (t : vty) (self other : vec) : vec := mul t self other.
Definition div_assign (t : vty) (self other : vec) : outcome vec := div t self other.
Definition rem_assign (t : vty) (self other : vec) : outcome vec := rem t self other.

(** ** Vector-scalar arithmetic (src/api/ops/scalar_arithmetic.rs).  [_vs]:
    vector on the left; [_sv]: scalar on the left. *)

(** add: lines 5-11, 12-18, assign 80-85. *)
Definition add_vs (t : vty) (x : vec) (s : Z) : vec := add t x (splat t s).
Definition add_sv (t : vty) (s : Z) (x : vec) : vec := add t (splat t s) x.
Definition add_vs_assign (t : vty) (self : vec) (s : Z) : vec := add_vs t self s.

(** sub: lines 20-26, 27-33, assign 87-92. *)
Definition sub_vs (t : vty) (x : vec) (s : Z) : vec := sub t x (splat t s).
Definition sub_sv (t : vty) (s : Z) (x : vec) : vec := sub t (splat t s) x.
Definition sub_vs_assign (t : vty) (self : vec) (s : Z) : vec := sub_vs t self s.

(** mul: lines 35-41, 42-48, assign 94-99. *)
Definition mul_vs (t : vty) (x : vec) (s : Z) : vec := mul t x (splat t s).
Definition mul_sv (t : vty) (s : Z) (x : vec) : vec := mul t (splat t s) x.
Definition mul_vs_assign (t : vty) (self : vec) (s : Z) : vec := mul_vs t self s.

(** div: lines 50-56, 57-63, assign 101-106. *)
Definition div_vs (t : vty) (x : vec) (s : Z) : outcome vec := div t x (splat t s).
Definition div_sv (t : vty) (s : Z) (x : vec) : outcome vec := div t (splat t s) x.
Definition div_vs_assign (t : vty) (self : vec) (s : Z) : outcome vec := div_vs t self s.

(** rem: lines 65-71, 72-78, assign 108-113. *)
Definition rem_vs (t : vty) (x : vec) (s : Z) : outcome vec := rem t x (splat t s).
Definition rem_sv (t : vty) (s : Z) (x : vec) : outcome vec := rem t (splat t s) x.
Definition rem_vs_assign (t : vty) (self : vec) (s : Z) : outcome vec := rem_vs t self s.

(** ** Negation (src/api/ops/vector_neg.rs:5-11): splat(-1) * self. *)
Definition neg (t : vty) (x : vec) : vec := mul t (splat t (lit (vkind t) (vb t) (-1))) x.

(** ** Bitwise operators on integer vectors (src/api/ops/vector_bitwise.rs; [$true]
    is [!(0 as $elem_ty)], src/api.rs:50-52 and 114-116) *)

(** Not 9-15. *)
Definition not (t : vty) (x : vec) : vec := simd_xor (splat t (wrap (vb t) (Z.lnot 0))) x.
(** BitXor 16-23, BitAnd 24-31, BitOr 32-39. *)
Definition bitxor (t : vty) (x y : vec) : vec := simd_xor x y.
Definition bitand (t : vty) (x y : vec) : vec := simd_and x y.
Definition bitor (t : vty) (x y : vec) : vec := simd_or x y.
(** assigns 40-57. *)
Definition bitand_assign (t : vty) (self other : vec) : vec := bitand t self other.
Definition bitor_assign (t : vty) (self other : vec) : vec := bitor t self other.
Definition bitxor_assign (t : vty) (self other : vec) : vec := bitxor t self other.

(** src/api/ops/scalar_bitwise.rs: BitXor 9-22, BitAnd 24-37, BitOr 39-52,
    assigns 54-71. *)
Definition bitxor_vs (t : vty) (x : vec) (s : Z) : vec := bitxor t x (splat t s).
Definition bitxor_sv (t : vty) (s : Z) (x : vec) : vec := bitxor t (splat t s) x.
Definition bitand_vs (t : vty) (x : vec) (s : Z) : vec := bitand t x (splat t s).
Definition bitand_sv (t : vty) (s : Z) (x : vec) : vec := bitand t (splat t s) x.
Definition bitor_vs (t : vty) (x : vec) (s : Z) : vec := bitor t x (splat t s).
Definition bitor_sv (t : vty) (s : Z) (x : vec) : vec := bitor t (splat t s) x.
Definition bitand_vs_assign (t : vty) (self : vec) (s : Z) : vec := bitand_vs t self s.
Definition bitor_vs_assign (t : vty) (self : vec) (s : Z) : vec := bitor_vs t self s.
Definition bitxor_vs_assign (t : vty) (self : vec) (s : Z) : vec := bitxor_vs t self s.

(** ** Bitwise operators on masks (src/api/ops/vector_mask_bitwise.rs: Not 9-15
    with [$true = true], src/api.rs:239-241; xor 16-23, and 24-31, or 32-39,
    assigns 40-57) *)
Definition mask_not (t : vty) (x : vec) : vec := simd_xor (mask_splat t true) x.
Definition mask_bitxor (t : vty) (x y : vec) : vec := simd_xor x y.
Definition mask_bitand (t : vty) (x y : vec) : vec := simd_and x y.
Definition mask_bitor (t : vty) (x y : vec) : vec := simd_or x y.
Definition mask_bitand_assign (t : vty) (self other : vec) : vec := mask_bitand t self other.
Definition mask_bitor_assign (t : vty) (self other : vec) : vec := mask_bitor t self other.
Definition mask_bitxor_assign (t : vty) (self other : vec) : vec := mask_bitxor t self other.

(** src/api/ops/scalar_mask_bitwise.rs: xor 9-22, and 24-37, or 39-52, assigns 54-71. *)
Definition mask_bitxor_vs (t : vty) (x : vec) (s : bool) : vec := mask_bitxor t x (mask_splat t s).
Definition mask_bitxor_sv (t : vty) (s : bool) (x : vec) : vec := mask_bitxor t (mask_splat t s) x.
Definition mask_bitand_vs (t : vty) (x : vec) (s : bool) : vec := mask_bitand t x (mask_splat t s).
Definition mask_bitand_sv (t : vty) (s : bool) (x : vec) : vec := mask_bitand t (mask_splat t s) x.
Definition mask_bitor_vs (t : vty) (x : vec) (s : bool) : vec := mask_bitor t x (mask_splat t s).
Definition mask_bitor_sv (t : vty) (s : bool) (x : vec) : vec := mask_bitor t (mask_splat t s) x.
Definition mask_bitand_vs_assign (t : vty) (self : vec) (s : bool) : vec := mask_bitand_vs t self s.
Definition mask_bitor_vs_assign (t : vty) (self : vec) (s : bool) : vec := mask_bitor_vs t self s.
Definition mask_bitxor_vs_assign (t : vty) (self : vec) (s : bool) : vec := mask_bitxor_vs t self s.

(** ** Shifts *)

(** Vector amounts (src/api/ops/vector_shifts.rs: Shl 5-12, Shr 13-20, assigns
    21-32). *)
Definition shl (t : vty) (x y : vec) : outcome vec := simd_shl (vb t) x y.
Definition shr (t : vty) (x y : vec) : outcome vec := simd_shr (vkind t) (vb t) x y.
Definition shl_assign (t : vty) (self other : vec) : outcome vec := shl t self other.
Definition shr_assign (t : vty) (self other : vec) : outcome vec := shr t self other.

(** Scalar [u32] amount (src/api/ops/scalar_shifts.rs: Shl 5-11, Shr 12-18,
    assigns 20-31): [other as $elem_ty] truncates. *)
Definition shl_scalar (t : vty) (x : vec) (other : Z) : outcome vec :=
  shl t x (splat t (wrap (vb t) other)).
Definition shr_scalar (t : vty) (x : vec) (other : Z) : outcome vec :=
  shr t x (splat t (wrap (vb t) other)).
Definition shl_scalar_assign (t : vty) (self : vec) (other : Z) : outcome vec :=
  shl_scalar t self other.
Definition shr_scalar_assign (t : vty) (self : vec) (other : Z) : outcome vec :=
  shr_scalar t self other.

(** ** Rotates (src/api/ops/vector_rotates.rs) *)

(** LANE_WIDTH = size_of::<$elem_ty>() as $elem_ty * 8 (15-16, 30-31). *)
Definition lane_width (t : vty) : Z := wrap (vb t) (wrap (vb t) (Z.of_nat (vb t)) * 8).

(** rotate_left 14-20. *)
Definition rotate_left (t : vty) (self n : vec) : outcome vec :=
  n' <- rem_vs t n (lane_width t) ;;
  l <- shl t self n' ;;
  m <- rem_vs t (sub_sv t (lane_width t) n') (lane_width t) ;;
  r <- shr t self m ;;
  Ok (bitor t l r).

(** rotate_right 29-35. *)
Definition rotate_right (t : vty) (self n : vec) : outcome vec :=
  n' <- rem_vs t n (lane_width t) ;;
  r <- shr t self n' ;;
  m <- rem_vs t (sub_sv t (lane_width t) n') (lane_width t) ;;
  l <- shl t self m ;;
  Ok (bitor t r l).
