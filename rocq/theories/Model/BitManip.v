(** Bit counting (src/api/bit_manip.rs, src/codegen/bit_manip.rs). *)
From Coq Require Import ZArith List Bool.
From Verif.Model Require Import Base Llvm Tables Minimal Ops Cast.
Import ListNotations.
Open Scope Z_scope.

Inductive bit_op := Ctpop | Ctlz | Cttz.

(** The LLVM intrinsic on a vector of [b]-byte unsigned lanes (8-148). *)
Definition bit_intrinsic (o : bit_op) (b : nat) (x : vec) : vec :=
  map (match o with Ctpop => lane_ctpop | Ctlz => lane_ctlz b | Cttz => lane_cttz b end) x.

(** core's [count_ones], [leading_zeros], [trailing_zeros] on one element: a u32. *)
Definition elem_bits (o : bit_op) (b : nat) (p : Z) : Z :=
  match o with Ctpop => lane_ctpop p | Ctlz => lane_ctlz b p | Cttz => lane_cttz b p end.

(** inner (157-184) and sized_inner (185-208) outside s390x: cast to the unsigned
    type of the same shape, intrinsic, cast back.  (A cast from a type to itself is
    the identity, src/api/cast.rs:82-87, which is what the plain cast computes; the
    method of a pointer-sized type calls the method of the fixed-size type.) *)
Definition bits_vector (o : bit_op) (t : vty) (x : vec) : outcome vec :=
  let u := V KUint (vb t) (vn t) in
  y <- cast PlainCast t u x ;;
  cast PlainCast u t (bit_intrinsic o (vb t) y).

(** scalar (209-238): a loop over the lanes. *)
Definition bits_scalar (o : bit_op) (t : vty) (x : vec) : outcome vec :=
  for_loop (lanes t) 0 x (fun i acc =>
    p <- extract t x (Z.of_nat i) ;;
    replace t acc (Z.of_nat i) (wrap (vb t) (elem_bits o (vb t) p))).

(** Which of the two a type uses: the loop for all types on s390x (160-161,
    187-188), and for [cttz] of u8x8 and i8x8 on aarch64 (287-297, 314-324; with
    one-byte pointers the pointer-sized types of 8 lanes call them). *)
Definition bit_method (tg : target) (o : bit_op) (t : vty) (x : vec) : outcome vec :=
  match t_arch tg, o, vb t, vn t with
  | S390x, _, _, _ => bits_scalar o t x
  | Aarch64, Cttz, 1%nat, 8%nat => bits_scalar o t x
  | _, _, _, _ => bits_vector o t x
  end.

(** src/api/bit_manip.rs: count_ones 9-11, count_zeros 16-18, leading_zeros 23-25,
    trailing_zeros 30-32. *)
Definition count_ones (tg : target) (t : vty) (x : vec) : outcome vec := bit_method tg Ctpop t x.
Definition count_zeros (tg : target) (t : vty) (x : vec) : outcome vec :=
  bit_method tg Ctpop t (not t x).
Definition leading_zeros (tg : target) (t : vty) (x : vec) : outcome vec := bit_method tg Ctlz t x.
Definition trailing_zeros (tg : target) (t : vty) (x : vec) : outcome vec := bit_method tg Cttz t x.
