(** Horizontal reductions (src/api/reductions/integer_arithmetic.rs, bitwise.rs,
    min_max.rs, float_arithmetic.rs), iterator sums, and [bitmask]
    (src/api/bitmask.rs). *)
From Coq Require Import ZArith List Bool.
From Verif.Model Require Import Base FloatLane Llvm Minimal Ops.
Import ListNotations.
Open Scope Z_scope.

Definition on_aarch64 (tg : target) : bool :=
  match t_arch tg with Aarch64 => true | _ => false end.

(** [let mut x = self.extract(0); for i in 1..lanes() { x = f(x, self.extract(i)) }]
    (integer_arithmetic.rs:27-31, 56-60, bitwise.rs:27-31 etc., min_max.rs:32-36,
    69-73, float_arithmetic.rs:27-31, 56-60). *)
Definition reduce_loop (t : vty) (f : Z -> Z -> Z) (self : vec) : outcome Z :=
  x0 <- extract t self 0 ;;
  for_loop (lanes t - 1) 1 x0 (fun i x =>
    p <- extract t self (Z.of_nat i) ;; Ok (f x p)).

(** wrapping_sum (integer_arithmetic.rs:17-34), wrapping_product (46-63). *)
Definition wrapping_sum (tg : target) (t : vty) (self : vec) : outcome Z :=
  if on_aarch64 tg then reduce_loop t (fun x p => wrap (vb t) (x + p)) self
  else Ok (simd_reduce_add_ordered (vkind t) (vb t) self (lit (vkind t) (vb t) 0)).
Definition wrapping_product (tg : target) (t : vty) (self : vec) : outcome Z :=
  if on_aarch64 tg then reduce_loop t (fun x p => wrap (vb t) (x * p)) self
  else Ok (simd_reduce_mul_ordered (vkind t) (vb t) self (lit (vkind t) (vb t) 1)).

(** float [sum] (float_arithmetic.rs:17-33), [product] (46-62). *)
Definition fsum (tg : target) (t : vty) (self : vec) : outcome Z :=
  if on_aarch64 tg then reduce_loop t (fl_add (vb t)) self
  else Ok (simd_reduce_add_ordered (vkind t) (vb t) self (lit (vkind t) (vb t) 0)).
Definition fproduct (tg : target) (t : vty) (self : vec) : outcome Z :=
  if on_aarch64 tg then reduce_loop t (fl_mul (vb t)) self
  else Ok (simd_reduce_mul_ordered (vkind t) (vb t) self (lit (vkind t) (vb t) 1)).

(** Iterator [Sum] and [Product] (integer_arithmetic.rs:66-78 by value, 80-92 by
    reference; float_arithmetic.rs:65-77, 79-91): [iter.fold(splat(0), Add::add)]. *)
Definition iter_sum (t : vty) (vs : list vec) : vec :=
  fold_left (add t) vs (splat t (lit (vkind t) (vb t) 0)).
Definition iter_product (t : vty) (vs : list vec) : vec :=
  fold_left (mul t) vs (splat t (lit (vkind t) (vb t) 1)).

(** and / or / xor on integer vectors (bitwise.rs:17-34, 41-58, 65-82). *)
Definition reduce_and (tg : target) (t : vty) (self : vec) : outcome Z :=
  if on_aarch64 tg then reduce_loop t Z.land self else Ok (simd_reduce_and (vb t) self).
Definition reduce_or (tg : target) (t : vty) (self : vec) : outcome Z :=
  if on_aarch64 tg then reduce_loop t Z.lor self else Ok (simd_reduce_or self).
Definition reduce_xor (tg : target) (t : vty) (self : vec) : outcome Z :=
  if on_aarch64 tg then reduce_loop t Z.lxor self else Ok (simd_reduce_xor self).

(** The same on masks, where extract gives a bool and the intrinsic's result is
    converted by [x != 0] (src/api.rs:245-248). *)
Definition mask_reduce_loop (t : vty) (f : bool -> bool -> bool) (self : vec) : outcome bool :=
  x0 <- mask_extract t self 0 ;;
  for_loop (lanes t - 1) 1 x0 (fun i x =>
    p <- mask_extract t self (Z.of_nat i) ;; Ok (f x p)).
Definition mask_and (tg : target) (t : vty) (self : vec) : outcome bool :=
  if on_aarch64 tg then mask_reduce_loop t andb self
  else Ok (negb (simd_reduce_and (vb t) self =? 0)).
Definition mask_or (tg : target) (t : vty) (self : vec) : outcome bool :=
  if on_aarch64 tg then mask_reduce_loop t orb self
  else Ok (negb (simd_reduce_or self =? 0)).
Definition mask_xor (tg : target) (t : vty) (self : vec) : outcome bool :=
  if on_aarch64 tg then mask_reduce_loop t xorb self
  else Ok (negb (simd_reduce_xor self =? 0)).

(** core's [Ord::max] / [Ord::min] on integers ([max_by]: the second argument
    unless the first is greater), [f32::max] / [f32::min] on floats. *)
Definition elem_max (k : kind) (b : nat) (x p : Z) : Z :=
  match k with
  | KFloat => fl_max b x p
  | _ => if ival k b p <? ival k b x then x else p
  end.
Definition elem_min (k : kind) (b : nat) (x p : Z) : Z :=
  match k with
  | KFloat => fl_min b x p
  | _ => if ival k b p <? ival k b x then p else x
  end.

(** max_element (min_max.rs:9-38), min_element (42-75). *)
Definition max_element (tg : target) (t : vty) (self : vec) : outcome Z :=
  match t_arch tg with
  | Aarch64 | Arm | Powerpc64 | Wasm32 => reduce_loop t (elem_max (vkind t) (vb t)) self
  | _ => Ok (simd_reduce_max (vkind t) (vb t) self)
  end.
Definition min_element (tg : target) (t : vty) (self : vec) : outcome Z :=
  match t_arch tg with
  | Aarch64 | Arm | Powerpc64 | Wasm32 => reduce_loop t (elem_min (vkind t) (vb t)) self
  | X86 => if t_sse2 tg then Ok (simd_reduce_min (vkind t) (vb t) self)
           else reduce_loop t (elem_min (vkind t) (vb t)) self
  | _ => Ok (simd_reduce_min (vkind t) (vb t) self)
  end.

(** [bitmask] (src/api/bitmask.rs:12-14), an integer of [d_bitmask] bytes
    (src/v*.rs). *)
Definition bitmask (tg : target) (t : vty) (self : vec) : Z :=
  simd_bitmask (t_big_endian tg) (vb t) self.
