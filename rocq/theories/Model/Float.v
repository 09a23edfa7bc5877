(** Float vectors: constants (src/api/math/float/consts.rs), classification
    (src/api/math/float.rs), [min]/[max] (src/api/ops/vector_float_min_max.rs) and the
    estimates that use no external function (src/api/math/float/recpre.rs, rsqrte.rs). *)
From Coq Require Import ZArith List Bool.
From Coq.Floats Require Import SpecFloat.
From Verif.Model Require Import Base FloatLane Llvm Minimal Ops Cmp.
Import ListNotations.
Open Scope Z_scope.

(** The constants of core::f32 and core::f64, as bit patterns (consts.rs:5-23 splats
    them). *)
Definition elem_epsilon (b : nat) : Z := if Nat.eqb b 4 then 0x34000000 else 0x3CB0000000000000.
Definition elem_fmin (b : nat) : Z := if Nat.eqb b 4 then 0xFF7FFFFF else 0xFFEFFFFFFFFFFFFF.
Definition elem_min_positive (b : nat) : Z := if Nat.eqb b 4 then 0x00800000 else 0x0010000000000000.
Definition elem_fmax (b : nat) : Z := if Nat.eqb b 4 then 0x7F7FFFFF else 0x7FEFFFFFFFFFFFFF.
Definition elem_nan (b : nat) : Z := if Nat.eqb b 4 then 0x7FC00000 else 0x7FF8000000000000.
Definition elem_infinity (b : nat) : Z := if Nat.eqb b 4 then 0x7F800000 else 0x7FF0000000000000.
Definition elem_neg_infinity (b : nat) : Z := if Nat.eqb b 4 then 0xFF800000 else 0xFFF0000000000000.
(** core::f32::consts::PI and core::f64::consts::PI (consts.rs:26). *)
Definition elem_pi (b : nat) : Z := if Nat.eqb b 4 then 0x40490FDB else 0x400921FB54442D18.

(** consts.rs:5, 8, 11, 14, 17, 20, 23, 26. *)
Definition EPSILON (t : vty) : vec := splat t (elem_epsilon (vb t)).
Definition MIN (t : vty) : vec := splat t (elem_fmin (vb t)).
Definition MIN_POSITIVE (t : vty) : vec := splat t (elem_min_positive (vb t)).
Definition MAX (t : vty) : vec := splat t (elem_fmax (vb t)).
Definition NAN (t : vty) : vec := splat t (elem_nan (vb t)).
Definition INFINITY (t : vty) : vec := splat t (elem_infinity (vb t)).
Definition NEG_INFINITY (t : vty) : vec := splat t (elem_neg_infinity (vb t)).
Definition PI (t : vty) : vec := splat t (elem_pi (vb t)).

(** is_nan (float.rs:49-51), is_infinite (54-56), is_finite (59-61). *)
Definition is_nan (t : vty) (self : vec) : vec := vne t self self.
Definition is_infinite (t : vty) (self : vec) : vec :=
  mask_bitor (mask_of t) (veq t self (INFINITY t)) (veq t self (NEG_INFINITY t)).
Definition is_finite (t : vty) (self : vec) : vec :=
  mask_not (mask_of t) (mask_bitor (mask_of t) (is_nan t self) (is_infinite t self)).

(** min (vector_float_min_max.rs:11-14), max (21-24). *)
Definition float_min (t : vty) (self x : vec) : vec := simd_fmin (vb t) self x.
Definition float_max (t : vty) (self x : vec) : vec := simd_fmax (vb t) self x.

(** recpre (recpre.rs:10-12), rsqrte (rsqrte.rs:10-15). *)
Definition recpre (t : vty) (self : vec) : outcome vec :=
  div t (splat t (lit (vkind t) (vb t) 1)) self.
Definition rsqrte (t : vty) (self : vec) : outcome vec :=
  div t (splat t (lit (vkind t) (vb t) 1)) (simd_fsqrt (vb t) self).
