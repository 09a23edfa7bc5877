(** Vocabulary for the example programs. *)
From Coq Require Import ZArith List Bool Reals.
From Flocq Require Import Core.
From Verif.Model Require Import Base.
From Verif.Spec Require Import Spec Floats.
Import ListNotations.
Open Scope Z_scope.

(** A two-dimensional array of f32 patterns with [rows] rows of [cols] entries. *)
Definition f32_array (rows cols : nat) (m : list (list Z)) : Prop :=
  length m = rows /\ Forall (fun r => length r = cols /\ Forall (fun p => 0 <= p < 2 ^ 32) r) m.

(** Entry [i], [j] of a two-dimensional array. *)
Definition entry (m : list (list Z)) (i j : nat) (p : Z) : Prop :=
  exists r, nth_error m i = Some r /\ nth_error r j = Some p.

(** [r] is a*x + b*y + c*z + d in f32: three products and three sums, from left to right,
    each rounded once. *)
Definition affine (a b c d x y z r : datum) : Prop :=
  exists ax by_ cz s t,
    ieee_mul 4 a x ax /\ ieee_mul 4 b y by_ /\ ieee_mul 4 c z cz /\
    ieee_add 4 ax by_ s /\ ieee_add 4 s cz t /\ ieee_add 4 t d r.

(** The pattern [p] stands for [z] units of 2^e. *)
Definition units (b : nat) (e : Z) (p z : Z) : Prop :=
  0 <= p < 2 ^ (8 * Z.of_nat b) /\ exists s, datum_of b p = Fin s (IZR z * bpow radix2 e).

(** A unit for which all numbers of up to 2^precision units are in the format. *)
Definition unit_exponent (b : nat) (e : Z) : Prop :=
  1 - bias b - sig_width b <= e /\ e < bias b - sig_width b.

(** Sum, and sum of absolute values. *)
Definition total (l : list Z) : Z := fold_right Z.add 0 l.
Definition total_abs (l : list Z) : Z := fold_right (fun z a => Z.abs z + a) 0 l.
