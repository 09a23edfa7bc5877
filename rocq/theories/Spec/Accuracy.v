(** How far a sum of floating-point numbers may be from the exact sum of real numbers. *)
From Coq Require Import ZArith List Reals.
From Flocq Require Import Core.
From Verif.Spec Require Import Floats.
Import ListNotations.

(** The patterns [ps] are the finite numbers [xs]. *)
Definition numbers (b : nat) (ps : list Z) (xs : list R) : Prop :=
  Forall2 (fun p x => (0 <= p < 2 ^ (8 * Z.of_nat b))%Z /\ exists s, datum_of b p = Fin s x) ps xs.

(** The exact sum, and the sum of the magnitudes. *)
Definition exact_sum (xs : list R) : R := fold_right Rplus 0%R xs.
Definition magnitudes (xs : list R) : R := fold_right (fun x r => (Rabs x + r)%R) 0%R xs.

(** The unit roundoff: 2^-24 for f32, 2^-53 for f64.  Half the smallest positive number:
    what a product loses at most if it is too small: 2^-150 and 2^-1075. *)
Definition roundoff (b : nat) : R := bpow radix2 (- (sig_width b + 1)).
Definition half_least (b : nat) : R := bpow radix2 (- bias b - sig_width b).

(** The pattern [p] is a finite number that differs from the sum of [xs] by no more than
    [k] roundings in a row of numbers as large as the sum of all magnitudes, and of an error
    [e] made before. *)
Definition within (b k : nat) (xs : list R) (e : R) (p : Z) : Prop :=
  (0 <= p < 2 ^ (8 * Z.of_nat b))%Z /\
  exists s z, datum_of b p = Fin s z /\
    (Rabs (z - exact_sum xs) <=
      ((1 + roundoff b) ^ k - 1) * magnitudes xs + (1 + roundoff b) ^ k * e)%R.

(** No partial sum can leave the range of finite numbers. *)
Definition in_range (b k : nat) (xs : list R) (e : R) : Prop :=
  ((1 + roundoff b) ^ k * (magnitudes xs + e) < bpow radix2 (bias b + 1))%R.

(** The exact product. *)
Definition exact_product (xs : list R) : R := fold_right Rmult 1%R xs.

(** [z] differs from [x] by [k] roundings in a row at most. *)
Definition roundings (b k : nat) (x z : R) : Prop :=
  exists f, z = (x * f)%R /\ ((1 - roundoff b) ^ k <= f <= (1 + roundoff b) ^ k)%R.

(** [k] roundings keep [x] a normal number (not too large and not too small), unless it is zero. *)
Definition stays_normal (b k : nat) (x : R) : Prop :=
  x = 0%R \/ (bpow radix2 (1 - bias b) <= (1 - roundoff b) ^ k * Rabs x)%R /\ ((1 + roundoff b) ^ k * Rabs x < bpow radix2 (bias b + 1))%R.
