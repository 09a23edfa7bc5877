(** Vocabulary for the limits of a float format. *)
From Coq Require Import ZArith Reals.
From Verif.Model Require Import Base.
From Verif.Spec Require Import Spec Floats.
Open Scope Z_scope.

(** [u] is a finite number of the format with lanes of [b] bytes. *)
Definition representable (b : nat) (u : R) : Prop :=
  exists p s, 0 <= p < 2 ^ (8 * Z.of_nat b) /\ datum_of b p = Fin s u.

(** [u] is a normal number: finite, with a nonzero exponent field. *)
Definition normal (b : nat) (u : R) : Prop :=
  exists p s, 0 <= p < 2 ^ (8 * Z.of_nat b) /\ exp_field b p <> 0 /\ datum_of b p = Fin s u.

Open Scope R_scope.
(** Largest and smallest finite number, smallest positive normal number. *)
Definition largest (b : nat) (u : R) : Prop := representable b u /\ forall v, representable b v -> v <= u.
Definition smallest (b : nat) (u : R) : Prop := representable b u /\ forall v, representable b v -> u <= v.
Definition smallest_positive_normal (b : nat) (u : R) : Prop :=
  normal b u /\ 0 < u /\ forall v, normal b v -> 0 < v -> u <= v.
(** The distance from 1 to the next larger number. *)
Definition gap_above_one (b : nat) (u : R) : Prop :=
  0 < u /\ representable b (1 + u) /\ forall v, representable b v -> 1 < v -> 1 + u <= v.

(** [v] is a vector of type [t] each lane of which is the real number [x] correctly
    rounded. *)
Definition is_constant (t : vty) (v : vec) (x : R) : Prop :=
  is_vector t v /\ forall i p, lane v i p -> rounds_to (vb t) x false (datum_of (vb t) p).
