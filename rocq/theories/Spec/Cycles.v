(** Specification: after how many numbers LFSR113 and its four generators repeat. *)
From Coq Require Import ZArith.
From Verif.Spec Require Import Tausworthe.
Open Scope Z_scope.

(** A sequence repeats every [c] places, and after no number of places but multiples of [c]. *)
Definition cycle {A : Type} (f : nat -> A -> Prop) (c : Z) : Prop :=
  0 < c /\ forall t, (forall n a b, f n a -> f (n + t)%nat b -> a = b) <-> (c | Z.of_nat t).

(** A generator of degree k, a seed of which reaches its top k bits, goes through all 2^k - 1
    states that are not zero; with another seed it stays at zero. *)
Definition states (g : tausworthe) (z : Z) : Z :=
  if 2 ^ (32 - Z.of_nat (degree g)) <=? z then 2 ^ Z.of_nat (degree g) - 1 else 1.

Definition lfsr113_states (z0 z1 z2 z3 : Z) : Z :=
  states lfsr0 z0 * states lfsr1 z1 * states lfsr2 z2 * states lfsr3 z3.
