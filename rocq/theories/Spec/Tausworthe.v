(** Specification of L'Ecuyer's random number generator LFSR113: four Tausworthe generators
    combined by exclusive or. *)
From Coq Require Import ZArith List Bool Reals.
From Verif.Model Require Import Base.
From Verif.Spec Require Import Spec Floats.
Import ListNotations.
Open Scope Z_scope.

(** A Tausworthe generator with characteristic polynomial X^k + X^q + 1 and step s is a
    sequence of bits such that each bit is the sum of two earlier ones; its n-th number
    consists of 32 bits of the sequence from place n * s, the first of them on top. *)
Record tausworthe := { degree : nat; middle : nat; step : nat }.

Definition obeys (g : tausworthe) (x : nat -> bool) : Prop :=
  forall m, x (m + degree g)%nat = xorb (x (m + middle g)%nat) (x m).

Definition number_at (g : tausworthe) (x : nat -> bool) (n : nat) (z : Z) : Prop :=
  0 <= z < 2 ^ 32 /\ forall i, (i < 32)%nat -> Z.testbit z (31 - Z.of_nat i) = x (n * step g + i)%nat.

(** The seed fills the first [degree] bits. *)
Definition started_by (g : tausworthe) (x : nat -> bool) (z : Z) : Prop :=
  forall i, (i < degree g)%nat -> Z.testbit z (31 - Z.of_nat i) = x i.

(** The four generators of LFSR113. *)
Definition lfsr0 := {| degree := 31; middle := 6; step := 18 |}.
Definition lfsr1 := {| degree := 29; middle := 2; step := 2 |}.
Definition lfsr2 := {| degree := 28; middle := 13; step := 7 |}.
Definition lfsr3 := {| degree := 25; middle := 3; step := 13 |}.

Definition of_lfsr113 (g : tausworthe) : Prop := g = lfsr0 \/ g = lfsr1 \/ g = lfsr2 \/ g = lfsr3.

(** The [n]-th number of LFSR113 with seeds [z0] .. [z3]. *)
Definition lfsr113 (z0 z1 z2 z3 : Z) (n : nat) (v : Z) : Prop :=
  exists x0 x1 x2 x3 a b c d,
    obeys lfsr0 x0 /\ started_by lfsr0 x0 z0 /\ number_at lfsr0 x0 n a /\
    obeys lfsr1 x1 /\ started_by lfsr1 x1 z1 /\ number_at lfsr1 x1 n b /\
    obeys lfsr2 x2 /\ started_by lfsr2 x2 z2 /\ number_at lfsr2 x2 n c /\
    obeys lfsr3 x3 /\ started_by lfsr3 x3 z3 /\ number_at lfsr3 x3 n d /\
    v = Z.lxor (Z.lxor (Z.lxor a b) c) d.

(** How the example seeds it from one number: itself, with a constant added, with its halves
    swapped and with its bytes reversed. *)
Definition byte (x : Z) (i : Z) : Z := (x / 256 ^ i) mod 256.
Definition seeds (x z0 z1 z2 z3 : Z) : Prop :=
  z0 = x /\
  (0 <= z1 < 2 ^ 32 /\ forall j, 0 <= j < 32 -> Z.testbit z1 j = xorb (Z.testbit x j) (Z.testbit 0xbeeff00d j)) /\
  z2 = (x mod 65536) * 65536 + x / 65536 /\
  z3 = byte x 0 * 256 ^ 3 + byte x 1 * 256 ^ 2 + byte x 2 * 256 + byte x 3.

(** A float made from 23 bits: k / 2^23. *)
Definition fraction (p k : Z) : Prop :=
  0 <= p < 2 ^ 32 /\ 0 <= k < 2 ^ 23 /\ datum_of 4 p = Fin false (IZR k / IZR (2 ^ 23)).
