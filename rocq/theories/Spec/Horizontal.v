(** Vocabulary for properties of horizontal operations. *)
From Coq Require Import ZArith List Bool.
From Verif.Model Require Import Base.
From Verif.Spec Require Import Spec.
Import ListNotations.
Open Scope Z_scope.

(** Sum and product of a list of integers. *)
Definition sum (l : list Z) : Z := fold_right Z.add 0 l.
Definition product (l : list Z) : Z := fold_right Z.mul 1 l.

(** The integers in the lanes of a vector. *)
Definition values (t : vty) (v : vec) : list Z := map (value t) v.

(** The patterns in lane [i] of the vectors of a sequence. *)
Definition column (i : nat) (vs : list vec) : list Z := map (fun v => nth i v 0) vs.

(** Is the number of [true]s odd? *)
Definition odd_count (l : list bool) : bool := Nat.odd (length (filter (fun c => c) l)).

(** Bit [j] of every lane. *)
Definition bit_column (j : Z) (v : vec) : list bool := map (fun p => Z.testbit p j) v.

(** The number of one bits, and of zero bits, among the lowest [w] bits. *)
Definition one_bits (w : nat) (p : Z) : Z :=
  Z.of_nat (length (filter (fun j => Z.testbit p (Z.of_nat j)) (seq 0 w))).
Definition zero_bits (w : nat) (p : Z) : Z :=
  Z.of_nat (length (filter (fun j => negb (Z.testbit p (Z.of_nat j))) (seq 0 w))).

(** The [n] highest (lowest) of [w] bits are zero, and the next one, if any, is not. *)
Definition highest_zeros (w p n : Z) : Prop :=
  0 <= n <= w /\ (forall j, w - n <= j < w -> Z.testbit p j = false) /\
  (n < w -> Z.testbit p (w - 1 - n) = true).
Definition lowest_zeros (w p n : Z) : Prop :=
  0 <= n <= w /\ (forall j, 0 <= j < n -> Z.testbit p j = false) /\
  (n < w -> Z.testbit p n = true).
