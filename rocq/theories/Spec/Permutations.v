(** Permutations of 0 .. n-1, their numbering and their flips. *)
From Coq Require Import ZArith List Factorial Arith Permutation.
Import ListNotations.

(** Rotate [d] places to the front. *)
Definition rotl {A} (d : nat) (l : list A) : list A := skipn d l ++ firstn d l.

(** Number [k] of the n! arrangements of a list of n elements: the leading digit of [k] in the
    factorial number system rotates the whole list, the rest arranges all but its last element. *)
Fixpoint arrange {A} (n k : nat) (l : list A) : list A :=
  match n with
  | O => l
  | S m => let r := rotl (k / fact m) l in arrange m (k mod fact m) (firstn m r) ++ skipn m r
  end.
Definition permutation_number (n k : nat) : list nat := arrange n k (seq 0 n).

(** A flip reverses as many elements as the first one says, and one more. *)
Definition flip (l : list nat) : list nat :=
  match l with
  | [] => []
  | h :: _ => rev (firstn (S h) l) ++ skipn (S h) l
  end.
(** The number of flips until 0 comes first. *)
Inductive flips : list nat -> nat -> Prop :=
| flips_done l : hd 0 l = 0 -> flips l 0
| flips_more l k : hd 0 l <> 0 -> flips (flip l) k -> flips l (S k).

(** The flips of the first m permutations, in the order of their numbers. *)
Definition flips_of_first (n m : nat) (fs : list nat) : Prop :=
  length fs = m /\ (forall k f, nth_error fs k = Some f -> flips (permutation_number n k) f).
(** The alternating sum and the maximum of the flips of all permutations. *)
Definition alternating (fs : list nat) : Z := fold_right (fun f a => Z.of_nat f - a)%Z 0%Z fs.
Definition is_fannkuch (n : nat) (checksum : Z) (maxflips : nat) : Prop :=
  exists fs, flips_of_first n (fact n) fs /\ checksum = alternating fs /\ maxflips = list_max fs.

(** The i32 with the low 32 bits of x. *)
Definition as_i32 (x r : Z) : Prop := (- 2 ^ 31 <= r < 2 ^ 31)%Z /\ ((x - r) mod 2 ^ 32 = 0)%Z.
