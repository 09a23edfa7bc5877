(** Vocabulary for properties about memory. *)
From Coq Require Import ZArith List Bool.
From Verif.Model Require Import Base Bytes.
From Verif.Spec Require Import Spec.
Import ListNotations.
Open Scope Z_scope.

(** Byte [k] (in address order) of a lane pattern [p] of [b] bytes. *)
Definition byte_of (be : bool) (b : nat) (p : Z) (k : nat) : Z :=
  (p / 256 ^ Z.of_nat (if be then b - 1 - k else k)) mod 256.

(** The [b] bytes from address [a] on hold the lane [p]. *)
Definition holds (be : bool) (b : nat) (m : mem) (a p : Z) : Prop :=
  forall k, (k < b)%nat -> m (a + Z.of_nat k) = Some (byte_of be b p k).

(** Address of element [i] of an array of [b]-byte elements. *)
Definition elem_addr (b : nat) (base : Z) (i : nat) : Z := base + Z.of_nat (b * i).

(** The array at [base] starts with the elements [xs]. *)
Definition array_at (be : bool) (b : nat) (m : mem) (base : Z) (xs : list Z) : Prop :=
  forall i p, nth_error xs i = Some p -> holds be b m (elem_addr b base i) p.

(** The addresses of the first [n] elements. *)
Definition in_first (b n : nat) (base a : Z) : Prop := base <= a < base + Z.of_nat (b * n).

(** All of them can be accessed. *)
Definition accessible (b n : nat) (m : mem) (base : Z) : Prop :=
  forall a, in_first b n base a -> m a <> None.

(** Byte [k] (in address order) of a vector in memory, lane 0 first. *)
Definition vector_byte (be : bool) (t : vty) (v : vec) (k : nat) (x : Z) : Prop :=
  exists i j p, k = (vb t * i + j)%nat /\ (j < vb t)%nat /\ lane v i p /\ x = byte_of be (vb t) p j.

(** [q] is [p] with its [b] bytes in the opposite order. *)
Definition bytes_swapped (b : nat) (p q : Z) : Prop :=
  forall k, (k < b)%nat -> (q / 256 ^ Z.of_nat k) mod 256 = (p / 256 ^ Z.of_nat (b - 1 - k)) mod 256.

(** Lane [i] of the mask is true / false. *)
Definition enabled (mask : vec) (i : nat) : Prop := exists c, lane mask i c /\ truth c = true.
Definition disabled (mask : vec) (i : nat) : Prop := exists c, lane mask i c /\ truth c = false.

(** The object of [b] bytes at [p] can be accessed: aligned and in accessible memory. *)
Definition valid_at (b : nat) (al : Z) (m : mem) (p : Z) : Prop :=
  (al | p) /\ forall a, p <= a < p + Z.of_nat b -> m a <> None.

(** Address [a] belongs to the object of [b] bytes at [p]. *)
Definition covers (b : nat) (p a : Z) : Prop := p <= a < p + Z.of_nat b.
