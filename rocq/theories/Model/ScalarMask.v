(** The scalar mask types m8 .. m128, msize (src/masks.rs): a struct around the signed
    integer of [b] bytes. *)
From Coq Require Import ZArith List Bool.
From Verif.Model Require Import Base.
Import ListNotations.
Open Scope Z_scope.

(** new (src/masks.rs:20-26), test (29-31), Default (34-39). *)
Definition smask_new (b : nat) (x : bool) : Z := if x then wrap b (Z.lnot 0) else 0.
Definition smask_test (b : nat) (p : Z) : bool := negb (p =? 0).
Definition smask_default (b : nat) : Z := 0.

(** PartialEq (41-51). *)
Definition smask_eq (b : nat) (p q : Z) : bool := sval b p =? sval b q.
Definition smask_ne (b : nat) (p q : Z) : bool := negb (sval b p =? sval b q).

(** PartialOrd (55-86). *)
Definition smask_partial_cmp (b : nat) (p q : Z) : option comparison :=
  if smask_eq b p q then Some Eq
  else if sval b p >? sval b q then Some Lt
  else Some Gt.
Definition smask_lt (b : nat) (p q : Z) : bool := sval b p >? sval b q.
Definition smask_gt (b : nat) (p q : Z) : bool := sval b p <? sval b q.
Definition smask_le (b : nat) (p q : Z) : bool := sval b p >=? sval b q.
Definition smask_ge (b : nat) (p q : Z) : bool := sval b p <=? sval b q.

(** Ord (88-96): the None arm is unreachable_unchecked. *)
Definition smask_cmp (b : nat) (p q : Z) : outcome comparison :=
  match smask_partial_cmp b p q with
  | Some c => Ok c
  | None => UB
  end.

(** Hash (98-103): the boolean that is hashed. *)
Definition smask_hashed (b : nat) (p : Z) : bool := negb (p =? 0).
