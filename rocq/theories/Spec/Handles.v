(** Specification: which thread a handle of a random number generator belongs to, and what
    one thread draws. *)
From Coq Require Import List Arith.
From Verif.Model Require Import ExRandomCell.
Import ListNotations.

(** The handles made by some events, and the numbers asked for. *)
Definition made (l : list event) : nat := length (filter (fun e => match e with GenFrom _ => false | _ => true end) l).
Definition asked (l : list event) : nat := length (filter (fun e => match e with GenFrom _ => true | _ => false end) l).

(** Handle [h] was made before, in thread [t], or as a copy of one that was. *)
Inductive belongs : list event -> nat -> nat -> Prop :=
| belongs_new l t : belongs (l ++ [ThreadRng t]) (made l) t
| belongs_copy l h t : belongs l h t -> belongs (l ++ [CloneOf h]) (made l) t
| belongs_later l e h t : belongs l h t -> belongs (l ++ [e]) h t.

(** Every handle is made before it is used. *)
Definition proper (l : list event) : Prop :=
  forall before after h, (l = before ++ CloneOf h :: after \/ l = before ++ GenFrom h :: after) -> h < made before.

(** The numbers of one thread. *)
Definition of_thread {A : Type} (t : nat) (l : list (nat * A)) : list A :=
  map snd (filter (fun ta => Nat.eqb (fst ta) t) l).
