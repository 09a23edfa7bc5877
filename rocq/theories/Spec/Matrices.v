(** Integer matrices. *)
From Coq Require Import ZArith List Reals.
From Flocq Require Import Core.
From Verif.Spec Require Import Spec Floats Examples.
Import ListNotations.
Open Scope Z_scope.

Definition at2 (M : list (list Z)) (i j : nat) : Z := nth j (nth i M []) 0.

(** All but element [k]; all but row [i] and column [j]. *)
Definition without {A} (k : nat) (l : list A) : list A := firstn k l ++ skipn (S k) l.
Definition submatrix (i j : nat) (M : list (list Z)) : list (list Z) := map (without j) (without i M).

Definition sign (k : nat) : Z := if Nat.even k then 1 else -1.

(** The determinant of an n by n matrix, by expansion along the first row. *)
Fixpoint det (n : nat) (M : list (list Z)) : Z :=
  match n with
  | O => 1
  | S k => fold_right Z.add 0 (map (fun j => sign j * at2 M 0 j * det k (submatrix 0 j M)) (seq 0 n))
  end.

(** Entry (i, j) of the adjugate of a 4 by 4 matrix: its inverse times its determinant. *)
Definition adjugate (M : list (list Z)) (i j : nat) : Z := sign (i + j) * det 3 (submatrix j i M).

Definition is_4x4 {A} (M : list (list A)) : Prop := length M = 4%nat /\ Forall (fun r => length r = 4%nat) M.

(** The f32 matrix [m] stands for 2^e times the integer matrix [M]. *)
Definition scaled (e : Z) (m M : list (list Z)) : Prop := Forall2 (Forall2 (units 4 e)) m M.

(** The entries are at most [k] in absolute value. *)
Definition entries_below (k : Z) (M : list (list Z)) : Prop := Forall (Forall (fun z => Z.abs z <= k)) M.

(** Entry (i, j) of the inverse of 2^e M. *)
Definition inverse_entry (e : Z) (M : list (list Z)) (i j : nat) : R :=
  (IZR (adjugate M i j) / IZR (det 4 M) * bpow radix2 (- e))%R.

(** Each entry of [r] is that of the inverse, up to a relative error. *)
Definition inverse_within (err : R) (e : Z) (M r : list (list Z)) : Prop :=
  is_4x4 r /\
  forall i j, (i < 4)%nat -> (j < 4)%nat ->
    exists s x, datum_of 4 (at2 r i j) = Fin s x /\
      (Rabs (x - inverse_entry e M i j) <= err * Rabs (inverse_entry e M i j))%R.
