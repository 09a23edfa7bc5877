(** Vocabulary for properties of shuffles and conversions. *)
From Coq Require Import ZArith List Bool String.
From Verif.Model Require Import Base Tables Bytes.
From Verif.Spec Require Import Spec.
Import ListNotations.
Open Scope string_scope.

(** The types whose lanes are pointer-sized. *)
Definition pointer_sized (d : decl) : bool :=
  existsb (String.eqb (d_name d))
    ["isizex2"; "usizex2"; "msizex2"; "isizex4"; "usizex4"; "msizex4";
     "isizex8"; "usizex8"; "msizex8"].

(** The shapes for which [shuffle1_dyn] has an implementation of its own
    (src/codegen/shuffle1_dyn.rs:28-263); all others share one. *)
Definition dedicated (t : vty) : bool :=
  existsb (fun bn => Nat.eqb (fst bn) (vb t) && Nat.eqb (snd bn) (vn t))
    [(1, 8); (1, 16); (2, 8); (4, 4); (8, 2); (16, 1)]%nat.
