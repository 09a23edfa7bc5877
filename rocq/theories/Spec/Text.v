(** Vocabulary for formatting. *)
From Coq Require Import ZArith List Bool Ascii String.
Import ListNotations.

(** The pieces in order, [sep] between each two. *)
Fixpoint joined (sep : list ascii) (pieces : list (list ascii)) : list ascii :=
  match pieces with
  | [] => []
  | [p] => p
  | p :: rest => (p ++ sep ++ joined sep rest)%list
  end.

Definition chars (s : string) : list ascii := list_ascii_of_string s.
Definition comma : ascii := ","%char.

(** name(a, b, ..) *)
Definition call_text (name : list ascii) (pieces : list (list ascii)) : list ascii :=
  (name ++ chars "(" ++ joined (chars ", ") pieces ++ chars ")")%list.
