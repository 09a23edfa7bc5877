(** Vocabulary for writers that may fail. *)
From Coq Require Import List Ascii Arith Bool.
Import ListNotations.

(** The strings are offered to a writer one after the other; the first one that fails is the
    last.  The flag tells whether all of them were written. *)
Inductive delivered {S : Type} (write : S -> list ascii -> S * bool) : S -> list (list ascii) -> S -> bool -> Prop :=
| all_done s : delivered write s [] s true
| accepted s p l s1 s' ok : write s p = (s1, true) -> delivered write s1 l s' ok -> delivered write s (p :: l) s' ok
| refused s p l s1 : write s p = (s1, false) -> delivered write s (p :: l) s1 false.

(** A string that grows without limit. *)
Definition to_string (s p : list ascii) : list ascii * bool := (s ++ p, true).
(** A buffer of [cap] characters that takes a string whole or not at all. *)
Definition to_array (cap : nat) (s p : list ascii) : list ascii * bool :=
  if Nat.leb (length s + length p) cap then (s ++ p, true) else (s, false).
(** A buffer of [cap] characters that takes as much as there is room for. *)
Definition to_buffer (cap : nat) (s p : list ascii) : list ascii * bool :=
  (s ++ firstn (cap - length s) p, Nat.leb (length s + length p) cap).
