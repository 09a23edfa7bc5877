(** How integers are written. *)
From Coq Require Import ZArith List Bool Ascii String.
From Verif.Spec Require Import Text.
Import ListNotations.
Open Scope Z_scope.
Open Scope list_scope.

(** [c] is the digit of value [d]: 0 to 9 are at code 48 on, then come A at 65 or a at 97. *)
Definition digit_of (upper : bool) (c : ascii) (d : Z) : Prop :=
  (0 <= d < 10 /\ Z.of_N (N_of_ascii c) = 48 + d) \/
  (10 <= d < 36 /\ Z.of_N (N_of_ascii c) = (if upper then 65 else 97) + (d - 10)).

(** The text is the numeral of [n] in the given base, without leading zeros. *)
Inductive reads (upper : bool) (base : Z) : list ascii -> Z -> Prop :=
| reads_digit c d : digit_of upper c d -> d < base -> reads upper base [c] d
| reads_more l n c d :
    reads upper base l n -> 0 < n -> digit_of upper c d -> d < base -> reads upper base (l ++ [c]) (n * base + d).

(** A sign, a prefix if wanted, and the numeral of the absolute value. *)
Definition written (plus : bool) (prefix : string) (upper : bool) (base n : Z) (s : list ascii) : Prop :=
  exists num, reads upper base num (Z.abs n) /\
    s = chars (if n <? 0 then "-" else if plus then "+" else "") ++ chars prefix ++ num.
