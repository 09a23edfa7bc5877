(** Texts in fields of a given width. *)
From Coq Require Import ZArith Ascii String List Bool Arith.
From Verif.Model Require Import FmtFlags.
From Verif.Spec Require Import Text Numerals.
Import ListNotations.
Open Scope nat_scope.
Open Scope list_scope.

(** [s] is [body] in a field of [w] characters, or as many as it needs. *)
Definition in_field (w : nat) (fill : ascii) (al : align) (body s : list ascii) : Prop :=
  exists l r, s = repeat fill l ++ body ++ repeat fill r /\ length s = Nat.max w (length body) /\
    match al with AlignLeft => l = 0 | AlignRight => r = 0 | AlignCenter => l <= r <= l + 1 end.

(** [s] is the number [num] after [front] (sign and prefix), with zeros between them up to [w] characters. *)
Definition zero_filled (w : nat) (front num s : list ascii) : Prop :=
  exists z, s = front ++ repeat "0"%char z ++ num /\ length s = Nat.max w (length front + length num).

(** Sign and prefix, and the numeral. *)
Definition parts (plus : bool) (prefix : string) (upper : bool) (base n : Z) (front num : list ascii) : Prop :=
  reads upper base num (Z.abs n) /\
  front = chars (if (n <? 0)%Z then "-" else if plus then "+" else "") ++ chars prefix.

(** The number in its field, as the options ask. *)
Definition formatted (o : options) (front num s : list ascii) : Prop :=
  let w := match o_width o with Some w => w | None => 0 end in
  if o_zero o then zero_filled w front num s
  else in_field w (o_fill o) (match o_align o with Some al => al | None => AlignRight end) (front ++ num) s.
