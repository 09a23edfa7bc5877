(** Formatting (src/api/fmt/*.rs, src/api/minimal/ptr.rs).  Text is a list of characters;
    here a writer never fails; FmtSink.v has the same code with writers that may fail. *)
From Coq Require Import ZArith List Bool Ascii String.
From Verif.Model Require Import Base Minimal ScalarMask.
Import ListNotations.
Open Scope Z_scope.

Definition text := list ascii.
Definition str (s : string) : text := list_ascii_of_string s.

(** The body shared by impl_fmt_debug! (src/api/fmt/debug.rs:45-58), impl_fmt_lower_hex!
    (lower_hex.rs:5-18), upper_hex.rs:5-18, octal.rs:5-18 and binary.rs:5-18, and by
    Debug of pointer vectors (src/api/minimal/ptr.rs:210-228, whose prefix also has the
    element's type name).  [prefix] is the text before the parenthesis, [get] extracts
    lane i, [fmt_lane] is the element's own implementation of the trait, with the
    formatter's options. *)
Definition fmt_lanes {A} (prefix : text) (n : nat) (get : nat -> outcome A) (fmt_lane : A -> text) : outcome text :=
  body <- for_loop n 0 (prefix ++ str "(")%list (fun i acc =>
    let acc := if Nat.ltb 0 i then (acc ++ str ", ")%list else acc in
    x <- get i ;;
    Ok (acc ++ fmt_lane x)%list) ;;
  Ok (body ++ str ")")%list.

(** Integer, float and pointer vectors. *)
Definition fmt_vec (name : text) (t : vty) (fmt_lane : Z -> text) (v : vec) : outcome text :=
  fmt_lanes name (vn t) (fun i => extract t v (Z.of_nat i)) fmt_lane.
Definition fmt_ptr (name elem : text) (t : vty) (fmt_lane : Z -> text) (v : vec) : outcome text :=
  fmt_lanes (name ++ str "<" ++ elem ++ str ">")%list (vn t) (fun i => extract t v (Z.of_nat i)) fmt_lane.
(** Mask vectors: the lanes are bools. *)
Definition fmt_mask (name : text) (t : vty) (fmt_lane : bool -> text) (v : vec) : outcome text :=
  fmt_lanes name (vn t) (fun i => mask_extract t v (Z.of_nat i)) fmt_lane.
(** Debug of a bool (core). *)
Definition fmt_bool (x : bool) : text := if x then str "true" else str "false".
(** Debug of a scalar mask (src/masks.rs:105-110). *)
Definition fmt_smask (name : text) (b : nat) (p : Z) : text :=
  (name ++ str "(" ++ fmt_bool (negb (p =? 0)) ++ str ")")%list.

(** ** core's integer formatting (core::fmt::num), without width; FmtFlags.v has all options. *)

(** Digits of [n] in [base], most significant first. *)
Fixpoint digits (base : Z) (fuel : nat) (n : Z) : list Z :=
  match fuel with
  | O => []
  | S f => if n <? base then [n] else (digits base f (n / base) ++ [n mod base])%list
  end.
Definition digit_char (upper : bool) (d : Z) : ascii :=
  nth (Z.to_nat d) (str (if upper then "0123456789ABCDEF" else "0123456789abcdef")) "?"%char.
Definition numeral (upper : bool) (base : Z) (b : nat) (n : Z) : text :=
  map (digit_char upper) (digits base (Z.to_nat (bits b)) n).

Inductive fmt_trait := Debug | LowerHex | UpperHex | Octal | Binary.
(** The flags [+] and [#]. *)
Record fmt_flags := { plus : bool; alternate : bool }.

(** Debug is decimal with a sign; the others print the bit pattern, with a prefix if
    [#] is given.  ([{:x?}] and [{:X?}] are LowerHex and UpperHex.) *)
Definition fmt_int (tr : fmt_trait) (fl : fmt_flags) (k : kind) (b : nat) (p : Z) : text :=
  let sign := if plus fl then str "+" else [] in
  let pre (s : string) := if alternate fl then str s else [] in
  match tr with
  | Debug =>
      if ival k b p <? 0 then (str "-" ++ numeral false 10 b (- ival k b p))%list
      else (sign ++ numeral false 10 b (ival k b p))%list
  | LowerHex => (sign ++ pre "0x"%string ++ numeral false 16 b p)%list
  | UpperHex => (sign ++ pre "0x"%string ++ numeral true 16 b p)%list
  | Octal => (sign ++ pre "0o"%string ++ numeral false 8 b p)%list
  | Binary => (sign ++ pre "0b"%string ++ numeral false 2 b p)%list
  end.
