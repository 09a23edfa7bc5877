(** The formatting options of the standard library.  [self.extract(i).fmt(f)] (src/api/fmt/debug.rs:54, lower_hex.rs:14,
    upper_hex.rs:14, octal.rs:14, binary.rs:14, src/api/minimal/ptr.rs:225) hands the caller's options to every lane;
    [write!(f, ..)] of names and separators starts with none.  What the elements do with them is core::fmt, read here.
    A fill character is taken to be ASCII, as all text of the model. *)
From Coq Require Import ZArith Ascii String List Bool.
From Verif.Model Require Import Base Minimal Fmt.
Import ListNotations.
Open Scope Z_scope.

Inductive align := AlignLeft | AlignRight | AlignCenter.
(** core::fmt::Formatter; [o_hex] is the [x] ([Some false]) or [X] ([Some true]) of [{:x?}]. *)
Record options := {
  o_width : option nat; o_precision : option nat; o_fill : ascii; o_align : option align;
  o_plus : bool; o_alternate : bool; o_zero : bool; o_hex : option bool }.

(** Formatter::padding: how many fill characters come before and after. *)
Definition padding (o : options) (n : nat) (default : align) : nat * nat :=
  match (match o_align o with Some a => a | None => default end) with
  | AlignLeft => (0, n)%nat
  | AlignRight => (n, 0)%nat
  | AlignCenter => (n / 2, (n + 1) / 2)%nat
  end.
(** The fill characters are written one by one. *)
Definition fill_writes (c : ascii) (n : nat) : list text := repeat [c] n.

(** Formatter::pad_integral: the strings written. *)
Definition write_prefix (sign : option ascii) (prefix : option text) : list text :=
  ((match sign with Some c => [[c]] | None => [] end) ++ (match prefix with Some p => [p] | None => [] end))%list.
Definition pad_integral (o : options) (is_nonnegative : bool) (prefix buf : text) : list text :=
  let sign := if negb is_nonnegative then Some "-"%char else if o_plus o then Some "+"%char else None in
  let width := (length buf + match sign with Some _ => 1 | None => 0 end)%nat in
  let width := (width + if o_alternate o then length prefix else 0)%nat in
  let prefix := if o_alternate o then Some prefix else None in
  match o_width o with
  | None => (write_prefix sign prefix ++ [buf])%list
  | Some min =>
      if Nat.leb min width then (write_prefix sign prefix ++ [buf])%list
      else if o_zero o then (write_prefix sign prefix ++ fill_writes "0"%char (min - width) ++ [buf])%list
      else let (pre, post) := padding o (min - width) AlignRight in
        (fill_writes (o_fill o) pre ++ write_prefix sign prefix ++ [buf] ++ fill_writes (o_fill o) post)%list
  end.

(** Formatter::pad, for strings. *)
Definition pad (o : options) (s : text) : list text :=
  let s := match o_precision o with Some max => firstn max s | None => s end in
  match o_width o with
  | None => [s]
  | Some width =>
      if Nat.leb width (length s) then [s]
      else let (pre, post) := padding o (width - length s) AlignLeft in
        (fill_writes (o_fill o) pre ++ [s] ++ fill_writes (o_fill o) post)%list
  end.

(** Integers (core::fmt::num). *)
Definition radix_writes (o : options) (upper : bool) (base : Z) (prefix : string) (b : nat) (p : Z) : list text :=
  pad_integral o true (str prefix) (numeral upper base b p).
Definition int_writes (tr : fmt_trait) (o : options) (k : kind) (b : nat) (p : Z) : list text :=
  match tr with
  | LowerHex => radix_writes o false 16 "0x" b p
  | UpperHex => radix_writes o true 16 "0x" b p
  | Octal => radix_writes o false 8 "0o" b p
  | Binary => radix_writes o false 2 "0b" b p
  | Debug =>
      match o_hex o with
      | Some upper => radix_writes o upper 16 "0x" b p
      | None => pad_integral o (0 <=? ival k b p) [] (numeral false 10 b (Z.abs (ival k b p)))
      end
  end.

(** Debug of a raw pointer is its Pointer implementation. *)
Definition ptr_writes (o : options) (b : nat) (p : Z) : list text :=
  let width := if o_alternate o then
                 match o_width o with None => Some (Z.to_nat (bits b / 4) + 2)%nat | w => w end
               else o_width o in
  let o := {| o_width := width; o_precision := o_precision o; o_fill := o_fill o; o_align := o_align o;
              o_plus := o_plus o; o_alternate := true; o_zero := o_alternate o || o_zero o; o_hex := o_hex o |} in
  radix_writes o false 16 "0x" b p.

(** Debug of bool is its Display. *)
Definition bool_writes (o : options) (x : bool) : list text := pad o (fmt_bool x).
