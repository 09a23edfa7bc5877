(** C41: formatting. *)
From Coq Require Import ZArith List Bool Lia Ascii String.
From Verif.Model Require Import Base Minimal Tables Fmt.
From Verif.Spec Require Import Spec Text Numerals.
From Verif.Proofs Require Import Lib FmtP NumeralP.
From Verif.Props Require Import Tac Targets.
Import ListNotations.
Open Scope Z_scope.
Open Scope list_scope.

(** C41: the text is the name, an opening parenthesis, the lanes in order separated by a comma and a space, and a closing one; for any formatting of the lanes. *)
Theorem C41_text : forall name t v,
  vector_type t -> is_vector t v ->
  (forall fmt_lane, fmt_vec name t fmt_lane v = Ok (call_text name (map fmt_lane v))) /\
  (forall elem fmt_lane,
     fmt_ptr name elem t fmt_lane v = Ok (call_text (name ++ chars "<" ++ elem ++ chars ">") (map fmt_lane v))) /\
  (forall fmt_lane, fmt_mask name t fmt_lane v = Ok (call_text name (map (fun p => fmt_lane (truth p)) v))).
Proof. exact format_text. Qed.
Print Assumptions C41_text.

(** C41: if the formatting of lanes has no comma and is injective, distinct vectors have distinct texts. *)
Theorem C41_distinct : forall name t fmt_lane x y,
  vector_type t -> is_vector t x -> is_vector t y ->
  (forall p, 0 <= p < 2 ^ width t -> ~ In comma (fmt_lane p)) ->
  (forall p q, 0 <= p < 2 ^ width t -> 0 <= q < 2 ^ width t -> fmt_lane p = fmt_lane q -> p = q) ->
  fmt_vec name t fmt_lane x = fmt_vec name t fmt_lane y -> x = y.
Proof. exact format_distinct. Qed.
Print Assumptions C41_distinct.

(** C41: so it is for integer vectors with every trait and the + and # flags. *)
Theorem C41_integers_distinct : forall name tr fl t x y,
  integer_type t -> is_vector t x -> is_vector t y ->
  fmt_vec name t (fmt_int tr fl (vkind t) (vb t)) x = fmt_vec name t (fmt_int tr fl (vkind t) (vb t)) y -> x = y.
Proof. exact format_integers_distinct. Qed.
Print Assumptions C41_integers_distinct.

(** C41: the lanes of an integer vector are written as numerals without leading zeros: the
    number in decimal for Debug, and the bits in hexadecimal, octal or binary otherwise. *)
Theorem C41_integers : forall name tr fl t v,
  integer_type t -> is_vector t v ->
  exists texts, fmt_vec name t (fmt_int tr fl (vkind t) (vb t)) v = Ok (call_text name texts) /\
    Forall2 (fun p s =>
      let prefix x := if alternate fl then x else ""%string in
      match tr with
      | Debug => written (plus fl) "" false 10 (value t p) s
      | LowerHex => written (plus fl) (prefix "0x"%string) false 16 p s
      | UpperHex => written (plus fl) (prefix "0x"%string) true 16 p s
      | Octal => written (plus fl) (prefix "0o"%string) false 8 p s
      | Binary => written (plus fl) (prefix "0b"%string) false 2 p s
      end) v texts.
Proof. exact integers_text. Qed.
Print Assumptions C41_integers.

(** C41: and for mask vectors. *)
Theorem C41_masks_distinct : forall name t x y,
  mask_type t -> canonical t x -> canonical t y ->
  fmt_mask name t fmt_bool x = fmt_mask name t fmt_bool y -> x = y.
Proof. exact format_masks_distinct. Qed.
Print Assumptions C41_masks_distinct.

Example C41_example :
  vector_type i8x4 /\ integer_type i8x4 /\ is_vector i8x4 [1; 255; 128; 0] /\
  fmt_vec (str "i8x4") i8x4 (fmt_int Debug {| plus := false; alternate := false |} KInt 1) [1; 255; 128; 0]
    = Ok (str "i8x4(1, -1, -128, 0)") /\
  fmt_vec (str "i8x4") i8x4 (fmt_int LowerHex {| plus := false; alternate := true |} KInt 1) [1; 255; 128; 0]
    = Ok (str "i8x4(0x1, 0xff, 0x80, 0x0)") /\
  fmt_vec (str "i8x4") i8x4 (fmt_int UpperHex {| plus := true; alternate := false |} KInt 1) [1; 255; 128; 0]
    = Ok (str "i8x4(+1, +FF, +80, +0)") /\
  canonical m8x2 [255; 0] /\ fmt_mask (str "m8x2") m8x2 fmt_bool [255; 0] = Ok (str "m8x2(true, false)").
Proof.
  split; [ty|]. split; [ity|]. split; [isv|]. split; [vm_compute; reflexivity|]. split; [vm_compute; reflexivity|].
  split; [vm_compute; reflexivity|].
  split; [canon|]. vm_compute; reflexivity.
Qed.
