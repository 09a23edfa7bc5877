(** C81: formatting options. *)
From Coq Require Import ZArith Ascii String List Bool Lia.
From Verif.Model Require Import Base Minimal Tables Fmt FmtFlags.
From Verif.Spec Require Import Spec Text Numerals Fields.
From Verif.Proofs Require Import Lib FmtP FmtFlagsP.
From Verif.Props Require Import Tac Targets.
Import ListNotations.
Open Scope Z_scope.
Open Scope list_scope.

(** C81: the options apply to every lane of an integer vector by itself: each is the sign, the prefix if # is given,
    and the numeral, in a field of the given width, filled with zeros after the prefix or with the fill character on
    the sides that the alignment tells. *)
Theorem C81_integers : forall name tr o t v,
  integer_type t -> is_vector t v ->
  exists texts, fmt_vec name t (fun p => concat (int_writes tr o (vkind t) (vb t) p)) v = Ok (call_text name texts) /\
    Forall2 (fun p s => exists front num,
      (let prefix x := if o_alternate o then x else ""%string in
       match tr, o_hex o with
       | Debug, None => parts (o_plus o) "" false 10 (value t p) front num
       | Debug, Some upper => parts (o_plus o) (prefix "0x"%string) upper 16 p front num
       | LowerHex, _ => parts (o_plus o) (prefix "0x"%string) false 16 p front num
       | UpperHex, _ => parts (o_plus o) (prefix "0x"%string) true 16 p front num
       | Octal, _ => parts (o_plus o) (prefix "0o"%string) false 8 p front num
       | Binary, _ => parts (o_plus o) (prefix "0b"%string) false 2 p front num
       end) /\ formatted o front num s) v texts.
Proof. exact options_integers. Qed.
Print Assumptions C81_integers.

(** C81: without a width, the text is that of C41. *)
Theorem C81_no_width : forall name tr o t v,
  integer_type t -> is_vector t v -> o_width o = None -> (tr = Debug -> o_hex o = None) ->
  fmt_vec name t (fun p => concat (int_writes tr o (vkind t) (vb t) p)) v =
  fmt_vec name t (fmt_int tr {| plus := o_plus o; alternate := o_alternate o |} (vkind t) (vb t)) v.
Proof. exact options_no_width. Qed.
Print Assumptions C81_no_width.

(** C81: pointers are written in hexadecimal with a prefix; with # and no width in as many digits as a pointer has. *)
Theorem C81_pointers : forall name elem o t v,
  vector_type t -> is_vector t v ->
  exists texts, fmt_ptr name elem t (fun p => concat (ptr_writes o (vb t) p)) v
    = Ok (call_text (name ++ chars "<" ++ elem ++ chars ">") texts) /\
  Forall2 (fun p s => exists front num, parts (o_plus o) "0x" false 16 p front num /\
    if o_alternate o then
      zero_filled (match o_width o with Some w => w | None => Z.to_nat (2 + width t / 4) end) front num s
    else formatted o front num s) v texts.
Proof. exact options_pointers. Qed.
Print Assumptions C81_pointers.

(** C81: the lanes of masks are words, cut to the precision and put into the field, on the left if nothing else is said. *)
Theorem C81_masks : forall name o t v,
  mask_type t -> canonical t v ->
  exists texts, fmt_mask name t (fun x => concat (bool_writes o x)) v = Ok (call_text name texts) /\
    Forall2 (fun p s =>
      let word := chars (if truth p then "true" else "false") in
      in_field (match o_width o with Some w => w | None => 0%nat end) (o_fill o)
        (match o_align o with Some al => al | None => AlignLeft end)
        (match o_precision o with Some n => firstn n word | None => word end) s) v texts.
Proof. exact options_masks. Qed.
Print Assumptions C81_masks.

(** C81: distinct integer vectors have distinct texts, whatever the options, if the fill character is no comma and,
    unless it is replaced by zeros, not one that numbers are made of. *)
Theorem C81_distinct : forall name tr o t x y,
  integer_type t -> is_vector t x -> is_vector t y ->
  o_fill o <> comma -> (o_zero o = true \/ ~ In (o_fill o) (chars "0123456789abcdefABCDEFxo+-")) ->
  let lane p := concat (int_writes tr o (vkind t) (vb t) p) in
  fmt_vec name t lane x = fmt_vec name t lane y -> x = y.
Proof. exact options_distinct'. Qed.
Print Assumptions C81_distinct.

(** C81: and so have masks, if not cut to nothing. *)
Theorem C81_masks_distinct : forall name o t x y,
  mask_type t -> canonical t x -> canonical t y ->
  o_precision o <> Some 0%nat -> ~ In (o_fill o) (chars "truefals,") ->
  let lane x := concat (bool_writes o x) in
  fmt_mask name t lane x = fmt_mask name t lane y -> x = y.
Proof. exact options_masks_distinct'. Qed.
Print Assumptions C81_masks_distinct.

Definition plain : options :=
  {| o_width := None; o_precision := None; o_fill := " "; o_align := None; o_plus := false; o_alternate := false;
     o_zero := false; o_hex := None |}.
Definition wide (w : nat) (fill : ascii) : options :=
  {| o_width := Some w; o_precision := None; o_fill := fill; o_align := None; o_plus := false; o_alternate := false;
     o_zero := false; o_hex := None |}.

(** C81, refuted: that the text always tells the vector.  A fill character may be a digit, and a precision of 0 cuts
    the lanes of masks to nothing. *)
Theorem C81_any_options_refuted :
  (exists x y, is_vector i8x2 x /\ is_vector i8x2 y /\ x <> y /\
     let lane p := concat (int_writes Debug (wide 2 "1") KInt 1 p) in
     fmt_vec (chars "i8x2") i8x2 lane x = fmt_vec (chars "i8x2") i8x2 lane y) /\
  (exists o x y, canonical m8x2 x /\ canonical m8x2 y /\ x <> y /\
     let lane x := concat (bool_writes o x) in
     fmt_mask (chars "m8x2") m8x2 lane x = fmt_mask (chars "m8x2") m8x2 lane y).
Proof.
  split.
  - exists [1; 11], [11; 1]. split; [isv|]. split; [isv|]. split; [discriminate|]. vm_compute; reflexivity.
  - exists {| o_width := None; o_precision := Some 0%nat; o_fill := " "; o_align := None; o_plus := false;
              o_alternate := false; o_zero := false; o_hex := None |}, [255; 0], [0; 255].
    split; [canon|]. split; [canon|]. split; [discriminate|]. vm_compute; reflexivity.
Qed.
Print Assumptions C81_any_options_refuted.

Example C81_example :
  let show tr o v := fmt_vec (str "i8x4") i8x4 (fun p => concat (int_writes tr o KInt 1 p)) v in
  let zeros := {| o_width := Some 6%nat; o_precision := None; o_fill := " "; o_align := None; o_plus := true;
                  o_alternate := true; o_zero := true; o_hex := None |} in
  let center := {| o_width := Some 5%nat; o_precision := Some 1%nat; o_fill := "*"; o_align := Some AlignCenter;
                   o_plus := false; o_alternate := false; o_zero := false; o_hex := Some true |} in
  integer_type i8x4 /\ is_vector i8x4 [1; 255; 128; 0] /\
  show Debug (wide 4 " ") [1; 255; 128; 0] = Ok (str "i8x4(   1,   -1, -128,    0)") /\
  show Debug zeros [1; 255; 128; 0] = Ok (str "i8x4(+00001, -00001, -00128, +00000)") /\
  show LowerHex zeros [1; 255; 128; 0] = Ok (str "i8x4(+0x001, +0x0ff, +0x080, +0x000)") /\
  show Debug center [1; 255; 128; 0] = Ok (str "i8x4(**1**, *FF**, *80**, **0**)") /\
  canonical m8x2 [255; 0] /\
  fmt_mask (str "m8x2") m8x2 (fun x => concat (bool_writes center x)) [255; 0] = Ok (str "m8x2(**t**, **f**)") /\
  fmt_mask (str "m8x2") m8x2 (fun x => concat (bool_writes (wide 5 " ") x)) [255; 0] = Ok (str "m8x2(true , false)") /\
  o_fill center <> comma /\ ~ In (o_fill center) (chars "0123456789abcdefABCDEFxo+-") /\
  concat (ptr_writes zeros 8 0x7f00) = str "+0x7f00" /\
  concat (ptr_writes plain 8 0x7f00) = str "0x7f00" /\
  concat (ptr_writes {| o_width := None; o_precision := None; o_fill := " "; o_align := None; o_plus := false;
    o_alternate := true; o_zero := false; o_hex := None |} 8 0x7f00) = str "0x0000000000007f00".
Proof.
  split; [ity|]. split; [isv|]. split; [vm_compute; reflexivity|]. split; [vm_compute; reflexivity|].
  split; [vm_compute; reflexivity|]. split; [vm_compute; reflexivity|]. split; [canon|].
  split; [vm_compute; reflexivity|]. split; [vm_compute; reflexivity|]. split; [discriminate|].
  split; [cbn; intuition discriminate|]. split; [vm_compute; reflexivity|]. split; vm_compute; reflexivity.
Qed.
