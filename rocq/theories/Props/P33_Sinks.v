(** C80: formatting into writers that may fail. *)
From Coq Require Import ZArith Ascii String List Bool Lia.
From Verif.Model Require Import Base Minimal Tables Fmt FmtSink.
From Verif.Spec Require Import Spec Text Sinks.
From Verif.Proofs Require Import Lib FmtP FmtSinkP.
From Verif.Props Require Import Tac Targets.
Import ListNotations.
Open Scope Z_scope.
Open Scope list_scope.

(** C80: whatever the writer does, the strings that make up the text are offered to it in order until one fails;
    the first failure is returned and nothing is offered after it. *)
Theorem C80_writer : forall S (w : S -> list ascii -> S * bool) name t v,
  vector_type t -> is_vector t v ->
  let offered s r text := exists l s' ok, r = Ok (s', ok) /\ delivered w s l s' ok /\ concat l = text in
  (forall lane s, offered s (fmt_vec_to w name t lane v s) (call_text name (map (fun p => concat (lane p)) v))) /\
  (forall elem lane s, offered s (fmt_ptr_to w name elem t lane v s)
     (call_text (name ++ chars "<" ++ elem ++ chars ">") (map (fun p => concat (lane p)) v))) /\
  (forall lane s, offered s (fmt_mask_to w name t lane v s) (call_text name (map (fun p => concat (lane (truth p))) v))).
Proof. exact @formats_to. Qed.
Print Assumptions C80_writer.

(** C80: and so for scalar masks. *)
Theorem C80_scalar_mask : forall S (w : S -> list ascii -> S * bool) name p s,
  exists l, delivered w s l (fst (fmt_smask_to w name p s)) (snd (fmt_smask_to w name p s)) /\
    concat l = call_text name [chars (if p =? 0 then "false" else "true")].
Proof. exact @smask_to. Qed.
Print Assumptions C80_scalar_mask.

(** C80: a string gets the text of C41, and no error. *)
Theorem C80_string : forall name t v fmt_lane lane s, vector_type t -> is_vector t v ->
  (forall p, concat (lane p) = fmt_lane p) ->
  exists txt, fmt_vec name t fmt_lane v = Ok txt /\ fmt_vec_to to_string name t lane v s = Ok (s ++ txt, true).
Proof.
  intros name t v f lane s T V E. exists (call_text name (map f v)).
  split; [now apply format_text|].
  destruct (proj1 (formats_to to_string name t v T V) lane s) as (l & s' & ok & -> & D & C).
  apply delivered_string in D as [-> ->]. rewrite C. now rewrite (map_ext _ f E).
Qed.
Print Assumptions C80_string.

(** C80: an array string of [cap] characters, which takes a string whole or not at all, gets the text if there is
    room for it; otherwise it keeps a beginning of it and the error is returned. *)
Theorem C80_array : forall cap name t v lane s, vector_type t -> is_vector t v -> (length s <= cap)%nat ->
  let txt := s ++ call_text name (map (fun p => concat (lane p)) v) in
  exists s' ok, fmt_vec_to (to_array cap) name t lane v s = Ok (s', ok) /\
    (ok = true <-> (length txt <= cap)%nat) /\ (ok = true -> s' = txt) /\
    (length s' <= cap)%nat /\ exists rest, txt = s' ++ rest.
Proof.
  intros cap name t v lane s T V L. cbv zeta.
  destruct (proj1 (formats_to (to_array cap) name t v T V) lane s) as (l & s' & ok & -> & D & <-).
  exists s', ok. split; [reflexivity|]. destruct (delivered_array cap s l s' ok L D) as (A & B & C & dn & rs & -> & -> & _).
  split; [exact A|]. split; [exact B|]. split; [exact C|]. exists (concat rs). now rewrite concat_app, app_assoc.
Qed.
Print Assumptions C80_array.

(** C80: a buffer of [cap] characters, which takes as much as it can, ends up with the first [cap] characters. *)
Theorem C80_buffer : forall cap name t v lane s, vector_type t -> is_vector t v -> (length s <= cap)%nat ->
  let txt := s ++ call_text name (map (fun p => concat (lane p)) v) in
  exists ok, fmt_vec_to (to_buffer cap) name t lane v s = Ok (firstn cap txt, ok) /\ (ok = true <-> (length txt <= cap)%nat).
Proof.
  intros cap name t v lane s T V L. cbv zeta.
  destruct (proj1 (formats_to (to_buffer cap) name t v T V) lane s) as (l & s' & ok & -> & D & <-).
  destruct (delivered_buffer cap s l s' ok L D) as (-> & B). exists ok. split; [reflexivity|exact B].
Qed.
Print Assumptions C80_buffer.

(** -1 is written in two strings. *)
Example C80_example :
  let lane p := if p =? 255 then [str "-"; str "1"] else [str "7"] in
  vector_type i8x4 /\ is_vector i8x4 [255; 7; 7; 255] /\
  fmt_vec_to to_string (str "i8x4") i8x4 lane [255; 7; 7; 255] [] = Ok (str "i8x4(-1, 7, 7, -1)", true) /\
  fmt_vec_to (to_array 16) (str "i8x4") i8x4 lane [255; 7; 7; 255] [] = Ok (str "i8x4(-1, 7, 7, -", false) /\
  fmt_vec_to (to_array 10) (str "i8x4") i8x4 lane [255; 7; 7; 255] [] = Ok (str "i8x4(-1, 7", false) /\
  fmt_vec_to (to_buffer 11) (str "i8x4") i8x4 lane [255; 7; 7; 255] [] = Ok (str "i8x4(-1, 7,", false) /\
  fmt_vec_to (to_array 18) (str "i8x4") i8x4 lane [255; 7; 7; 255] [] = Ok (str "i8x4(-1, 7, 7, -1)", true) /\
  fmt_smask_to (to_buffer 7) (str "m8") 255 [] = (str "m8(true", false).
Proof.
  split; [ty|]. split; [isv|]. split; [vm_compute; reflexivity|]. split; [vm_compute; reflexivity|]. split; [vm_compute; reflexivity|].
  split; [vm_compute; reflexivity|]. split; [vm_compute; reflexivity|]. vm_compute; reflexivity.
Qed.
