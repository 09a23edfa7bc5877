(** Formatting into a writer that may fail. *)
From Coq Require Import ZArith Ascii String List Bool Lia.
From Verif.Model Require Import Base Minimal ScalarMask Fmt FmtSink.
From Verif.Spec Require Import Spec Text Sinks.
From Verif.Proofs Require Import Lib MinimalP FmtP.
Import ListNotations.
Open Scope list_scope.

Section Writer.
Context {S : Type}.
Variable w : S -> text -> S * bool.

Lemma write_all_delivered l : forall s, delivered w s l (fst (write_all w l s)) (snd (write_all w l s)).
Proof.
  induction l as [|p l IH]; intros s; cbn [write_all]; [constructor|].
  destruct (w s p) as [s1 [|]] eqn:E; [econstructor; eauto|]. cbn [fst snd]. now constructor.
Qed.
Lemma write_all_app l r s : write_all w (l ++ r) s = let (s', ok) := write_all w l s in if ok then write_all w r s' else (s', false).
Proof.
  revert s; induction l as [|p l IH]; intros s; cbn [app write_all].
  - reflexivity.
  - destruct (w s p) as [s1 [|]]; auto.
Qed.
Lemma try_write_all l s r k : (forall s', k s' = Ok (write_all w r s')) -> try_write (write_all w l s) k = Ok (write_all w (l ++ r) s).
Proof. intros K. rewrite write_all_app. unfold try_write. destruct (write_all w l s) as [s' [|]]; auto. Qed.

(** Everything that is written by the loop. *)
Fixpoint loop_writes {A} (f : A -> list text) (i : nat) (xs : list A) : list text :=
  match xs with [] => [] | x :: l => (if Nat.ltb 0 i then [str ", "] else []) ++ f x ++ loop_writes f (Datatypes.S i) l end.

Lemma fmt_loop_ok {A} (get : nat -> outcome A) f after r : (forall s, after s = Ok (write_all w r s)) ->
  forall (xs : list A) i s, (forall j x, nth_error xs j = Some x -> get (i + j)%nat = Ok x) ->
  fmt_loop w get f (List.length xs) i s after = Ok (write_all w (loop_writes f i xs ++ r) s).
Proof.
  intros K. induction xs as [|x xs IH]; intros i s G; cbn [List.length fmt_loop loop_writes app]; [apply K|].
  assert (G0 : get i = Ok x) by (rewrite <- (Nat.add_0_r i); now apply G).
  assert (Gs : forall j y, nth_error xs j = Some y -> get (Datatypes.S i + j)%nat = Ok y).
  { intros j y Y. replace (Datatypes.S i + j)%nat with (i + Datatypes.S j)%nat by lia. now apply G. }
  rewrite G0. cbn [bind]. rewrite <- !app_assoc.
  assert (Q : forall s, try_write (write_all w (f x) s) (fun s => fmt_loop w get f (List.length xs) (Datatypes.S i) s after)
    = Ok (write_all w (f x ++ loop_writes f (Datatypes.S i) xs ++ r) s)).
  { intros s'. apply try_write_all. intros s''. now apply IH. }
  destruct (Nat.ltb 0 i).
  - now apply try_write_all.
  - cbn [try_write app]. apply Q.
Qed.

Lemma fmt_lanes_to_ok {A} prefix (get : nat -> outcome A) f (xs : list A) s :
  (forall j x, nth_error xs j = Some x -> get j = Ok x) ->
  fmt_lanes_to w prefix (List.length xs) get f s = Ok (write_all w ((prefix ++ [str "("]) ++ loop_writes f 0 xs ++ [str ")"]) s).
Proof.
  intros G. unfold fmt_lanes_to. apply try_write_all. intros s'. apply fmt_loop_ok; auto.
Qed.
End Writer.

Lemma loop_writes_tail {A} (f : A -> list text) xs : forall i, (0 < i)%nat ->
  concat (loop_writes f i xs) = tail_text (map (fun x => concat (f x)) xs).
Proof.
  induction xs as [|x xs IH]; intros i I; cbn [loop_writes map tail_text]; [reflexivity|].
  replace (Nat.ltb 0 i) with true by (symmetry; apply Nat.ltb_lt; lia).
  rewrite !concat_app. cbn [concat]. rewrite app_nil_r. now rewrite IH by lia.
Qed.
Lemma writes_text {A} prefix (f : A -> list text) xs :
  concat ((prefix ++ [str "("]) ++ loop_writes f 0 xs ++ [str ")"]) = call_text (concat prefix) (map (fun x => concat (f x)) xs).
Proof.
  unfold call_text, chars. fold (str "("). fold (str ", "). fold (str ")"). rewrite !concat_app. cbn [concat]. rewrite !app_nil_r, <- app_assoc.
  do 3 f_equal. destruct xs as [|x xs]; cbn [loop_writes map]; [reflexivity|].
  rewrite joined_cons. change (Nat.ltb 0 0) with false. cbn [app]. rewrite concat_app. now rewrite loop_writes_tail by lia.
Qed.

Theorem formats_to {S} (w : S -> text -> S * bool) name t v :
  vector_type t -> is_vector t v ->
  let offered s r text := exists l s' ok, r = Ok (s', ok) /\ delivered w s l s' ok /\ concat l = text in
  (forall lane s, offered s (fmt_vec_to w name t lane v s) (call_text name (map (fun p => concat (lane p)) v))) /\
  (forall elem lane s, offered s (fmt_ptr_to w name elem t lane v s)
     (call_text (name ++ chars "<" ++ elem ++ chars ">") (map (fun p => concat (lane p)) v))) /\
  (forall lane s, offered s (fmt_mask_to w name t lane v s) (call_text name (map (fun p => concat (lane (truth p))) v))).
Proof.
  intros T V offered.
  assert (G : forall {A} prefix (get : nat -> outcome A) (f : A -> list text) (xs : list A) s txt,
    (forall j x, nth_error xs j = Some x -> get j = Ok x) -> call_text (concat prefix) (map (fun x => concat (f x)) xs) = txt ->
    offered s (fmt_lanes_to w prefix (List.length xs) get f s) txt).
  { intros A prefix get f xs s txt H E.
    exists ((prefix ++ [str "("]) ++ loop_writes f 0 xs ++ [str ")"]).
    eexists _, _. split; [rewrite fmt_lanes_to_ok by exact H; rewrite surjective_pairing at 1; reflexivity|].
    split; [apply write_all_delivered|]. rewrite <- E. apply writes_text. }
  unfold fmt_vec_to, fmt_ptr_to, fmt_mask_to. rewrite <- (is_vector_length t v V). split; [|split].
  - intros lane s. apply G; [intros j x X; now apply extract_lane|]. cbn [concat]. now rewrite app_nil_r.
  - intros elem lane s. apply G; [intros j x X; now apply extract_lane|]. cbn [concat]. now rewrite app_nil_r.
  - intros lane s. rewrite <- (map_length truth v). apply G.
    + intros j c X. rewrite nth_error_map in X. destruct (nth_error v j) as [p|] eqn:P; [|discriminate]. injection X as <-.
      now apply mask_extract_lane.
    + cbn [concat]. rewrite app_nil_r. f_equal. rewrite map_map. reflexivity.
Qed.

Theorem smask_to {S} (w : S -> text -> S * bool) name p s :
  exists l, delivered w s l (fst (fmt_smask_to w name p s)) (snd (fmt_smask_to w name p s)) /\
    concat l = call_text name [chars (if Z.eqb p 0 then "false" else "true")].
Proof.
  eexists. split; [apply write_all_delivered|]. cbn [concat]. unfold call_text. cbn [joined]. rewrite app_nil_r. now destruct (Z.eqb p 0).
Qed.

(** Particular writers. *)
Theorem delivered_string s l s' ok : delivered to_string s l s' ok -> ok = true /\ s' = s ++ concat l.
Proof.
  induction 1 as [s|s p l s1 s' ok E D [-> ->]|s p l s1 E].
  - cbn. now rewrite app_nil_r.
  - injection E as <-. cbn [concat]. now rewrite <- app_assoc.
  - discriminate E.
Qed.
Theorem delivered_array cap s l s' ok : (List.length s <= cap)%nat -> delivered (to_array cap) s l s' ok ->
  (ok = true <-> (List.length (s ++ concat l) <= cap)%nat) /\
  (ok = true -> s' = s ++ concat l) /\ (List.length s' <= cap)%nat /\
  exists done rest, l = done ++ rest /\ s' = s ++ concat done /\ (ok = false -> rest <> []).
Proof.
  intros H D. revert H. induction D as [s|s p l s1 s' ok E D IH|s p l s1 E]; intros H.
  - cbn [concat]. rewrite app_nil_r. split; [tauto|]. split; [auto|]. split; [exact H|].
    exists [], []. cbn [concat app]. rewrite app_nil_r. split; [reflexivity|]. split; [reflexivity|discriminate].
  - unfold to_array in E. destruct (Nat.leb _ _) eqn:B; [|discriminate]. injection E as <-. apply Nat.leb_le in B.
    destruct IH as (I1 & I2 & I3 & dn & rs & -> & I5 & I6); [rewrite app_length; exact B|].
    cbn [concat]. rewrite <- app_assoc in I1, I2, I5. split; [exact I1|]. split; [exact I2|]. split; [exact I3|].
    exists (p :: dn), rs. split; [reflexivity|]. split; [exact I5|exact I6].
  - unfold to_array in E. destruct (Nat.leb _ _) eqn:B; [discriminate|]. injection E as <-. apply Nat.leb_gt in B.
    cbn [concat]. split; [split; [discriminate|rewrite !app_length; lia]|]. split; [discriminate|]. split; [exact H|].
    exists [], (p :: l). cbn [concat app]. rewrite app_nil_r. split; [reflexivity|]. split; [reflexivity|discriminate].
Qed.
Theorem delivered_buffer cap s l s' ok : (List.length s <= cap)%nat -> delivered (to_buffer cap) s l s' ok ->
  s' = firstn cap (s ++ concat l) /\ (ok = true <-> (List.length (s ++ concat l) <= cap)%nat).
Proof.
  intros H D. revert H. induction D as [s|s p l s1 s' ok E D IH|s p l s1 E]; intros H.
  - cbn [concat]. rewrite app_nil_r. rewrite firstn_all2 by exact H. tauto.
  - unfold to_buffer in E. injection E as E B. apply Nat.leb_le in B. rewrite firstn_all2 in E by lia. subst s1.
    cbn [concat]. rewrite app_assoc. apply IH. rewrite app_length. exact B.
  - unfold to_buffer in E. injection E as <- B. apply Nat.leb_gt in B. cbn [concat]. split.
    + rewrite app_assoc, !firstn_app. rewrite (firstn_all2 s) by lia.
      replace (cap - List.length (s ++ p))%nat with 0%nat by (rewrite app_length; lia). cbn [firstn]. now rewrite app_nil_r.
    + split; [discriminate|]. rewrite !app_length. lia.
Qed.
