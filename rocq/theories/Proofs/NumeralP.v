(** The text of integer lanes. *)
From Coq Require Import ZArith List Bool Lia Ascii String.
From Verif.Model Require Import Base Minimal Fmt.
From Verif.Spec Require Import Spec Text Numerals.
From Verif.Proofs Require Import Lib MinimalP FmtP.
Import ListNotations.
Open Scope Z_scope.
Open Scope list_scope.

Lemma digit_char_of up d : 0 <= d < 16 -> digit_of up (digit_char up d) d.
Proof.
  intros D. unfold digit_of.
  assert (X : forallb (fun d => Z.of_N (N_of_ascii (digit_char up (Z.of_nat d))) =?
    (if (d <? 10)%nat then 48 + Z.of_nat d else (if up then 65 else 97) + (Z.of_nat d - 10))) (seq 0 16) = true)
    by (destruct up; vm_compute; reflexivity).
  rewrite forallb_forall in X. specialize (X (Z.to_nat d) ltac:(apply in_seq; lia)).
  rewrite Z2Nat.id in X by lia. apply Z.eqb_eq in X. destruct (Nat.ltb_spec (Z.to_nat d) 10); [left|right]; split; auto; lia.
Qed.
Lemma numeral_reads up base : 2 <= base <= 16 -> forall fuel n, (0 < fuel)%nat -> 0 <= n < base ^ Z.of_nat fuel ->
  reads up base (map (digit_char up) (digits base fuel n)) n.
Proof.
  intros B. induction fuel as [|f IH]; intros n F N; [lia|]. cbn [digits].
  destruct (Z.ltb_spec n base) as [L|L].
  - cbn [map]. constructor; [apply digit_char_of; lia|exact L].
  - rewrite map_app. cbn [map].
    assert (ND : n = n / base * base + n mod base) by (rewrite Z.mul_comm; apply Z.div_mod; lia).
    pose proof (Z.mod_pos_bound n base ltac:(lia)) as MB.
    rewrite Nat2Z.inj_succ, Z.pow_succ_r in N by lia.
    assert (U : n / base < base ^ Z.of_nat f) by (apply Z.div_lt_upper_bound; lia).
    assert (P : 1 <= n / base) by (apply Z.div_le_lower_bound; lia).
    rewrite ND at 3. constructor; [apply IH| |apply digit_char_of|]; try lia.
    destruct f; [|lia]. change (base ^ Z.of_nat 0) with 1 in U. lia.
Qed.
Lemma numeral_ok up base b n : 2 <= base <= 16 -> (0 < b)%nat -> 0 <= n < modulus b -> reads up base (numeral up base b n) n.
Proof.
  intros B P N. apply numeral_reads; [exact B| |].
  - pose proof (bits_pos b P). lia.
  - split; [lia|]. apply pow_base_bits; [lia|exact N].
Qed.

Definition lane_written (tr : fmt_trait) (fl : fmt_flags) (t : vty) (p : Z) (s : list ascii) : Prop :=
  let prefix x := if alternate fl then x else ""%string in
  match tr with
  | Debug => written (plus fl) "" false 10 (value t p) s
  | LowerHex => written (plus fl) (prefix "0x"%string) false 16 p s
  | UpperHex => written (plus fl) (prefix "0x"%string) true 16 p s
  | Octal => written (plus fl) (prefix "0o"%string) false 8 p s
  | Binary => written (plus fl) (prefix "0b"%string) false 2 p s
  end.

Lemma written_pos b pl pf up base n : 2 <= base <= 16 -> (0 < b)%nat -> 0 <= n < modulus b ->
  written pl pf up base n (str (if pl then "+" else "") ++ str pf ++ numeral up base b n).
Proof.
  intros B P N. exists (numeral up base b n). rewrite Z.abs_eq by lia. split; [now apply numeral_ok|].
  rewrite (proj2 (Z.ltb_ge n 0)) by lia. reflexivity.
Qed.

Lemma lane_writes tr fl t p : integer_type t -> 0 <= p < 2 ^ width t ->
  lane_written tr fl t p (fmt_int tr fl (vkind t) (vb t) p).
Proof.
  intros T P. assert (VT : vector_type t) by (destruct T as [[_ T]|[_ T]]; exact T).
  assert (B : (0 < vb t)%nat) by apply VT. change (pattern (vb t) p) in P.
  assert (E : value t p = ival (vkind t) (vb t) p) by (destruct T as [[K _]|[K _]]; unfold value, ival; rewrite K; reflexivity).
  assert (G : forall up base x, 2 <= base <= 16 ->
    written (plus fl) (if alternate fl then x else ""%string) up base p
      ((if plus fl then str "+" else []) ++ (if alternate fl then str x else []) ++ numeral up base (vb t) p)).
  { intros up base x HB. pose proof (written_pos (vb t) (plus fl) (if alternate fl then x else ""%string) up base p HB B P) as W.
    destruct (plus fl), (alternate fl); exact W. }
  unfold fmt_int. destruct tr; cbn [lane_written]; try (apply G; lia).
  rewrite E. pose proof (ival_bound (vkind t) (vb t) p B P) as IB.
  destruct (Z.ltb_spec (ival (vkind t) (vb t) p) 0) as [L|L].
  - exists (numeral false 10 (vb t) (- ival (vkind t) (vb t) p)). rewrite (proj2 (Z.ltb_lt _ _) L). split; [|reflexivity].
    replace (Z.abs (ival (vkind t) (vb t) p)) with (- ival (vkind t) (vb t) p) by lia. apply numeral_ok; lia.
  - pose proof (written_pos (vb t) (plus fl) "" false 10 (ival (vkind t) (vb t) p) ltac:(lia) B ltac:(lia)) as W.
    destruct (plus fl); exact W.
Qed.

Theorem integers_text name tr fl t v : integer_type t -> is_vector t v ->
  exists texts, fmt_vec name t (fmt_int tr fl (vkind t) (vb t)) v = Ok (call_text name texts) /\
    Forall2 (lane_written tr fl t) v texts.
Proof.
  intros T V. assert (VT : vector_type t) by (destruct T as [[_ T]|[_ T]]; exact T).
  exists (map (fmt_int tr fl (vkind t) (vb t)) v). split; [exact (proj1 (format_text name t v VT V) _)|].
  destruct V as [_ F]. induction v as [|p v IH]; cbn [map]; [constructor|]. inversion F; subst.
  constructor; [now apply lane_writes|now apply IH].
Qed.

(** The text determines the number. *)
Lemma digit_of_unique up c d e : digit_of up c d -> digit_of up c e -> d = e.
Proof. intros [[A B]|[A B]] [[C D]|[C D]]; rewrite B in D; destruct up; lia. Qed.
Lemma reads_unique up base l n : reads up base l n -> forall m, reads up base l m -> n = m.
Proof.
  induction 1 as [c d D L|l n c d R IH P D L]; intros m M.
  - inversion M; subst.
    + now apply (digit_of_unique up c).
    + exfalso. match goal with H : ?l ++ [_] = [_], R : reads _ _ ?l _ |- _ => destruct l as [|? [|? ?]]; [|discriminate|discriminate]; inversion R end.
      destruct l; discriminate.
  - inversion M; subst.
    + exfalso. match goal with H : [_] = l ++ [_] |- _ => destruct l as [|? [|? ?]]; [|discriminate|discriminate]; inversion R end.
      destruct l; discriminate.
    + match goal with H : ?l' ++ [?c'] = l ++ [c] |- _ => apply app_inj_tail in H as [-> ->] end.
      f_equal; [f_equal; auto|]. now apply (digit_of_unique up c).
Qed.
