(** Formatting options. *)
From Coq Require Import ZArith Ascii String List Bool Lia.
From Verif.Model Require Import Base Minimal Fmt FmtFlags.
From Verif.Spec Require Import Spec Text Numerals Fields.
From Verif.Proofs Require Import Lib MinimalP FmtP NumeralP.
Import ListNotations.
Open Scope Z_scope.
Open Scope list_scope.

Lemma concat_fill c n : List.concat (fill_writes c n) = repeat c n.
Proof. unfold fill_writes. induction n; cbn; [reflexivity|now f_equal]. Qed.

Definition front_of (o : options) (nn : bool) (prefix : text) : text :=
  (if negb nn then str "-" else if o_plus o then str "+" else []) ++ (if o_alternate o then prefix else []).

Lemma concat_prefix o nn prefix :
  List.concat (write_prefix (if negb nn then Some "-"%char else if o_plus o then Some "+"%char else None)
                            (if o_alternate o then Some prefix else None)) = front_of o nn prefix.
Proof. unfold write_prefix, front_of. destruct nn, (o_plus o), (o_alternate o); cbn; rewrite ?app_nil_r; reflexivity. Qed.

Lemma padding_sides o n d : exists l r, padding o n d = (l, r) /\ (l + r = n)%nat /\
  match (match o_align o with Some a => a | None => d end) with
  | AlignLeft => l = 0%nat | AlignRight => r = 0%nat | AlignCenter => (l <= r <= l + 1)%nat end.
Proof.
  unfold padding. destruct (match o_align o with Some a => a | None => d end); do 2 eexists; (split; [reflexivity|]); lia.
Qed.

Lemma field_exact w fill al body : (w <= List.length body)%nat -> in_field w fill al body body.
Proof.
  intros W. exists 0%nat, 0%nat. cbn [repeat app]. rewrite app_nil_r. split; [reflexivity|]. split; [lia|]. destruct al; lia.
Qed.
Lemma field_padded w fill d o body l r : (List.length body < w)%nat -> (l + r = w - List.length body)%nat ->
  match (match o_align o with Some a => a | None => d end) with
  | AlignLeft => l = 0%nat | AlignRight => r = 0%nat | AlignCenter => (l <= r <= l + 1)%nat end ->
  in_field w fill (match o_align o with Some a => a | None => d end) body (repeat fill l ++ body ++ repeat fill r).
Proof.
  intros W S A. exists l, r. split; [reflexivity|]. split; [|exact A]. rewrite !app_length, !repeat_length. lia.
Qed.

Lemma pad_integral_formatted o nn prefix buf : formatted o (front_of o nn prefix) buf (List.concat (pad_integral o nn prefix buf)).
Proof.
  unfold pad_integral. cbv zeta. set (sg := if negb nn then Some "-"%char else if o_plus o then Some "+"%char else None).
  set (w := (List.length buf + _ + _)%nat).
  assert (W : w = List.length (front_of o nn prefix ++ buf)).
  { unfold w, sg, front_of. rewrite !app_length. destruct nn, (o_plus o), (o_alternate o); cbn; lia. }
  clearbody w. pose proof (concat_prefix o nn prefix) as P. fold sg in P. set (wp := write_prefix _ _) in *. clearbody wp.
  assert (X : @List.concat ascii (@app text wp (@cons text buf (@nil text))) = front_of o nn prefix ++ buf) by (rewrite concat_app, P; cbn; now rewrite app_nil_r).
  unfold formatted. set (W' := match o_width o with Some w0 => w0 | None => 0%nat end).
  assert (D : (W' <= w)%nat -> if o_zero o then zero_filled W' (front_of o nn prefix) buf (front_of o nn prefix ++ buf)
     else in_field W' (o_fill o) (match o_align o with Some al => al | None => AlignRight end) (front_of o nn prefix ++ buf)
            (front_of o nn prefix ++ buf)).
  { intros L. destruct (o_zero o).
    - exists 0%nat. split; [reflexivity|]. rewrite app_length in *. lia.
    - apply field_exact. lia. }
  unfold W' in *. destruct (o_width o) as [mn|]; [|rewrite X; apply D; lia].
  destruct (Nat.leb_spec mn w) as [L|L]; [rewrite X; now apply D|]. clear D.
  destruct (o_zero o).
  - rewrite concat_app, P, concat_app, concat_fill. cbn [List.concat]. rewrite app_nil_r.
    exists (mn - w)%nat. split; [reflexivity|]. rewrite !app_length, repeat_length in *. lia.
  - destruct (padding_sides o (mn - w) AlignRight) as (l & r & -> & S & A).
    rewrite !concat_app, P, !concat_fill. cbn [List.concat]. rewrite app_nil_r.
    rewrite (app_assoc (front_of o nn prefix)). apply field_padded; [lia|rewrite <- W; exact S|exact A].
Qed.

(** ** Integers *)
Definition number_parts (tr : fmt_trait) (o : options) (t : vty) (p : Z) (front num : list ascii) : Prop :=
  let prefix x := if o_alternate o then x else ""%string in
  match tr, o_hex o with
  | Debug, None => parts (o_plus o) "" false 10 (value t p) front num
  | Debug, Some upper => parts (o_plus o) (prefix "0x"%string) upper 16 p front num
  | LowerHex, _ => parts (o_plus o) (prefix "0x"%string) false 16 p front num
  | UpperHex, _ => parts (o_plus o) (prefix "0x"%string) true 16 p front num
  | Octal, _ => parts (o_plus o) (prefix "0o"%string) false 8 p front num
  | Binary, _ => parts (o_plus o) (prefix "0b"%string) false 2 p front num
  end.

Lemma radix_parts o up base pf b p : 2 <= base <= 16 -> (0 < b)%nat -> pattern b p ->
  parts (o_plus o) (if o_alternate o then pf else ""%string) up base p (front_of o true (str pf)) (numeral up base b p).
Proof.
  intros B N P. unfold parts. unfold pattern in P. rewrite Z.abs_eq by lia. split; [now apply numeral_ok|].
  rewrite (proj2 (Z.ltb_ge p 0)) by lia. unfold front_of. cbn [negb]. destruct (o_plus o), (o_alternate o); reflexivity.
Qed.

Lemma decimal_parts o k b p : (0 < b)%nat -> pattern b p ->
  parts (o_plus o) "" false 10 (ival k b p) (front_of o (0 <=? ival k b p) []) (numeral false 10 b (Z.abs (ival k b p))).
Proof.
  intros N P. pose proof (ival_bound k b p N P). split; [apply numeral_ok; lia|].
  unfold front_of. destruct (Z.leb_spec 0 (ival k b p)); destruct (Z.ltb_spec (ival k b p) 0); try lia;
    cbn [negb]; destruct (o_plus o), (o_alternate o); reflexivity.
Qed.

Lemma int_lane tr o t p : integer_type t -> 0 <= p < 2 ^ width t ->
  exists front num, number_parts tr o t p front num /\ formatted o front num (List.concat (int_writes tr o (vkind t) (vb t) p)).
Proof.
  intros T P. assert (VT : vector_type t) by (destruct T as [[_ T]|[_ T]]; exact T).
  assert (B : (0 < vb t)%nat) by apply VT. change (pattern (vb t) p) in P.
  assert (E : value t p = ival (vkind t) (vb t) p) by (destruct T as [[K _]|[K _]]; unfold value, ival; rewrite K; reflexivity).
  unfold int_writes, radix_writes, number_parts.
  destruct tr; [destruct (o_hex o) as [up|]|..];
    try (do 2 eexists; split; [|apply pad_integral_formatted]; apply radix_parts; auto; lia).
  rewrite E. do 2 eexists; split; [|apply pad_integral_formatted]. now apply decimal_parts.
Qed.

Lemma Forall2_map_r {A B} (R : A -> B -> Prop) (f : A -> B) l : Forall (fun a => R a (f a)) l -> Forall2 R l (map f l).
Proof. induction 1; cbn; constructor; auto. Qed.

Theorem options_integers name tr o t v : integer_type t -> is_vector t v ->
  exists texts, fmt_vec name t (fun p => List.concat (int_writes tr o (vkind t) (vb t) p)) v = Ok (call_text name texts) /\
    Forall2 (fun p s => exists front num, number_parts tr o t p front num /\ formatted o front num s) v texts.
Proof.
  intros T V. assert (VT : vector_type t) by (destruct T as [[_ T]|[_ T]]; exact T).
  eexists. split; [exact (proj1 (format_text name t v VT V) _)|].
  apply Forall2_map_r. destruct V as [_ F]. eapply Forall_impl; [|exact F]. intros p P. now apply int_lane.
Qed.

(** Without a width this is C41's text. *)
Lemma no_width tr o k b p : o_width o = None -> (tr = Debug -> o_hex o = None) -> (0 < b)%nat -> pattern b p ->
  List.concat (int_writes tr o k b p) = fmt_int tr {| plus := o_plus o; alternate := o_alternate o |} k b p.
Proof.
  intros W H N P. pose proof (ival_bound k b p N P) as IB.
  assert (G : forall nn pf buf, List.concat (pad_integral o nn pf buf) = front_of o nn pf ++ buf).
  { intros nn pf buf. unfold pad_integral. rewrite W. rewrite concat_app, concat_prefix. cbn. now rewrite app_nil_r. }
  unfold int_writes, radix_writes, fmt_int. cbn [plus alternate].
  destruct tr; [rewrite (H eq_refl)|..]; rewrite G; unfold front_of; cbn [negb]; rewrite <- ?app_assoc; try reflexivity.
  destruct (Z.leb_spec 0 (ival k b p)); destruct (Z.ltb_spec (ival k b p) 0); try lia; cbn [negb].
  - rewrite Z.abs_eq by lia. now destruct (o_alternate o).
  - replace (Z.abs (ival k b p)) with (- ival k b p) by lia. now destruct (o_alternate o).
Qed.

(** ** Pointers *)
Theorem options_pointers name elem o t v : vector_type t -> is_vector t v ->
  exists texts, fmt_ptr name elem t (fun p => List.concat (ptr_writes o (vb t) p)) v
    = Ok (call_text (name ++ chars "<" ++ elem ++ chars ">") texts) /\
  Forall2 (fun p s => exists front num, parts (o_plus o) "0x" false 16 p front num /\
    if o_alternate o then
      zero_filled (match o_width o with Some w => w | None => Z.to_nat (2 + width t / 4) end) front num s
    else formatted o front num s) v texts.
Proof.
  intros VT V. eexists. split; [exact (proj1 (proj2 (format_text name t v VT V)) _ _)|].
  apply Forall2_map_r. assert (B : (0 < vb t)%nat) by apply VT. destruct V as [_ F]. eapply Forall_impl; [|exact F].
  intros p P. change (pattern (vb t) p) in P. unfold ptr_writes, radix_writes. set (o' := Build_options _ _ _ _ _ _ _ _).
  exists (front_of o' true (str "0x")), (numeral false 16 (vb t) p).
  split; [exact (radix_parts o' false 16 "0x" (vb t) p ltac:(lia) B P)|].
  pose proof (pad_integral_formatted o' true (str "0x") (numeral false 16 (vb t) p)) as X.
  set (s := List.concat _) in *. set (fr := front_of _ _ _) in *. clearbody s fr. unfold formatted in *.
  cbn [o_zero o_width o_fill o_align o'] in X. destruct (o_alternate o); [|exact X].
  cbn [orb] in X. destruct (o_width o) as [w|]; [exact X|].
  replace (Z.to_nat (2 + width t / 4)) with (Z.to_nat (bits (vb t) / 4) + 2)%nat; [exact X|].
  change (width t) with (bits (vb t)). pose proof (Z.div_pos (bits (vb t)) 4 (bits_nonneg _) ltac:(lia)). lia.
Qed.

(** ** Masks *)
Definition truth_word (o : options) (x : bool) : list ascii :=
  let word := chars (if x then "true" else "false") in
  match o_precision o with Some n => firstn n word | None => word end.
Lemma bool_lane o x :
  in_field (match o_width o with Some w => w | None => 0%nat end) (o_fill o)
    (match o_align o with Some al => al | None => AlignLeft end) (truth_word o x) (List.concat (bool_writes o x)).
Proof.
  unfold bool_writes, pad. assert (E : match o_precision o with Some mx => firstn mx (fmt_bool x) | None => fmt_bool x end = truth_word o x)
    by (unfold truth_word; destruct x, (o_precision o); reflexivity).
  rewrite E. set (s := truth_word o x). clearbody s.
  destruct (o_width o) as [w|].
  - destruct (Nat.leb_spec w (List.length s)) as [L|L].
    + cbn [List.concat]. rewrite app_nil_r. now apply field_exact.
    + destruct (padding_sides o (w - List.length s) AlignLeft) as (l & r & -> & S & A).
      rewrite !concat_app, !concat_fill. cbn [List.concat]. rewrite app_nil_r. now apply field_padded.
  - cbn [List.concat]. rewrite app_nil_r. apply field_exact. lia.
Qed.
Theorem options_masks name o t v : mask_type t -> canonical t v ->
  exists texts, fmt_mask name t (fun x => List.concat (bool_writes o x)) v = Ok (call_text name texts) /\
    Forall2 (fun p s => in_field (match o_width o with Some w => w | None => 0%nat end) (o_fill o)
      (match o_align o with Some al => al | None => AlignLeft end) (truth_word o (truth p)) s) v texts.
Proof.
  intros [_ VT] V. eexists. split; [exact (proj2 (proj2 (format_text name t v VT (canonical_vector t v V))) _)|].
  apply Forall2_map_r. rewrite Forall_forall. intros p _. apply bool_lane.
Qed.

(** ** Distinct vectors, distinct texts *)
Lemma filter_fill c l : ~ In c l -> forall m n, filter (fun x => negb (Ascii.eqb x c)) (repeat c m ++ l ++ repeat c n) = l.
Proof.
  intros N m n. assert (R : forall k, filter (fun x => negb (Ascii.eqb x c)) (repeat c k) = []).
  { induction k; cbn; [reflexivity|]. now rewrite Ascii.eqb_refl. }
  rewrite !filter_app, !R, app_nil_r. cbn [app]. induction l as [|x l IH]; cbn; [reflexivity|].
  destruct (Ascii.eqb_spec x c) as [->|_]; [exfalso; apply N; now left|]. cbn. f_equal. apply IH. intros I; apply N; now right.
Qed.
Lemma field_unique w fill al x y s : ~ In fill x -> ~ In fill y -> in_field w fill al x s -> in_field w fill al y s -> x = y.
Proof.
  intros X Y (l & r & E & _) (l' & r' & E' & _). rewrite <- (filter_fill fill x X l r), <- (filter_fill fill y Y l' r'). congruence.
Qed.

(** Characters that numbers are made of. *)
Definition number_char (c : ascii) : bool := existsb (Ascii.eqb c) (str "0123456789abcdefABCDEFxo+-").
Lemma digit_number c : is_digit c -> number_char c = true.
Proof.
  intros (up & d & D & ->).
  assert (X : forallb (fun d => number_char (digit_char up (Z.of_nat d))) (seq 0 16) = true) by (destruct up; vm_compute; reflexivity).
  rewrite forallb_forall in X. specialize (X (Z.to_nat d) ltac:(apply in_seq; lia)). now rewrite Z2Nat.id in X by lia.
Qed.
Lemma numeral_chars up base b n : 2 <= base <= 16 -> 0 <= n -> Forall (fun c => number_char c = true) (numeral up base b n).
Proof. intros B N. eapply Forall_impl; [|now apply numeral_digits]. apply digit_number. Qed.

Lemma zeros_inj up base b n k z z' : 2 <= base <= 16 -> 0 <= n < modulus b -> 0 <= k < modulus b ->
  repeat "0"%char z ++ numeral up base b n = repeat "0"%char z' ++ numeral up base b k -> n = k.
Proof.
  intros B N K E. unfold numeral in E.
  assert (R : forall m, repeat "0"%char m = map (digit_char up) (repeat 0 m))
    by (intros m; induction m; cbn [repeat map]; [reflexivity|]; rewrite IHm; now destruct up).
  rewrite !R, <- !map_app in E. apply (map_inj (fun d => 0 <= d < 16)) in E.
  - pose proof (pow_base_bits base b n). pose proof (pow_base_bits base b k).
    assert (Z0 : forall m l, eval base (repeat 0 m ++ l) = eval base l).
    { intros m l. unfold eval. rewrite fold_left_app. f_equal. induction m; cbn; auto. }
    apply (f_equal (eval base)) in E. rewrite !Z0 in E. rewrite !digits_eval in E; lia.
  - intros a c A C. now apply digit_char_inj.
  - apply Forall_app. split; [apply Forall_forall; intros x I; apply repeat_spec in I; lia|].
    eapply Forall_impl; [|apply digits_small; lia]. cbn; intros; lia.
  - apply Forall_app. split; [apply Forall_forall; intros x I; apply repeat_spec in I; lia|].
    eapply Forall_impl; [|apply digits_small; lia]. cbn; intros; lia.
Qed.

Lemma formatted_chars o front num s (Q : ascii -> Prop) : formatted o front num s -> Q (o_fill o) -> Q "0"%char -> Forall Q front -> Forall Q num -> Forall Q s.
Proof.
  intros F A Z X Y. assert (R : forall c m, Q c -> Forall Q (repeat c m)) by (intros c m C; apply Forall_forall; intros x I; apply repeat_spec in I; now subst).
  unfold formatted in F. destruct (o_zero o).
  - destruct F as (z & -> & _). repeat (apply Forall_app; split); auto.
  - destruct F as (l & r & -> & _). repeat (apply Forall_app; split); auto.
Qed.

Lemma front_chars o nn pf : Forall (fun c => number_char c = true) pf -> Forall (fun c => number_char c = true) (front_of o nn pf).
Proof.
  intros F. unfold front_of. apply Forall_app. split; [|now destruct (o_alternate o)].
  destruct nn; cbn [negb]; [|repeat constructor]. destruct (o_plus o); repeat constructor.
Qed.

Lemma same_text o nn pf up base b n nn' n' : 2 <= base <= 16 -> (0 < b)%nat -> 0 <= n < modulus b -> 0 <= n' < modulus b ->
  (o_zero o = true \/ number_char (o_fill o) = false) -> Forall (fun c => number_char c = true) pf ->
  (nn = nn' \/ pf = []) ->
  List.concat (pad_integral o nn pf (numeral up base b n)) = List.concat (pad_integral o nn' pf (numeral up base b n')) ->
  nn = nn' /\ n = n'.
Proof.
  intros B P N N' C F S E.
  pose proof (pad_integral_formatted o nn pf (numeral up base b n)) as X.
  pose proof (pad_integral_formatted o nn' pf (numeral up base b n')) as Y. rewrite E in X.
  set (s := List.concat _) in *. clearbody s. clear E.
  assert (Z0 : exists z z', front_of o nn pf ++ repeat "0"%char z ++ numeral up base b n = front_of o nn' pf ++ repeat "0"%char z' ++ numeral up base b n').
  { unfold formatted in X, Y. destruct (o_zero o).
    - destruct X as (z & X & _), Y as (z' & Y & _). exists z, z'. congruence.
    - destruct C as [C|C]; [discriminate|]. exists 0%nat, 0%nat. cbn [repeat app]. eapply field_unique; [| |exact X|exact Y].
      + intros I. apply in_app_or in I as [I|I]; [pose proof (front_chars o nn pf F) as G|pose proof (numeral_chars up base b n B (proj1 N)) as G];
          rewrite Forall_forall in G; apply G in I; congruence.
      + intros I. apply in_app_or in I as [I|I]; [pose proof (front_chars o nn' pf F) as G|pose proof (numeral_chars up base b n' B (proj1 N')) as G];
          rewrite Forall_forall in G; apply G in I; congruence. }
  clear X Y s. destruct Z0 as (z & z' & E).
  assert (Same : nn = nn' -> nn = nn' /\ n = n').
  { intros <-. split; [reflexivity|]. apply app_same in E. eapply zeros_inj; eauto. }
  destruct S as [S| ->]; [now apply Same|].
  destruct (bool_dec nn nn') as [D|D]; [now apply Same|]. exfalso.
  assert (Q : forall m k, 0 <= m -> exists c r, repeat "0"%char k ++ numeral up base b m = c :: r /\ is_digit c).
  { intros m k M. destruct k as [|k]; cbn [repeat app].
    - destruct (numeral_head up base b m P) as (c & r & H). exists c, r. split; [exact H|].
      pose proof (numeral_digits up base b m B M) as G. rewrite H in G. now inversion G.
    - do 2 eexists. split; [reflexivity|]. exists false, 0. split; [lia|reflexivity]. }
  destruct (Q n z ltac:(lia)) as (c & r & HC & DC). destruct (Q n' z' ltac:(lia)) as (c' & r' & HC' & DC').
  rewrite HC, HC' in E. unfold front_of in E.
  assert (M : forall c, is_digit c -> c <> "-"%char) by (intros x DX; apply (digit_not x _ DX); cbn; auto).
  replace (if o_alternate o then _ else _) with (@nil ascii) in E by now destruct (o_alternate o). rewrite !app_nil_r in E.
  destruct nn, nn'; try congruence; cbn [negb] in E; destruct (o_plus o); cbn in E; injection E as E1 E2; try discriminate;
    [apply (M c DC)|apply (M c' DC')]; auto.
Qed.

Lemma int_writes_inj tr o k b p q : (0 < b)%nat -> pattern b p -> pattern b q ->
  (o_zero o = true \/ number_char (o_fill o) = false) ->
  List.concat (int_writes tr o k b p) = List.concat (int_writes tr o k b q) -> p = q.
Proof.
  intros B P Q C. pose proof (ival_bound k b p B P) as BP. pose proof (ival_bound k b q B Q) as BQ.
  unfold int_writes, radix_writes.
  assert (R : forall up base pf, 2 <= base <= 16 -> Forall (fun c => number_char c = true) pf ->
    List.concat (pad_integral o true pf (numeral up base b p)) = List.concat (pad_integral o true pf (numeral up base b q)) -> p = q).
  { intros up base pf HB F E. apply same_text in E as [_ E]; auto. }
  destruct tr; [destruct (o_hex o) as [up|]|..]; intros E; try (apply R in E; [exact E|lia|repeat constructor]).
  apply same_text in E as [E1 E2]; auto; try lia.
  apply (ival_inj k b); auto. destruct (Z.leb_spec 0 (ival k b p)), (Z.leb_spec 0 (ival k b q)); try discriminate; lia.
Qed.

Lemma int_writes_no_comma tr o t p : integer_type t -> 0 <= p < 2 ^ width t -> o_fill o <> comma ->
  ~ In comma (List.concat (int_writes tr o (vkind t) (vb t) p)).
Proof.
  intros T P C. assert (VT : vector_type t) by (destruct T as [[_ T]|[_ T]]; exact T).
  assert (B : (0 < vb t)%nat) by apply VT. change (pattern (vb t) p) in P. pose proof (ival_bound (vkind t) (vb t) p B P) as BP.
  assert (G : forall nn pf up base n, 2 <= base <= 16 -> 0 <= n -> Forall (fun c => number_char c = true) pf ->
    ~ In comma (List.concat (pad_integral o nn pf (numeral up base (vb t) n)))).
  { intros nn pf up base n HB HN F I. pose proof (pad_integral_formatted o nn pf (numeral up base (vb t) n)) as X.
    assert (W : forall l, Forall (fun c => number_char c = true) l -> Forall (fun c => c <> comma) l).
    { intros l. apply Forall_impl. intros c H ->. discriminate H. }
    eapply formatted_chars with (Q := fun c => c <> comma) in X; [|exact C|discriminate|apply W, front_chars, F|apply W, numeral_chars; auto].
    rewrite Forall_forall in X. exact (X _ I eq_refl). }
  unfold pattern in P. unfold int_writes, radix_writes. destruct tr; [destruct (o_hex o)|..]; apply G; try lia; repeat constructor.
Qed.

Theorem options_distinct name tr o t x y : integer_type t -> is_vector t x -> is_vector t y ->
  o_fill o <> comma -> (o_zero o = true \/ number_char (o_fill o) = false) ->
  let lane p := List.concat (int_writes tr o (vkind t) (vb t) p) in
  fmt_vec name t lane x = fmt_vec name t lane y -> x = y.
Proof.
  intros T X Y C N lane. assert (VT : vector_type t) by (destruct T as [[_ T]|[_ T]]; exact T).
  apply format_distinct; auto.
  - intros p P. now apply int_writes_no_comma.
  - intros p q P Q. apply int_writes_inj; auto. apply VT.
Qed.

(** Masks: the first letter decides. *)
Lemma truth_word_chars o x : Forall (fun c => existsb (Ascii.eqb c) (str "truefals") = true) (truth_word o x).
Proof.
  assert (F : Forall (fun c => existsb (Ascii.eqb c) (str "truefals") = true) (chars (if x then "true" else "false")))
    by (destruct x; repeat constructor).
  unfold truth_word. destruct (o_precision o) as [m|]; [|exact F].
  rewrite <- (firstn_skipn m (chars (if x then _ else _))) in F. now apply Forall_app in F as [F _].
Qed.
Lemma truth_word_inj o x y : o_precision o <> Some 0%nat -> truth_word o x = truth_word o y -> x = y.
Proof.
  intros P. unfold truth_word. destruct (o_precision o) as [[|n]|]; [congruence|..]; destruct x, y; cbn; try reflexivity; discriminate.
Qed.
Theorem options_masks_distinct name o t x y : mask_type t -> canonical t x -> canonical t y ->
  o_precision o <> Some 0%nat -> existsb (Ascii.eqb (o_fill o)) (str "truefals,") = false ->
  fmt_mask name t (fun x => List.concat (bool_writes o x)) x = fmt_mask name t (fun x => List.concat (bool_writes o x)) y -> x = y.
Proof.
  intros [_ T] CX CY PR FC E.
  rewrite (proj2 (proj2 (format_text name t x T (canonical_vector t x CX)))) in E.
  rewrite (proj2 (proj2 (format_text name t y T (canonical_vector t y CY)))) in E.
  injection E as E. unfold call_text in E. apply app_same, app_same, app_same_r in E.
  change (chars ", ") with (str ", ") in E.
  destruct CX as [LX FX], CY as [LY FY].
  assert (W : 0 < true_lane t).
  { unfold true_lane, width. pose proof (ones_pos (vb t) (proj1 T)). unfold ones, modulus, bits in *. lia. }
  assert (NF : forall x, ~ In (o_fill o) (truth_word o x)).
  { intros b I. pose proof (truth_word_chars o b) as F. rewrite Forall_forall in F. apply F in I.
    apply existsb_exists in I as (c & Ic & Ec). apply Ascii.eqb_eq in Ec.
    enough (existsb (Ascii.eqb (o_fill o)) (str "truefals,") = true) by congruence.
    apply existsb_exists. exists c. split; [|rewrite <- Ec; apply Ascii.eqb_refl].
    change (str "truefals,") with (str "truefals" ++ str ","). apply in_or_app. now left. }
  assert (INJ : forall a b, List.concat (bool_writes o a) = List.concat (bool_writes o b) -> a = b).
  { intros a b H. apply (truth_word_inj o); [exact PR|].
    pose proof (bool_lane o a) as A. pose proof (bool_lane o b) as B. rewrite <- H in B. eapply field_unique; eauto. }
  assert (NC : forall a, ~ In comma (List.concat (bool_writes o a))).
  { intros a I. destruct (bool_lane o a) as (l & r & H & _). rewrite H in I.
    assert (FN : o_fill o <> comma) by (intros X; rewrite X in FC; discriminate FC).
    apply in_app_or in I as [I|I]; [apply repeat_spec in I; congruence|].
    apply in_app_or in I as [I|I]; [|apply repeat_spec in I; congruence].
    pose proof (truth_word_chars o a) as F. rewrite Forall_forall in F. apply F in I. discriminate I. }
  destruct x as [|p xs], y as [|q ys]; [reflexivity|cbn in *; congruence|cbn in *; congruence|].
  cbn [map] in E. rewrite !joined_cons in E. inversion FX; inversion FY; subst.
  destruct (tail_inj (fun p => p = true_lane t \/ p = false_lane) (fun p => List.concat (bool_writes o (truth p))) (fun _ => True)) with
    (xs := xs) (ys := ys) (p := p) (q := q) as [-> ->]; auto.
  - intros a b [-> | ->] [-> | ->] H; auto; apply INJ in H; unfold truth, false_lane in H;
      [|]; destruct (Z.eqb_spec (true_lane t) 0); try lia; discriminate.
  - cbn [List.length] in *. congruence.
Qed.

Theorem options_no_width name tr o t v :
  integer_type t -> is_vector t v -> o_width o = None -> (tr = Debug -> o_hex o = None) ->
  fmt_vec name t (fun p => List.concat (int_writes tr o (vkind t) (vb t) p)) v =
  fmt_vec name t (fmt_int tr {| plus := o_plus o; alternate := o_alternate o |} (vkind t) (vb t)) v.
Proof.
  intros T V W H. assert (VT : vector_type t) by (destruct T as [[_ T]|[_ T]]; exact T).
  rewrite !(proj1 (format_text name t v VT V)). do 2 f_equal. apply map_ext_in. intros p I.
  destruct V as [_ F]. rewrite Forall_forall in F. apply no_width; auto; [apply VT|]. now apply F.
Qed.

Lemma not_in_chars c s : ~ In c (chars s) -> existsb (Ascii.eqb c) (str s) = false.
Proof.
  intros N. destruct (existsb _ _) eqn:E; [|reflexivity]. exfalso. apply N. apply existsb_exists in E as (d & I & E).
  apply Ascii.eqb_eq in E. now subst.
Qed.
Theorem options_distinct' name tr o t x y : integer_type t -> is_vector t x -> is_vector t y ->
  o_fill o <> comma -> (o_zero o = true \/ ~ In (o_fill o) (chars "0123456789abcdefABCDEFxo+-")) ->
  let lane p := List.concat (int_writes tr o (vkind t) (vb t) p) in
  fmt_vec name t lane x = fmt_vec name t lane y -> x = y.
Proof.
  intros T X Y C N. apply options_distinct; auto. destruct N as [N|N]; [now left|right]. now apply not_in_chars.
Qed.
Theorem options_masks_distinct' name o t x y : mask_type t -> canonical t x -> canonical t y ->
  o_precision o <> Some 0%nat -> ~ In (o_fill o) (chars "truefals,") ->
  let lane x := List.concat (bool_writes o x) in
  fmt_mask name t lane x = fmt_mask name t lane y -> x = y.
Proof. intros T X Y P N. apply options_masks_distinct; auto. now apply not_in_chars. Qed.
