(** Formatting. *)
From Coq Require Import ZArith List Bool Lia Ascii String.
From Verif.Model Require Import Base Minimal ScalarMask Fmt.
From Verif.Spec Require Import Spec Text.
From Verif.Proofs Require Import Lib MinimalP.
Import ListNotations.
Open Scope Z_scope.
Open Scope list_scope.

Fixpoint tail_text (pieces : list text) : text :=
  match pieces with [] => [] | p :: l => str ", " ++ p ++ tail_text l end.

Lemma joined_cons p l : joined (str ", ") (p :: l) = p ++ tail_text l.
Proof.
  revert p; induction l as [|q l IH]; intros p; [cbn [joined tail_text]; now rewrite app_nil_r|].
  change (joined (str ", ") (p :: q :: l)) with (p ++ str ", " ++ joined (str ", ") (q :: l)).
  rewrite IH. reflexivity.
Qed.

Lemma loop_tail {A} (get : nat -> outcome A) fmt_lane : forall (xs : list A) i acc,
  (0 < i)%nat -> (forall j x, nth_error xs j = Some x -> get (i + j)%nat = Ok x) ->
  for_loop (List.length xs) i acc (fun i acc =>
    let acc := if Nat.ltb 0 i then acc ++ str ", " else acc in x <- get i ;; Ok (acc ++ fmt_lane x))
  = Ok (acc ++ tail_text (map fmt_lane xs)).
Proof.
  induction xs as [|x xs IH]; intros i acc I G.
  - cbn [List.length for_loop map tail_text]. now rewrite app_nil_r.
  - cbn [List.length for_loop]. replace (Nat.ltb 0 i) with true by (symmetry; apply Nat.ltb_lt; lia).
    pose proof (G 0%nat x eq_refl) as G0. rewrite Nat.add_0_r in G0. cbv zeta. rewrite G0. cbn [bind].
    rewrite IH; [|lia|].
    + cbn [map tail_text]. now rewrite !app_assoc.
    + intros j y Y. replace (S i + j)%nat with (i + S j)%nat by lia. now apply G.
Qed.

Lemma fmt_lanes_ok {A} prefix (get : nat -> outcome A) fmt_lane (xs : list A) :
  (forall j x, nth_error xs j = Some x -> get j = Ok x) ->
  fmt_lanes prefix (List.length xs) get fmt_lane = Ok (call_text prefix (map fmt_lane xs)).
Proof.
  intros G. unfold fmt_lanes, call_text, chars. fold (str "("). fold (str ", "). fold (str ")").
  destruct xs as [|x xs].
  - cbn [List.length for_loop bind map joined]. now rewrite <- app_assoc.
  - cbn [List.length for_loop]. change (Nat.ltb 0 0) with false. cbv zeta iota.
    rewrite (G 0%nat x eq_refl). cbn [bind].
    rewrite (loop_tail get fmt_lane xs 1 _ (Nat.lt_0_succ 0)) by (intros j y Y; now apply (G (S j))).
    cbn [bind map]. rewrite joined_cons. now rewrite <- !app_assoc.
Qed.

Theorem format_text name t v :
  vector_type t -> is_vector t v ->
  (forall fmt_lane, fmt_vec name t fmt_lane v = Ok (call_text name (map fmt_lane v))) /\
  (forall elem fmt_lane,
     fmt_ptr name elem t fmt_lane v = Ok (call_text (name ++ chars "<" ++ elem ++ chars ">") (map fmt_lane v))) /\
  (forall fmt_lane, fmt_mask name t fmt_lane v = Ok (call_text name (map (fun p => fmt_lane (truth p)) v))).
Proof.
  intros T V. unfold fmt_vec, fmt_ptr, fmt_mask. rewrite <- (is_vector_length t v V). split; [|split].
  - intros f. apply fmt_lanes_ok. intros j x X. now apply extract_lane.
  - intros e f. apply fmt_lanes_ok. intros j x X. now apply extract_lane.
  - intros f. rewrite <- (map_map truth f). rewrite <- (map_length truth v) at 1.
    apply fmt_lanes_ok. intros j c X. rewrite nth_error_map in X. destruct (nth_error v j) as [p|] eqn:P; [|discriminate]. injection X as <-.
    now apply mask_extract_lane.
Qed.

(** ** Distinct vectors, distinct texts *)

Lemma cut (a b x y : text) :
  ~ In comma a -> ~ In comma b -> a ++ str ", " ++ x = b ++ str ", " ++ y -> a = b /\ x = y.
Proof.
  revert b; induction a as [|c a IH]; intros [|d b] A B E.
  - split; auto. injection E as E. exact E.
  - exfalso. cbn in E. injection E as E _. apply B. left. now rewrite <- E.
  - exfalso. cbn in E. injection E as E _. apply A. left. now rewrite E.
  - cbn [app] in E. injection E as -> E. destruct (IH b) as [-> ->]; auto.
    + intros I; apply A; now right.
    + intros I; apply B; now right.
Qed.

Lemma tail_inj {A} (P : A -> Prop) (f : A -> text) (Q : text -> Prop) :
  (forall a, P a -> ~ In comma (f a)) -> (forall a b, P a -> P b -> f a = f b -> a = b) ->
  forall xs ys p q, Forall P xs -> Forall P ys -> P p -> P q -> List.length xs = List.length ys ->
  f p ++ tail_text (map f xs) = f q ++ tail_text (map f ys) -> p = q /\ xs = ys.
Proof.
  intros C I. induction xs as [|x xs IH]; intros [|y ys] p q FX FY Pp Pq L E; try discriminate.
  - cbn [map tail_text] in E. rewrite !app_nil_r in E. split; auto.
  - cbn [map tail_text] in E. apply cut in E as [E1 E2]; [|now apply C|now apply C].
    inversion FX; inversion FY; subst. destruct (IH ys x y) as [-> ->]; auto.
Qed.

Lemma app_same (a x y : text) : a ++ x = a ++ y -> x = y.
Proof. apply app_inv_head. Qed.
Lemma app_same_r (a x y : text) : x ++ a = y ++ a -> x = y.
Proof. apply app_inv_tail. Qed.

Theorem format_distinct name t fmt_lane x y :
  vector_type t -> is_vector t x -> is_vector t y ->
  (forall p, 0 <= p < 2 ^ width t -> ~ In comma (fmt_lane p)) ->
  (forall p q, 0 <= p < 2 ^ width t -> 0 <= q < 2 ^ width t -> fmt_lane p = fmt_lane q -> p = q) ->
  fmt_vec name t fmt_lane x = fmt_vec name t fmt_lane y -> x = y.
Proof.
  intros T X Y C I E.
  rewrite (proj1 (format_text name t x T X)), (proj1 (format_text name t y T Y)) in E.
  injection E as E. unfold call_text in E. apply app_same, app_same, app_same_r in E.
  destruct X as [LX FX], Y as [LY FY]. change (chars ", ") with (str ", ") in E.
  destruct x as [|p xs], y as [|q ys].
  - reflexivity.
  - cbn in *; congruence.
  - cbn in *; congruence.
  - cbn [map] in E. rewrite !joined_cons in E. inversion FX; inversion FY; subst.
    destruct (tail_inj (fun p => 0 <= p < 2 ^ width t) fmt_lane (fun _ => True) C I xs ys p q) as [-> ->]; auto.
    cbn [List.length] in *. congruence.
Qed.

(** Numerals. *)
Definition eval (base : Z) (l : list Z) : Z := fold_left (fun a d => a * base + d) l 0.

Lemma eval_snoc base l d : eval base (l ++ [d]) = eval base l * base + d.
Proof. unfold eval. now rewrite fold_left_app. Qed.

Lemma digits_eval base : 2 <= base -> forall fuel n, 0 <= n < base ^ Z.of_nat fuel -> eval base (digits base fuel n) = n.
Proof.
  intros B. induction fuel as [|f IH]; intros n N.
  - change (base ^ Z.of_nat 0) with 1 in N. cbn. lia.
  - cbn [digits]. destruct (Z.ltb_spec n base); [cbn; lia|].
    rewrite eval_snoc, IH.
    + pose proof (Z.div_mod n base). lia.
    + rewrite Nat2Z.inj_succ, Z.pow_succ_r in N by lia. split.
      * apply Z.div_pos; lia.
      * apply Z.div_lt_upper_bound; lia.
Qed.

Lemma digits_small base : 2 <= base -> forall fuel n, 0 <= n -> Forall (fun d => 0 <= d < base) (digits base fuel n).
Proof.
  intros B. induction fuel as [|f IH]; intros n N; [constructor|]. cbn [digits].
  destruct (Z.ltb_spec n base); [repeat constructor; lia|].
  apply Forall_app. split.
  - apply IH. apply Z.div_pos; lia.
  - repeat constructor; apply Z.mod_pos_bound; lia.
Qed.

Lemma digits_nonempty base fuel n : (0 < fuel)%nat -> digits base fuel n <> [].
Proof. destruct fuel; [lia|]. intros _. cbn [digits]. destruct (n <? base); [discriminate|]. now destruct (digits base fuel (n / base)). Qed.

Lemma digit_char_inj up d e : 0 <= d < 16 -> 0 <= e < 16 -> digit_char up d = digit_char up e -> d = e.
Proof.
  intros D E H.
  assert (X : forall up, forallb (fun d => forallb (fun e => orb (Z.eqb (Z.of_nat d) (Z.of_nat e))
     (negb (Ascii.eqb (digit_char up (Z.of_nat d)) (digit_char up (Z.of_nat e))))) (seq 0 16)) (seq 0 16) = true)
    by (intros []; vm_compute; reflexivity).
  specialize (X up). rewrite forallb_forall in X. specialize (X (Z.to_nat d)).
  rewrite forallb_forall in X. specialize (X ltac:(apply in_seq; lia) (Z.to_nat e) ltac:(apply in_seq; lia)).
  rewrite !Z2Nat.id in X by lia. apply orb_prop in X as [X|X]; [now apply Z.eqb_eq|].
  rewrite H, Ascii.eqb_refl in X. discriminate.
Qed.

(** The characters of numerals. *)
Definition is_digit (c : ascii) : Prop := exists up d, 0 <= d < 16 /\ c = digit_char up d.
Lemma digit_not c s : is_digit c -> In s [","%char; "-"%char; "+"%char] -> c <> s.
Proof.
  intros (up & d & D & ->) S E.
  assert (X : forallb (fun d => forallb (fun s => negb (Ascii.eqb (digit_char up (Z.of_nat d)) s))
    [","%char; "-"%char; "+"%char]) (seq 0 16) = true) by (destruct up; vm_compute; reflexivity).
  rewrite forallb_forall in X. specialize (X (Z.to_nat d) ltac:(apply in_seq; lia)).
  rewrite forallb_forall in X. specialize (X s S). rewrite Z2Nat.id, E, Ascii.eqb_refl in X by lia. discriminate.
Qed.

Lemma numeral_digits up base b n : 2 <= base <= 16 -> 0 <= n -> Forall is_digit (numeral up base b n).
Proof.
  intros B N. unfold numeral. apply Forall_map. eapply Forall_impl; [|apply digits_small; [apply B|exact N]].
  intros d D. cbv beta in D. exists up, d. split; [lia|reflexivity].
Qed.

Lemma map_inj {A B} (P : A -> Prop) (f : A -> B) :
  (forall a b, P a -> P b -> f a = f b -> a = b) ->
  forall l r, Forall P l -> Forall P r -> map f l = map f r -> l = r.
Proof.
  intros I. induction l as [|a l IH]; intros [|b r] L R E; try discriminate; auto.
  cbn [map] in E. injection E as E1 E2. inversion L; inversion R; subst. f_equal; auto.
Qed.

Lemma pow_base_bits base b n : 2 <= base -> 0 <= n < modulus b -> n < base ^ Z.of_nat (Z.to_nat (bits b)).
Proof.
  intros B N. rewrite Z2Nat.id by apply bits_nonneg. unfold modulus in N.
  pose proof (Z.pow_le_mono_l 2 base (bits b)). lia.
Qed.

Lemma numeral_inj up base b n k :
  2 <= base <= 16 -> 0 <= n < modulus b -> 0 <= k < modulus b ->
  numeral up base b n = numeral up base b k -> n = k.
Proof.
  intros B N K E. unfold numeral in E.
  apply (map_inj (fun d => 0 <= d < 16)) in E.
  - pose proof (pow_base_bits base b n). pose proof (pow_base_bits base b k).
    rewrite <- (digits_eval base (proj1 B) (Z.to_nat (bits b)) n) by lia.
    rewrite <- (digits_eval base (proj1 B) (Z.to_nat (bits b)) k) by lia. now rewrite E.
  - intros a c A C. now apply digit_char_inj.
  - eapply Forall_impl; [|apply digits_small; lia]. cbn; intros; lia.
  - eapply Forall_impl; [|apply digits_small; lia]. cbn; intros; lia.
Qed.

Lemma numeral_head up base b n : (0 < b)%nat -> exists c r, numeral up base b n = c :: r.
Proof.
  intros B. unfold numeral. destruct (digits base (Z.to_nat (bits b)) n) as [|d l] eqn:E; [|cbn; eauto].
  exfalso. apply digits_nonempty in E; auto. pose proof (bits_pos b B). lia.
Qed.

Lemma fmt_int_no_comma tr fl k b p : (0 < b)%nat -> pattern b p -> ~ In comma (fmt_int tr fl k b p).
Proof.
  intros B P.
  assert (N : forall up base n, 2 <= base <= 16 -> 0 <= n -> ~ In comma (numeral up base b n)).
  { intros up base n Hb Hn I. pose proof (numeral_digits up base b n Hb Hn) as F.
    rewrite Forall_forall in F. apply (digit_not comma comma (F _ I)); [now left|reflexivity]. }
  assert (S : forall (c : bool) s, ~ In comma (str s) -> ~ In comma (if c then str s else [])).
  { intros [] s H; auto. }
  assert (P0 : 0 <= p) by apply P.
  unfold fmt_int.
  destruct tr; [destruct (Z.ltb_spec (ival k b p) 0)|..];
    rewrite ?in_app_iff; intros HI;
    repeat (destruct HI as [HI|HI]);
    try (revert HI; first [apply N; lia | apply S; cbn; unfold comma; intuition discriminate
                          | cbn; unfold comma; intuition discriminate]).
Qed.

Lemma ival_inj k b p q : (0 < b)%nat -> pattern b p -> pattern b q -> ival k b p = ival k b q -> p = q.
Proof. intros B P Q. unfold ival. destruct (is_signed k); auto. now apply sval_inj. Qed.

Lemma ival_bound k b p : (0 < b)%nat -> pattern b p -> - modulus b < ival k b p < modulus b.
Proof.
  intros B P. unfold ival. destruct (is_signed k); [|unfold pattern in P; lia].
  unfold sval. pose proof (modulus_half b B). pose proof (half_pos b B). unfold pattern in P.
  destruct (Z.ltb_spec p (2 ^ (bits b - 1))); lia.
Qed.

Lemma fmt_int_inj tr fl k b p q :
  (0 < b)%nat -> pattern b p -> pattern b q -> fmt_int tr fl k b p = fmt_int tr fl k b q -> p = q.
Proof.
  intros B P Q. unfold fmt_int. pose proof (ival_bound k b p B P) as BP. pose proof (ival_bound k b q B Q) as BQ.
  destruct tr.
  2,3,4,5: intros E; do 2 apply app_same in E; apply numeral_inj in E; auto; lia.
  assert (HD : forall n, 0 <= n -> forall c r, numeral false 10 b n = c :: r -> is_digit c).
  { intros n N c r E. pose proof (numeral_digits false 10 b n ltac:(lia) N) as F. rewrite E in F. now inversion F. }
  assert (NE : forall n k, 0 <= k -> str "-" ++ numeral false 10 b n <> (if plus fl then str "+" else []) ++ numeral false 10 b k).
  { intros n k' K E. destruct (plus fl); [discriminate|]. cbn [app str list_ascii_of_string] in E.
    destruct (numeral_head false 10 b k' B) as (c & r & H). rewrite H in E. injection E as E _.
    apply (digit_not c "-"%char (HD k' K c r H)); [right; now left|auto]. }
  destruct (Z.ltb_spec (ival k b p) 0), (Z.ltb_spec (ival k b q) 0); intros E.
  - apply app_same in E. apply numeral_inj in E; try lia. apply (ival_inj k b); auto; lia.
  - exfalso. apply (NE _ _ H0 E).
  - exfalso. symmetry in E. apply (NE _ _ H E).
  - apply app_same in E. apply numeral_inj in E; try lia. apply (ival_inj k b); auto; lia.
Qed.

Theorem format_integers_distinct name tr fl t x y :
  integer_type t -> is_vector t x -> is_vector t y ->
  fmt_vec name t (fmt_int tr fl (vkind t) (vb t)) x = fmt_vec name t (fmt_int tr fl (vkind t) (vb t)) y -> x = y.
Proof.
  intros T X Y. assert (VT : vector_type t) by (destruct T as [[_ T]|[_ T]]; exact T).
  apply format_distinct; auto.
  - intros p P. apply fmt_int_no_comma; auto. apply VT.
  - intros p q P Q. apply fmt_int_inj; auto. apply VT.
Qed.

Theorem format_masks_distinct name t x y :
  mask_type t -> canonical t x -> canonical t y ->
  fmt_mask name t fmt_bool x = fmt_mask name t fmt_bool y -> x = y.
Proof.
  intros [_ T] CX CY E.
  rewrite (proj2 (proj2 (format_text name t x T (canonical_vector t x CX)))) in E.
  rewrite (proj2 (proj2 (format_text name t y T (canonical_vector t y CY)))) in E.
  injection E as E. unfold call_text in E. apply app_same, app_same, app_same_r in E.
  change (chars ", ") with (str ", ") in E.
  destruct CX as [LX FX], CY as [LY FY].
  assert (W : 0 < true_lane t).
  { unfold true_lane, width. pose proof (ones_pos (vb t) (proj1 T)). unfold ones, modulus, bits in *. lia. }
  destruct x as [|p xs], y as [|q ys]; [reflexivity|cbn in *; congruence|cbn in *; congruence|].
  cbn [map] in E. rewrite !joined_cons in E. inversion FX; inversion FY; subst.
  destruct (tail_inj (fun p => p = true_lane t \/ p = false_lane) (fun p => fmt_bool (truth p)) (fun _ => True)) with
    (xs := xs) (ys := ys) (p := p) (q := q) as [-> ->]; auto.
  - intros a _ I. unfold fmt_bool in I. destruct (truth a); cbn in I; unfold comma in I; intuition discriminate.
  - unfold false_lane, truth, fmt_bool. intros a c HA HC.
    destruct (Z.eqb_spec a 0), (Z.eqb_spec c 0); cbn [negb]; intros F; try discriminate; lia.
  - cbn [List.length] in *. congruence.
Qed.
