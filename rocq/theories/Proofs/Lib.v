(** Basic lemmas: lists, outcomes, patterns. *)
From Coq Require Import ZArith List Bool Lia ZifyBool ZifyNat Arith.
From Verif.Model Require Import Base.
From Verif.Spec Require Import Spec.
Import ListNotations.
Open Scope Z_scope.
Ltac Zify.zify_post_hook ::= Z.div_mod_to_equations.

(** ** Lists *)

Lemma map2_length {A B C} (f : A -> B -> C) l r :
  length (map2 f l r) = Nat.min (length l) (length r).
Proof. revert r; induction l; intros [|y r]; cbn; auto. Qed.

Lemma map2_length_eq {A B C} (f : A -> B -> C) l r n :
  length l = n -> length r = n -> length (map2 f l r) = n.
Proof. intros; rewrite map2_length; lia. Qed.

Lemma nth_error_map2 {A B C} (f : A -> B -> C) l r i a b :
  nth_error l i = Some a -> nth_error r i = Some b ->
  nth_error (map2 f l r) i = Some (f a b).
Proof.
  revert r i; induction l; intros [|y r] [|i]; cbn; intros; try discriminate; auto.
  congruence.
Qed.

Lemma nth_error_map2_inv {A B C} (f : A -> B -> C) l r i c :
  nth_error (map2 f l r) i = Some c ->
  exists a b, nth_error l i = Some a /\ nth_error r i = Some b /\ c = f a b.
Proof.
  revert r i; induction l; intros [|y r] [|i]; cbn; intros; try discriminate; auto.
  injection H as <-; eauto.
Qed.

Lemma map2_ext {A B C} (f g : A -> B -> C) l r :
  (forall a b, In a l -> In b r -> f a b = g a b) -> map2 f l r = map2 g l r.
Proof.
  revert r; induction l; intros [|y r] H; cbn; auto.
  f_equal; [apply H; cbn; auto|apply IHl; intros; apply H; cbn; auto].
Qed.

Lemma Forall_map2 {A B C} (P : C -> Prop) (f : A -> B -> C) l r :
  (forall a b, In a l -> In b r -> P (f a b)) -> Forall P (map2 f l r).
Proof.
  revert r; induction l; intros [|y r] H; cbn; constructor.
  - apply H; cbn; auto.
  - apply IHl; intros; apply H; cbn; auto.
Qed.

Lemma map2_map {A B C} (f : A -> B -> C) l r :
  map2 f l r = map (fun p => f (fst p) (snd p)) (combine l r).
Proof. revert r; induction l; intros [|y r]; cbn; f_equal; auto. Qed.

Lemma map_map2 {A B C D} (g : C -> D) (f : A -> B -> C) l r :
  map g (map2 f l r) = map2 (fun a b => g (f a b)) l r.
Proof. revert r; induction l; intros [|y r]; cbn; f_equal; auto. Qed.

Lemma map2_map_l {A A' B C} (g : A -> A') (f : A' -> B -> C) l r :
  map2 f (map g l) r = map2 (fun a b => f (g a) b) l r.
Proof. revert r; induction l; intros [|y r]; cbn; f_equal; auto. Qed.

Lemma map2_map_r {A B B' C} (g : B -> B') (f : A -> B' -> C) l r :
  map2 f l (map g r) = map2 (fun a b => f a (g b)) l r.
Proof. revert r; induction l; intros [|y r]; cbn; f_equal; auto. Qed.

Lemma map2_repeat_r {A B C} (f : A -> B -> C) l x n :
  length l = n -> map2 f l (repeat x n) = map (fun a => f a x) l.
Proof. intros <-; induction l; cbn; f_equal; auto. Qed.

Lemma map2_repeat_l {A B C} (f : A -> B -> C) r x n :
  length r = n -> map2 f (repeat x n) r = map (fun b => f x b) r.
Proof. intros <-; induction r; cbn; f_equal; auto. Qed.

Lemma map2_swap {A B C} (f : A -> B -> C) l r :
  map2 f l r = map2 (fun b a => f a b) r l.
Proof. revert r; induction l; intros [|y r]; cbn; f_equal; auto. Qed.

Lemma map2_diag {A C} (f : A -> A -> C) l : map2 f l l = map (fun a => f a a) l.
Proof. induction l; cbn; f_equal; auto. Qed.

Lemma nth_error_repeat {A} (x : A) n i :
  (i < n)%nat -> nth_error (repeat x n) i = Some x.
Proof. revert i; induction n; intros [|i] H; cbn; auto; try lia. apply IHn; lia. Qed.

Lemma nth_error_lt {A} (l : list A) i a : nth_error l i = Some a -> (i < length l)%nat.
Proof. intros; apply nth_error_Some; congruence. Qed.

Lemma nth_error_ex {A} (l : list A) i : (i < length l)%nat -> exists a, nth_error l i = Some a.
Proof. intros H; apply nth_error_Some in H; destruct (nth_error l i); eauto; congruence. Qed.

Lemma nth_error_ext {A} (l r : list A) :
  length l = length r ->
  (forall i a b, nth_error l i = Some a -> nth_error r i = Some b -> a = b) -> l = r.
Proof.
  revert r; induction l; intros [|y r] H E; cbn in *; try lia; auto.
  f_equal; [apply (E 0%nat); auto|apply IHl; [lia|]].
  intros i; apply (E (S i)).
Qed.

Lemma Forall_nth_error {A} (P : A -> Prop) l i a :
  Forall P l -> nth_error l i = Some a -> P a.
Proof. intros H E; eapply Forall_forall; eauto using nth_error_In. Qed.

Lemma Forall_of_nth_error {A} (P : A -> Prop) l :
  (forall i a, nth_error l i = Some a -> P a) -> Forall P l.
Proof.
  intros H; apply Forall_forall; intros x Hx.
  apply In_nth_error in Hx as [i Hi]; eauto.
Qed.

Lemma update_length {A} (l : list A) i x : length (update l i x) = length l.
Proof. revert i; induction l; intros [|i]; cbn; auto. Qed.

Lemma nth_error_update_same {A} (l : list A) i x :
  (i < length l)%nat -> nth_error (update l i x) i = Some x.
Proof. revert i; induction l; intros [|i]; cbn; intros; try lia; auto. apply IHl; lia. Qed.

Lemma nth_error_update_other {A} (l : list A) i j x :
  i <> j -> nth_error (update l i x) j = nth_error l j.
Proof.
  revert i j; induction l; intros [|i] [|j] H; cbn; auto; try lia. Qed.

Lemma Forall_update {A} (P : A -> Prop) l i x : Forall P l -> P x -> Forall P (update l i x).
Proof.
  intros H; revert i; induction H; intros [|i] Hx; cbn; constructor; auto.
Qed.

Lemma all_ok_some {A B} (f : A -> option B) l r :
  (forall a, In a l -> f a <> None) ->
  map f l = map Some r -> all_ok (map f l) = Ok r.
Proof.
  intros _. intros ->. induction r; cbn; auto. rewrite IHr; auto.
Qed.

Lemma all_ok_map_Some {A} (l : list A) : all_ok (map Some l) = Ok l.
Proof. induction l; cbn; auto. rewrite IHl; auto. Qed.

Lemma all_ok_ok {A} (l : list (option A)) r : all_ok l = Ok r <-> l = map Some r.
Proof.
  split.
  - revert r; induction l as [|[a|] l]; cbn; intros r H; try discriminate.
    + injection H as <-; auto.
    + destruct (all_ok l); cbn in H; try discriminate. injection H as <-; cbn.
      f_equal; auto.
  - intros ->; apply all_ok_map_Some.
Qed.

Lemma all_ok_cases {A} (l : list (option A)) :
  (In None l /\ all_ok l = UB) \/ (~ In None l /\ exists r, all_ok l = Ok r).
Proof.
  induction l as [|[a|] l [[H E]|[H [r E]]]]; cbn; rewrite ?E; cbn.
  - right; split; eauto.
  - left; split; auto.
  - right; split; eauto. intros [?|?]; [discriminate|auto].
  - left; split; auto.
  - left; split; auto.
Qed.

Lemma all_ok_length {A} (l : list (option A)) r : all_ok l = Ok r -> length r = length l.
Proof. intros H; apply all_ok_ok in H; subst; now rewrite map_length. Qed.

Lemma all_ok_nth {A} (l : list (option A)) r i x :
  all_ok l = Ok r -> nth_error l i = Some x -> exists a, x = Some a /\ nth_error r i = Some a.
Proof.
  intros H E; apply all_ok_ok in H; subst. rewrite nth_error_map in E.
  destruct (nth_error r i); cbn in *; try discriminate. injection E as <-; eauto.
Qed.

Lemma bind_ok {A B} (x : outcome A) (k : A -> outcome B) r :
  bind x k = Ok r -> exists a, x = Ok a /\ k a = Ok r.
Proof. destruct x; cbn; intros; try discriminate; eauto. Qed.

(** ** Patterns *)

Lemma bits_pos b : (0 < b)%nat -> 0 < bits b.
Proof. unfold bits; lia. Qed.

Lemma bits_nonneg b : 0 <= bits b.
Proof. unfold bits; lia. Qed.

Lemma modulus_pos b : 0 < modulus b.
Proof. unfold modulus; apply Z.pow_pos_nonneg; [lia|apply bits_nonneg]. Qed.

Lemma modulus_half b : (0 < b)%nat -> modulus b = 2 * 2 ^ (bits b - 1).
Proof.
  intros H; unfold modulus. rewrite <- Z.pow_succ_r by (unfold bits; lia).
  f_equal; lia.
Qed.

Lemma half_pos b : (0 < b)%nat -> 0 < 2 ^ (bits b - 1).
Proof. intros; apply Z.pow_pos_nonneg; unfold bits; lia. Qed.

Lemma half_ge b : (0 < b)%nat -> 128 <= 2 ^ (bits b - 1).
Proof.
  intros. change 128 with (2 ^ 7). apply Z.pow_le_mono_r; unfold bits; lia.
Qed.

Lemma modulus_ge b : (0 < b)%nat -> 256 <= modulus b.
Proof. intros; rewrite modulus_half by auto. pose proof (half_ge b H); lia. Qed.

Lemma wrap_pattern b z : pattern b (wrap b z).
Proof. unfold pattern, wrap. apply Z.mod_pos_bound, modulus_pos. Qed.

Lemma wrap_id b p : pattern b p -> wrap b p = p.
Proof. intros; apply Z.mod_small; auto. Qed.

Lemma wrap_divide b z : (modulus b | z - wrap b z).
Proof.
  exists (z / modulus b). unfold wrap. pose proof (modulus_pos b).
  rewrite (Z.div_mod z (modulus b)) at 1 by lia. ring.
Qed.

Lemma ones_wrap b : wrap b (Z.lnot 0) = ones b.
Proof.
  unfold wrap, ones. pose proof (modulus_pos b).
  change (Z.lnot 0) with (-1). 
  symmetry; apply Z.mod_unique with (-1); lia.
Qed.

Lemma ones_pattern b : pattern b (ones b).
Proof. unfold pattern, ones; pose proof (modulus_pos b); lia. Qed.

Lemma zero_pattern b : pattern b 0.
Proof. unfold pattern; pose proof (modulus_pos b); lia. Qed.

Lemma ones_pos b : (0 < b)%nat -> 0 < ones b.
Proof. intros; unfold ones; pose proof (modulus_ge b H); lia. Qed.

Lemma mlane_pattern b c : pattern b (mlane b c).
Proof. destruct c; [apply ones_pattern|apply zero_pattern]. Qed.

Lemma sval_range b p :
  (0 < b)%nat -> pattern b p -> - 2 ^ (bits b - 1) <= sval b p < 2 ^ (bits b - 1).
Proof.
  intros H [H0 H1]; unfold sval. rewrite modulus_half in * by auto.
  destruct (Z.ltb_spec p (2 ^ (bits b - 1))); lia.
Qed.

Lemma sval_divide b p : (modulus b | p - sval b p).
Proof.
  unfold sval; destruct (p <? _).
  - replace (p - p) with 0 by lia; apply Z.divide_0_r.
  - replace (p - (p - modulus b)) with (modulus b) by lia; apply Z.divide_refl.
Qed.

Lemma wrap_sval b p : pattern b p -> wrap b (sval b p) = p.
Proof.
  intros H. pose proof (modulus_pos b). unfold sval; destruct (p <? _).
  - apply wrap_id; auto.
  - unfold wrap. symmetry; apply Z.mod_unique with (-1); [left; apply H|lia].
Qed.

Lemma sval_wrap b z :
  (0 < b)%nat -> - 2 ^ (bits b - 1) <= z < 2 ^ (bits b - 1) -> sval b (wrap b z) = z.
Proof.
  intros Hb H. pose proof (modulus_pos b). pose proof (modulus_half b Hb).
  unfold sval, wrap.
  destruct (Z.leb_spec 0 z).
  - rewrite Z.mod_small by lia. destruct (Z.ltb_spec z (2 ^ (bits b - 1))); lia.
  - replace (z mod modulus b) with (z + modulus b)
      by (apply Z.mod_unique with (-1); lia).
    destruct (Z.ltb_spec (z + modulus b) (2 ^ (bits b - 1))); lia.
Qed.

Lemma sval_inj b p q : pattern b p -> pattern b q -> sval b p = sval b q -> p = q.
Proof. intros Hp Hq E. rewrite <- (wrap_sval b p), <- (wrap_sval b q), E; auto. Qed.

Lemma sval_zero b : (0 < b)%nat -> sval b 0 = 0.
Proof. intros. unfold sval. pose proof (half_pos b H). now destruct (Z.ltb_spec 0 (2 ^ (bits b - 1))); [|lia]. Qed.

Lemma sval_ones b : (0 < b)%nat -> sval b (ones b) = -1.
Proof.
  intros. unfold sval, ones. pose proof (half_pos b H). pose proof (modulus_half b H).
  destruct (Z.ltb_spec (modulus b - 1) (2 ^ (bits b - 1))); lia.
Qed.

(** ** Specification vocabulary in terms of the model's *)

Lemma width_bits t : width t = bits (vb t).
Proof. reflexivity. Qed.

Lemma is_vector_wf t v : is_vector t v <-> wf (vb t) (vn t) v.
Proof. reflexivity. Qed.

Lemma value_ival t p : vkind t = KInt \/ vkind t = KUint -> value t p = ival (vkind t) (vb t) p.
Proof. unfold value, ival; intros [->| ->]; reflexivity. Qed.

Lemma is_vector_lane t v i p : is_vector t v -> lane v i p -> pattern (vb t) p.
Proof. intros [_ H] E; exact (Forall_nth_error _ _ _ _ H E). Qed.

Lemma is_vector_length t v : is_vector t v -> length v = vn t.
Proof. intros [H _]; auto. Qed.

Lemma lane_index t v i p : is_vector t v -> lane v i p -> (i < vn t)%nat.
Proof. intros [<- _] E; eapply nth_error_lt; eauto. Qed.

Lemma value_in_range t p : integer_type t -> pattern (vb t) p -> in_range t (value t p).
Proof.
  unfold in_range, min_value, max_value, value.
  intros [[-> [Hb _]]|[-> [Hb _]]] H.
  - pose proof (sval_range _ _ Hb H) as R. unfold sval in R.
    fold (width t) in R. rewrite width_bits in *. unfold modulus in R. lia.
  - unfold pattern in H. unfold modulus in H. rewrite width_bits; lia.
Qed.

Lemma value_divide t p : integer_type t -> (2 ^ width t | p - value t p).
Proof.
  unfold value. intros [[-> _]|[-> _]].
  - apply (sval_divide (vb t)).
  - replace (p - p) with 0 by lia; apply Z.divide_0_r.
Qed.

Lemma value_inj t p q :
  integer_type t -> pattern (vb t) p -> pattern (vb t) q -> value t p = value t q -> p = q.
Proof.
  unfold value. intros [[-> _]|[-> _]] Hp Hq E; auto.
  exact (sval_inj (vb t) p q Hp Hq E).
Qed.

Lemma divide_sub_trans m a b c : (m | a - b) -> (m | b - c) -> (m | a - c).
Proof. intros H1 H2. replace (a - c) with ((a - b) + (b - c)) by lia. now apply Z.divide_add_r. Qed.

Lemma divide_sub_sym m a b : (m | a - b) -> (m | b - a).
Proof. intros H. replace (b - a) with (- (a - b)) by lia. now apply Z.divide_opp_r. Qed.

Lemma wraps_to_pattern t z :
  integer_type t -> wraps_to t z (value t (wrap (vb t) z)).
Proof.
  intros Ht; split.
  - apply value_in_range; auto using wrap_pattern.
  - eapply divide_sub_trans; [apply (wrap_divide (vb t))|].
    apply value_divide; auto.
Qed.

(** Two readings of [wraps_to]: it determines the result. *)
Lemma wraps_to_unique t z r r' :
  integer_type t -> wraps_to t z r -> wraps_to t z r' -> r = r'.
Proof.
  intros Ht [[H1 H2] H3] [[H4 H5] H6].
  assert (D : (2 ^ width t | r - r')) by
    (eapply divide_sub_trans; [apply divide_sub_sym, H3|auto]).
  unfold min_value, max_value in *.
  assert (Hb : (0 < vb t)%nat) by (destruct Ht as [[_ [? _]]|[_ [? _]]]; auto).
  pose proof (modulus_half _ Hb) as E. unfold modulus in E. rewrite <- width_bits in E.
  destruct D as [k D].
  assert (0 < 2 ^ width t) by (apply Z.pow_pos_nonneg; [lia|rewrite width_bits; apply bits_nonneg]).
  assert (- 2 ^ width t < r - r' < 2 ^ width t)
    by (destruct Ht as [[Hk _]|[Hk _]]; rewrite Hk in *; lia).
  assert (k = 0) by nia. lia.
Qed.
