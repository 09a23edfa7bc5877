(** Integer and mask operators (C04 .. C13). *)
From Coq Require Import ZArith List Bool Lia ZifyBool ZifyNat.
From Verif.Model Require Import Base FloatLane Llvm Minimal Ops.
From Verif.Spec Require Import Spec.
From Verif.Proofs Require Import Lib MinimalP.
Import ListNotations.
Open Scope Z_scope.

Lemma int_b t : integer_type t -> (0 < vb t)%nat.
Proof. intros [[_ [? _]]|[_ [? _]]]; auto. Qed.

Lemma int_vt t : integer_type t -> vector_type t.
Proof. intros [[_ ?]|[_ ?]]; auto. Qed.

Lemma int_kind t : integer_type t -> vkind t = KInt \/ vkind t = KUint.
Proof. intros [[? _]|[? _]]; auto. Qed.

Lemma width_pos t : (0 < vb t)%nat -> 0 < width t.
Proof. unfold width; lia. Qed.

Lemma width_nonneg t : 0 <= width t.
Proof. unfold width; lia. Qed.

Lemma pow_width_pos t : 0 < 2 ^ width t.
Proof. apply Z.pow_pos_nonneg; [lia|apply width_nonneg]. Qed.

Lemma width_half t : (0 < vb t)%nat -> 2 ^ width t = 2 * 2 ^ (width t - 1).
Proof. intros; exact (modulus_half (vb t) H). Qed.

(** *** Lifting per-lane facts *)

Lemma lanewise2_map2 t t' (f : Z -> Z -> Z) x y (R : Z -> Z -> Z -> Prop) :
  is_vector t x -> is_vector t y -> vn t' = vn t ->
  (forall a b, pattern (vb t) a -> pattern (vb t) b -> pattern (vb t') (f a b) /\ R a b (f a b)) ->
  lanewise2 t' x y (map2 f x y) R.
Proof.
  intros [Hxl Hx] [Hyl Hy] Hn H. split; [split|].
  - rewrite Hn. now apply map2_length_eq.
  - apply Forall_map2. intros a b Ha Hb.
    rewrite Forall_forall in Hx, Hy.
    destruct (H a b (Hx _ Ha) (Hy _ Hb)) as [P _]. exact P.
  - intros i a b Ha Hb. exists (f a b). split; [now apply nth_error_map2|].
    apply H; [exact (Forall_nth_error _ _ _ _ Hx Ha)|exact (Forall_nth_error _ _ _ _ Hy Hb)].
Qed.

Lemma lanewise1_map t t' (f : Z -> Z) x (R : Z -> Z -> Prop) :
  is_vector t x -> vn t' = vn t ->
  (forall a, pattern (vb t) a -> pattern (vb t') (f a) /\ R a (f a)) ->
  lanewise1 t' x (map f x) R.
Proof.
  intros [Hxl Hx] Hn H. split; [split|].
  - now rewrite map_length, Hn.
  - apply Forall_forall. intros c Hc. apply in_map_iff in Hc as (a & <- & Ha).
    rewrite Forall_forall in Hx. apply (H a (Hx _ Ha)).
  - intros i a Ha. exists (f a). split; [unfold lane; now rewrite nth_error_map, Ha|].
    apply H. exact (Forall_nth_error _ _ _ _ Hx Ha).
Qed.

Lemma lanewise2_all_ok t t' (f : Z -> Z -> option Z) x y r (R : Z -> Z -> Z -> Prop) :
  is_vector t x -> is_vector t y -> vn t' = vn t ->
  all_ok (map2 f x y) = Ok r ->
  (forall a b c, pattern (vb t) a -> pattern (vb t) b -> f a b = Some c ->
     pattern (vb t') c /\ R a b c) ->
  lanewise2 t' x y r R.
Proof.
  intros [Hxl Hx] [Hyl Hy] Hn E H.
  assert (L : forall i a b, lane x i a -> lane y i b ->
            exists c, lane r i c /\ f a b = Some c).
  { intros i a b Ha Hb.
    pose proof (nth_error_map2 f _ _ _ _ _ Ha Hb) as Hf.
    destruct (all_ok_nth _ _ _ _ E Hf) as (c & Hc & Hr); eauto. }
  assert (Hl : length r = vn t).
  { rewrite (all_ok_length _ _ E). now apply map2_length_eq. }
  split; [split|].
  - congruence.
  - apply Forall_of_nth_error. intros i c Hc.
    pose proof (nth_error_lt _ _ _ Hc).
    destruct (nth_error_ex x i) as [a Ha]; [lia|].
    destruct (nth_error_ex y i) as [b Hb]; [lia|].
    destruct (L i a b Ha Hb) as (c' & Hc' & Hf). unfold lane in Hc'.
    assert (c' = c) by congruence; subst c'.
    destruct (H a b c) as [P _]; auto; [exact (Forall_nth_error _ _ _ _ Hx Ha)|exact (Forall_nth_error _ _ _ _ Hy Hb)].
  - intros i a b Ha Hb. destruct (L i a b Ha Hb) as (c & Hc & Hf).
    exists c; split; auto. apply H; auto; [exact (Forall_nth_error _ _ _ _ Hx Ha)|exact (Forall_nth_error _ _ _ _ Hy Hb)].
Qed.

(** [all_ok (map2 ..)] is [Ok] or [UB], decided by the lanes. *)
Lemma all_ok_map2_ub t (f : Z -> Z -> option Z) x y (bad : Z -> Z -> Prop) :
  is_vector t x -> is_vector t y ->
  (forall a b, pattern (vb t) a -> pattern (vb t) b -> (f a b = None <-> bad a b)) ->
  (all_ok (map2 f x y) = UB <-> exists i a b, lane x i a /\ lane y i b /\ bad a b).
Proof.
  intros [Hxl Hx] [Hyl Hy] H. split.
  - intros E. destruct (all_ok_cases (map2 f x y)) as [[N _]|[_ [r E']]]; [|congruence].
    apply In_nth_error in N as [i N].
    destruct (nth_error_map2_inv _ _ _ _ _ N) as (a & b & Ha & Hb & F).
    exists i, a, b. repeat split; auto. apply H; auto;
    [exact (Forall_nth_error _ _ _ _ Hx Ha)|exact (Forall_nth_error _ _ _ _ Hy Hb)].
  - intros (i & a & b & Ha & Hb & B).
    apply H in B; [|exact (Forall_nth_error _ _ _ _ Hx Ha)|exact (Forall_nth_error _ _ _ _ Hy Hb)].
    destruct (all_ok_cases (map2 f x y)) as [[_ E]|[N _]]; auto.
    destruct N. rewrite <- B. eapply nth_error_In, nth_error_map2; eauto.
Qed.

Lemma all_ok_not_panic {A} (l : list (option A)) : all_ok l <> Panic.
Proof. destruct (all_ok_cases l) as [[_ ->]|[_ [r ->]]]; congruence. Qed.

Lemma all_ok_map2_ok t (f : Z -> Z -> option Z) x y :
  is_vector t x -> is_vector t y ->
  (forall i a b, lane x i a -> lane y i b -> f a b <> None) ->
  exists r, all_ok (map2 f x y) = Ok r.
Proof.
  intros Hx Hy H. destruct (all_ok_cases (map2 f x y)) as [[N _]|[_ ?]]; auto.
  apply In_nth_error in N as [i N].
  destruct (nth_error_map2_inv _ _ _ _ _ N) as (a & b & Ha & Hb & F).
  destruct (H i a b); auto.
Qed.

(** *** Wrapping arithmetic (C04) *)

Lemma wraps_to_congr t z z' r : (2 ^ width t | z - z') -> wraps_to t z' r -> wraps_to t z r.
Proof. intros D [H1 H2]; split; auto. eapply divide_sub_trans; eauto. Qed.

Lemma wraps_lane t z p :
  integer_type t -> (2 ^ width t | z - p) -> wraps_to t z (value t (wrap (vb t) p)).
Proof. intros Ht D. eapply wraps_to_congr; [exact D|]. now apply wraps_to_pattern. Qed.

Lemma divide_combine_add t a b :
  integer_type t -> (2 ^ width t | (value t a + value t b) - (a + b)).
Proof.
  intros Ht. replace (value t a + value t b - (a + b)) with (- ((a - value t a) + (b - value t b))) by lia.
  apply Z.divide_opp_r, Z.divide_add_r; now apply value_divide.
Qed.

Lemma divide_combine_sub t a b :
  integer_type t -> (2 ^ width t | (value t a - value t b) - (a - b)).
Proof.
  intros Ht. replace (value t a - value t b - (a - b)) with ((b - value t b) - (a - value t a)) by lia.
  apply Z.divide_sub_r; now apply value_divide.
Qed.

Lemma divide_combine_mul t a b :
  integer_type t -> (2 ^ width t | (value t a * value t b) - (a * b)).
Proof.
  intros Ht.
  destruct (value_divide t a Ht) as [k Hk], (value_divide t b Ht) as [l Hl].
  replace (value t a) with (a - k * 2 ^ width t) by lia.
  replace (value t b) with (b - l * 2 ^ width t) by lia.
  exists (- k * b - a * l + k * l * 2 ^ width t). ring.
Qed.

Lemma lane_add_int t : integer_type t -> lane_add (vkind t) (vb t) = fun p q => wrap (vb t) (p + q).
Proof. intros H; destruct (int_kind _ H) as [-> | ->]; reflexivity. Qed.
Lemma lane_sub_int t : integer_type t -> lane_sub (vkind t) (vb t) = fun p q => wrap (vb t) (p - q).
Proof. intros H; destruct (int_kind _ H) as [-> | ->]; reflexivity. Qed.
Lemma lane_mul_int t : integer_type t -> lane_mul (vkind t) (vb t) = fun p q => wrap (vb t) (p * q).
Proof. intros H; destruct (int_kind _ H) as [-> | ->]; reflexivity. Qed.

Theorem add_wraps t x y :
  integer_type t -> is_vector t x -> is_vector t y ->
  lanewise2 t x y (add t x y) (fun a b c => wraps_to t (value t a + value t b) (value t c)).
Proof.
  intros Ht Hx Hy. unfold add, simd_add. rewrite lane_add_int by auto.
  apply (lanewise2_map2 t); auto. intros a b Ha Hb; split; [apply wrap_pattern|].
  apply wraps_lane; auto. now apply divide_combine_add.
Qed.

Theorem sub_wraps t x y :
  integer_type t -> is_vector t x -> is_vector t y ->
  lanewise2 t x y (sub t x y) (fun a b c => wraps_to t (value t a - value t b) (value t c)).
Proof.
  intros Ht Hx Hy. unfold sub, simd_sub. rewrite lane_sub_int by auto.
  apply (lanewise2_map2 t); auto. intros a b Ha Hb; split; [apply wrap_pattern|].
  apply wraps_lane; auto. now apply divide_combine_sub.
Qed.

Theorem mul_wraps t x y :
  integer_type t -> is_vector t x -> is_vector t y ->
  lanewise2 t x y (mul t x y) (fun a b c => wraps_to t (value t a * value t b) (value t c)).
Proof.
  intros Ht Hx Hy. unfold mul, simd_mul. rewrite lane_mul_int by auto.
  apply (lanewise2_map2 t); auto. intros a b Ha Hb; split; [apply wrap_pattern|].
  apply wraps_lane; auto. now apply divide_combine_mul.
Qed.

(** *** Division (C05, C06) *)

Lemma value_zero_iff t p :
  integer_type t -> pattern (vb t) p -> (value t p = 0 <-> p = 0).
Proof.
  intros Ht Hp. assert (Z0 : value t 0 = 0).
  { unfold value. destruct Ht as [[-> [Hb _]]|[-> _]]; auto.
    apply (sval_zero (vb t) Hb). }
  split; [|intros ->; auto]. intros E. apply (value_inj t); auto using zero_pattern. congruence.
Qed.

Lemma div_defined_spec t a b :
  integer_type t -> pattern (vb t) a -> pattern (vb t) b ->
  (div_defined (vkind t) (vb t) a b = false <-> bad_division t a b).
Proof.
  intros Ht Ha Hb. unfold div_defined, bad_division.
  rewrite (value_zero_iff t b) by auto.
  destruct Ht as [[K [Hw _]]|[K _]]; rewrite K; cbn [is_signed].
  - unfold value, min_value; rewrite K.
    change (if a <? 2 ^ (width t - 1) then a else a - 2 ^ width t) with (sval (vb t) a).
    change (if b <? 2 ^ (width t - 1) then b else b - 2 ^ width t) with (sval (vb t) b).
    change (width t) with (bits (vb t)).
    destruct (Z.eqb_spec b 0); cbn [negb andb]; [intuition|].
    destruct (Z.eqb_spec (sval (vb t) a) (- 2 ^ (bits (vb t) - 1))); cbn [negb andb]; [|intuition congruence].
    destruct (Z.eqb_spec (sval (vb t) b) (-1)); cbn [negb andb]; intuition congruence.
  - destruct (Z.eqb_spec b 0); cbn [negb andb]; intuition congruence.
Qed.

Lemma lane_div_int t a b : integer_type t ->
  lane_div (vkind t) (vb t) a b =
  if div_defined (vkind t) (vb t) a b
  then Some (if is_signed (vkind t) then wrap (vb t) (Z.quot (sval (vb t) a) (sval (vb t) b)) else a / b)
  else None.
Proof. intros H; destruct (int_kind _ H) as [-> | ->]; reflexivity. Qed.

Lemma lane_rem_int t a b : integer_type t ->
  lane_rem (vkind t) (vb t) a b =
  if div_defined (vkind t) (vb t) a b
  then Some (if is_signed (vkind t) then wrap (vb t) (Z.rem (sval (vb t) a) (sval (vb t) b)) else a mod b)
  else None.
Proof. intros H; destruct (int_kind _ H) as [-> | ->]; reflexivity. Qed.

Lemma quot_in_range h a b :
  0 < h -> - h <= a < h -> - h <= b < h -> b <> 0 -> ~ (a = - h /\ b = -1) ->
  - h <= Z.quot a b < h.
Proof.
  intros Hh Ha Hb Hz Hbad.
  destruct (Z.eq_dec b 1) as [->|]; [rewrite Z.quot_1_r; lia|].
  destruct (Z.eq_dec b (-1)) as [->|].
  - assert (Q : Z.quot a (-1) = - a).
    { change (-1) with (- (1)). rewrite Z.quot_opp_r by lia. now rewrite Z.quot_1_r. }
    lia.
  - assert (B2 : 2 <= Z.abs b) by (clear - Hz n n0; lia).
    assert (A0 : 0 <= Z.abs a) by apply Z.abs_nonneg. assert (AH : Z.abs a <= h) by (clear - Ha; lia).
    pose proof (Z.quot_abs a b Hz) as Q.
    rewrite Z.quot_div_nonneg in Q by (clear - B2 A0; lia).
    assert (L : Z.abs b * (Z.abs a / Z.abs b) <= Z.abs a) by (apply Z.mul_div_le; clear - B2; lia).
    assert (P : 0 <= Z.abs a / Z.abs b) by (apply Z.div_pos; clear - B2 A0; lia).
    rewrite Q in L, P. generalize dependent (Z.quot a b). intros q _ L P.
    generalize dependent (Z.abs a). generalize dependent (Z.abs b). intros. clear - Hh B2 AH L P. nia.
Qed.

Theorem div_correct t x y :
  integer_type t -> is_vector t x -> is_vector t y ->
  (forall i a b, lane x i a -> lane y i b -> ~ bad_division t a b) ->
  exists r, div t x y = Ok r /\
    lanewise2 t x y r (fun a b c => value t c = Z.quot (value t a) (value t b)).
Proof.
  intros Ht Hx Hy H. unfold div, simd_div.
  destruct (all_ok_map2_ok t (lane_div (vkind t) (vb t)) x y Hx Hy) as [r E].
  { intros i a b La Lb. rewrite lane_div_int by auto.
    destruct (div_defined _ _ a b) eqn:D; [congruence|].
    apply div_defined_spec in D; eauto using is_vector_lane. destruct (H i a b La Lb D). }
  exists r; split; auto. eapply (lanewise2_all_ok t); eauto.
  intros a b c Ha Hb. rewrite lane_div_int by auto.
  destruct (div_defined _ _ a b) eqn:D; [|discriminate]. intros [= <-].
  assert (nb : ~ bad_division t a b).
  { intros B. apply div_defined_spec in B; congruence. }
  unfold bad_division, min_value, value in *.
  destruct Ht as [[K [Hw _]]|[K _]]; rewrite K in *; cbn [is_signed].
  - split; [apply wrap_pattern|].
    change (sval (vb t) (wrap (vb t) (sval (vb t) a ÷ sval (vb t) b)) = sval (vb t) a ÷ sval (vb t) b).
    pose proof (sval_range _ _ Hw Ha). pose proof (sval_range _ _ Hw Hb).
    change (if a <? 2 ^ (width t - 1) then a else a - 2 ^ width t) with (sval (vb t) a) in nb.
    change (if b <? 2 ^ (width t - 1) then b else b - 2 ^ width t) with (sval (vb t) b) in nb.
    change (width t) with (bits (vb t)) in nb.
    rewrite sval_wrap; auto. apply quot_in_range; auto using half_pos; intuition.
  - unfold pattern in *. assert (b <> 0) by intuition.
    rewrite Z.quot_div_nonneg by lia. split; auto.
    split; [apply Z.div_pos; lia|].
    apply Z.le_lt_trans with a; [|lia]. apply Z.div_le_upper_bound; nia.
Qed.

Theorem rem_correct t x y :
  integer_type t -> is_vector t x -> is_vector t y ->
  (forall i a b, lane x i a -> lane y i b -> ~ bad_division t a b) ->
  exists r, rem t x y = Ok r /\
    lanewise2 t x y r (fun a b c => value t c = Z.rem (value t a) (value t b)).
Proof.
  intros Ht Hx Hy H. unfold rem, simd_rem.
  destruct (all_ok_map2_ok t (lane_rem (vkind t) (vb t)) x y Hx Hy) as [r E].
  { intros i a b La Lb. rewrite lane_rem_int by auto.
    destruct (div_defined _ _ a b) eqn:D; [congruence|].
    apply div_defined_spec in D; eauto using is_vector_lane. destruct (H i a b La Lb D). }
  exists r; split; auto. eapply (lanewise2_all_ok t); eauto.
  intros a b c Ha Hb. rewrite lane_rem_int by auto.
  destruct (div_defined _ _ a b) eqn:D; [|discriminate]. intros [= <-].
  assert (nb : ~ bad_division t a b).
  { intros B. apply div_defined_spec in B; congruence. }
  unfold bad_division, min_value, value in *.
  destruct Ht as [[K [Hw _]]|[K _]]; rewrite K in *; cbn [is_signed].
  - split; [apply wrap_pattern|].
    change (sval (vb t) (wrap (vb t) (Z.rem (sval (vb t) a) (sval (vb t) b))) = Z.rem (sval (vb t) a) (sval (vb t) b)).
    pose proof (sval_range _ _ Hw Ha). pose proof (sval_range _ _ Hw Hb).
    change (if b <? 2 ^ (width t - 1) then b else b - 2 ^ width t) with (sval (vb t) b) in nb.
    assert (sval (vb t) b <> 0) by intuition.
    pose proof (Z.rem_bound_abs (sval (vb t) a) (sval (vb t) b) H2).
    rewrite sval_wrap; auto. lia.
  - unfold pattern in *. assert (b <> 0) by intuition.
    rewrite Z.rem_mod_nonneg by lia. split; auto.
    pose proof (Z.mod_pos_bound a b). lia.
Qed.

Theorem div_undefined_iff t x y :
  integer_type t -> is_vector t x -> is_vector t y ->
  (div t x y = UB <-> exists i a b, lane x i a /\ lane y i b /\ bad_division t a b)
  /\ div t x y <> Panic.
Proof.
  intros Ht Hx Hy; split; [|apply all_ok_not_panic].
  apply (all_ok_map2_ub t); auto. intros a b Ha Hb.
  rewrite lane_div_int by auto. rewrite <- div_defined_spec by auto.
  destruct (div_defined _ _ a b); split; congruence.
Qed.

Theorem rem_undefined_iff t x y :
  integer_type t -> is_vector t x -> is_vector t y ->
  (rem t x y = UB <-> exists i a b, lane x i a /\ lane y i b /\ bad_division t a b)
  /\ rem t x y <> Panic.
Proof.
  intros Ht Hx Hy; split; [|apply all_ok_not_panic].
  apply (all_ok_map2_ub t); auto. intros a b Ha Hb.
  rewrite lane_rem_int by auto. rewrite <- div_defined_spec by auto.
  destruct (div_defined _ _ a b); split; congruence.
Qed.

(** *** Shifts (C10, C11) *)

Lemma width_lt_half t : (0 < vb t)%nat -> width t < 2 ^ (width t - 1).
Proof.
  intros. assert (8 <= width t) by (unfold width; lia).
  generalize dependent (width t). intros w Hw.
  replace w with (8 + (w - 8)) by lia. assert (0 <= w - 8) by lia. revert H0.
  generalize (w - 8). clear. intros z Hz. pattern z. apply natlike_ind; [reflexivity| |auto].
  clear. intros x Hx IH. replace (8 + Z.succ x - 1) with (Z.succ (8 + x - 1)) by lia.
  rewrite Z.pow_succ_r by lia. assert (1 <= 2 ^ (8 + x - 1)) by (apply Z.lt_pred_le, Z.pow_pos_nonneg; lia). lia.
Qed.

Lemma amount_spec t b :
  integer_type t -> pattern (vb t) b ->
  ((b <? bits (vb t)) = false <-> bad_amount t b).
Proof.
  intros Ht Hb. rewrite Z.ltb_ge. unfold bad_amount, value, pattern in *.
  change (bits (vb t)) with (width t). change (modulus (vb t)) with (2 ^ width t) in Hb.
  pose proof (width_lt_half t (int_b t Ht)).
  pose proof (width_half t (int_b t Ht)).
  destruct Ht as [[-> _]|[-> _]]; [|lia].
  destruct (Z.ltb_spec b (2 ^ (width t - 1))); lia.
Qed.

Lemma value_small t b : integer_type t -> pattern (vb t) b -> b < bits (vb t) -> value t b = b.
Proof.
  intros Ht Hb Hs. change (bits (vb t)) with (width t) in Hs.
  pose proof (width_lt_half t (int_b t Ht)).
  unfold value. destruct Ht as [[-> _]|[-> _]]; auto.
  destruct (Z.ltb_spec b (2 ^ (width t - 1))); lia.
Qed.

Lemma shiftr_range h a n : 0 < h -> 0 <= n -> - h <= a < h -> - h <= a / 2 ^ n < h.
Proof.
  intros Hh Hn Ha. assert (0 < 2 ^ n) by (apply Z.pow_pos_nonneg; lia).
  split; [apply Z.div_le_lower_bound; nia|].
  apply Z.div_lt_upper_bound; nia.
Qed.

Theorem shl_correct t x y :
  integer_type t -> is_vector t x -> is_vector t y ->
  (forall i b, lane y i b -> ~ bad_amount t b) ->
  exists r, shl t x y = Ok r /\
    lanewise2 t x y r (fun a b c => wraps_to t (value t a * 2 ^ value t b) (value t c)).
Proof.
  intros Ht Hx Hy H. unfold shl, simd_shl.
  destruct (all_ok_map2_ok t (lane_shl (vb t)) x y Hx Hy) as [r E].
  { intros i a b La Lb. unfold lane_shl.
    destruct (b <? bits (vb t)) eqn:D; [congruence|].
    apply amount_spec in D; eauto using is_vector_lane. destruct (H i b Lb D). }
  exists r; split; auto. eapply (lanewise2_all_ok t); eauto.
  intros a b c Ha Hb. unfold lane_shl.
  destruct (Z.ltb_spec b (bits (vb t))); [|discriminate]. intros [= <-].
  split; [apply wrap_pattern|]. rewrite (value_small t b) by auto.
  rewrite Z.shiftl_mul_pow2 by apply Hb.
  apply wraps_lane; auto.
  replace (value t a * 2 ^ b - a * 2 ^ b) with (- ((a - value t a) * 2 ^ b)) by ring.
  apply Z.divide_opp_r, Z.divide_mul_l. now apply value_divide.
Qed.

Theorem shr_correct t x y :
  integer_type t -> is_vector t x -> is_vector t y ->
  (forall i b, lane y i b -> ~ bad_amount t b) ->
  exists r, shr t x y = Ok r /\
    lanewise2 t x y r (fun a b c => value t c = value t a / 2 ^ value t b).
Proof.
  intros Ht Hx Hy H. unfold shr, simd_shr.
  destruct (all_ok_map2_ok t (lane_shr (vkind t) (vb t)) x y Hx Hy) as [r E].
  { intros i a b La Lb. unfold lane_shr.
    destruct (b <? bits (vb t)) eqn:D; [congruence|].
    apply amount_spec in D; eauto using is_vector_lane. destruct (H i b Lb D). }
  exists r; split; auto. eapply (lanewise2_all_ok t); eauto.
  intros a b c Ha Hb. unfold lane_shr.
  destruct (Z.ltb_spec b (bits (vb t))); [|discriminate]. intros [= <-].
  rewrite (value_small t b) by auto. unfold value.
  destruct Ht as [[K [Hw _]]|[K _]]; rewrite K; cbn [is_signed].
  - split; [apply wrap_pattern|].
    change (sval (vb t) (wrap (vb t) (Z.shiftr (sval (vb t) a) b)) = sval (vb t) a / 2 ^ b).
    rewrite Z.shiftr_div_pow2 by apply Hb.
    apply sval_wrap; auto. apply shiftr_range; auto using half_pos, sval_range. apply Hb.
  - rewrite Z.shiftr_div_pow2 by apply Hb. split; auto.
    unfold pattern in *. assert (0 < 2 ^ b) by (apply Z.pow_pos_nonneg; lia).
    split; [apply Z.div_pos; lia|]. apply Z.div_lt_upper_bound; nia.
Qed.

Theorem shl_undefined_iff t x y :
  integer_type t -> is_vector t x -> is_vector t y ->
  (shl t x y = UB <-> exists i b, lane y i b /\ bad_amount t b) /\ shl t x y <> Panic.
Proof.
  intros Ht Hx Hy; split; [|apply all_ok_not_panic].
  unfold shl, simd_shl.
  rewrite (all_ok_map2_ub t _ x y (fun _ b => bad_amount t b)); auto.
  - split; [intros (i & a & b & _ & ? & ?); eauto|].
    intros (i & b & Lb & B). destruct (nth_error_ex x i) as [a La].
    { rewrite (is_vector_length _ _ Hx). eapply lane_index; eauto. }
    exists i, a, b; auto.
  - intros a b Ha Hb. unfold lane_shl. rewrite <- amount_spec by auto.
    destruct (b <? _); split; congruence.
Qed.

Theorem shr_undefined_iff t x y :
  integer_type t -> is_vector t x -> is_vector t y ->
  (shr t x y = UB <-> exists i b, lane y i b /\ bad_amount t b) /\ shr t x y <> Panic.
Proof.
  intros Ht Hx Hy; split; [|apply all_ok_not_panic].
  unfold shr, simd_shr.
  rewrite (all_ok_map2_ub t _ x y (fun _ b => bad_amount t b)); auto.
  - split; [intros (i & a & b & _ & ? & ?); eauto|].
    intros (i & b & Lb & B). destruct (nth_error_ex x i) as [a La].
    { rewrite (is_vector_length _ _ Hx). eapply lane_index; eauto. }
    exists i, a, b; auto.
  - intros a b Ha Hb. unfold lane_shr. rewrite <- amount_spec by auto.
    destruct (b <? _); split; congruence.
Qed.
