(** Scalar operands, negation, bitwise operators, scalar shifts, rotates
    (C07, C08, C09, C11, C12, C13). *)
From Coq Require Import ZArith List Bool Lia ZifyBool ZifyNat.
From Verif.Model Require Import Base FloatLane Llvm Minimal Ops.
From Verif.Spec Require Import Spec.
From Verif.Proofs Require Import Lib MinimalP OpsP.
Import ListNotations.
Open Scope Z_scope.

(** *** Scalar operands (C07) *)

Lemma splat_vector t s : 0 <= s < 2 ^ width t -> is_vector t (splat t s).
Proof. intros; now apply splat_spec. Qed.

Lemma lane_splat t v i a s : is_vector t v -> lane v i a -> lane (splat t s) i s.
Proof. intros Hv L. apply nth_error_repeat. eapply lane_index; eauto. Qed.

Lemma splat_lane_inv t i s p : lane (splat t s) i p -> p = s.
Proof. intros H. apply nth_error_In, repeat_spec in H; auto. Qed.

Lemma lanewise_vs t t' x s r R :
  is_vector t x -> lanewise2 t' x (splat t s) r R -> lanewise1 t' x r (fun a c => R a s c).
Proof.
  intros Hx [Hr H]; split; auto. intros i a La. apply H; eauto using lane_splat.
Qed.

Lemma lanewise_sv t t' x s r R :
  is_vector t x -> lanewise2 t' (splat t s) x r R -> lanewise1 t' x r (fun a c => R s a c).
Proof.
  intros Hx [Hr H]; split; auto. intros i a La. apply H; eauto using lane_splat.
Qed.

Theorem scalar_arithmetic t x s :
  integer_type t -> is_vector t x -> 0 <= s < 2 ^ width t ->
  lanewise1 t x (add_vs t x s) (fun a c => wraps_to t (value t a + value t s) (value t c)) /\
  lanewise1 t x (add_sv t s x) (fun a c => wraps_to t (value t s + value t a) (value t c)) /\
  lanewise1 t x (sub_vs t x s) (fun a c => wraps_to t (value t a - value t s) (value t c)) /\
  lanewise1 t x (sub_sv t s x) (fun a c => wraps_to t (value t s - value t a) (value t c)) /\
  lanewise1 t x (mul_vs t x s) (fun a c => wraps_to t (value t a * value t s) (value t c)) /\
  lanewise1 t x (mul_sv t s x) (fun a c => wraps_to t (value t s * value t a) (value t c)).
Proof.
  intros Ht Hx Hs. pose proof (splat_vector t s Hs).
  split; [|split; [|split; [|split; [|split]]]].
  - exact (lanewise_vs t t x s _ _ Hx (add_wraps t x (splat t s) Ht Hx H)).
  - exact (lanewise_sv t t x s _ _ Hx (add_wraps t (splat t s) x Ht H Hx)).
  - exact (lanewise_vs t t x s _ _ Hx (sub_wraps t x (splat t s) Ht Hx H)).
  - exact (lanewise_sv t t x s _ _ Hx (sub_wraps t (splat t s) x Ht H Hx)).
  - exact (lanewise_vs t t x s _ _ Hx (mul_wraps t x (splat t s) Ht Hx H)).
  - exact (lanewise_sv t t x s _ _ Hx (mul_wraps t (splat t s) x Ht H Hx)).
Qed.

Theorem scalar_division t x s :
  integer_type t -> is_vector t x -> 0 <= s < 2 ^ width t ->
  ((forall i a, lane x i a -> ~ bad_division t a s) ->
     (exists r, div_vs t x s = Ok r /\
        lanewise1 t x r (fun a c => value t c = Z.quot (value t a) (value t s))) /\
     (exists r, rem_vs t x s = Ok r /\
        lanewise1 t x r (fun a c => value t c = Z.rem (value t a) (value t s)))) /\
  ((forall i a, lane x i a -> ~ bad_division t s a) ->
     (exists r, div_sv t s x = Ok r /\
        lanewise1 t x r (fun a c => value t c = Z.quot (value t s) (value t a))) /\
     (exists r, rem_sv t s x = Ok r /\
        lanewise1 t x r (fun a c => value t c = Z.rem (value t s) (value t a)))).
Proof.
  intros Ht Hx Hs. pose proof (splat_vector t s Hs) as Hv.
  assert (A : forall i a b, lane x i a -> lane (splat t s) i b -> b = s)
    by (intros; eapply splat_lane_inv; eauto).
  split; intros H; split.
  - destruct (div_correct t x (splat t s) Ht Hx Hv) as (r & E & L).
    { intros i a b La Lb. rewrite (A _ _ _ La Lb). eauto. }
    exists r; split; auto. now apply (lanewise_vs t) in L.
  - destruct (rem_correct t x (splat t s) Ht Hx Hv) as (r & E & L).
    { intros i a b La Lb. rewrite (A _ _ _ La Lb). eauto. }
    exists r; split; auto. now apply (lanewise_vs t) in L.
  - destruct (div_correct t (splat t s) x Ht Hv Hx) as (r & E & L).
    { intros i a b La Lb. rewrite (A _ _ _ Lb La). eauto. }
    exists r; split; auto. now apply (lanewise_sv t) in L.
  - destruct (rem_correct t (splat t s) x Ht Hv Hx) as (r & E & L).
    { intros i a b La Lb. rewrite (A _ _ _ Lb La). eauto. }
    exists r; split; auto. now apply (lanewise_sv t) in L.
Qed.

(** *** Bitwise operators (C08) *)

Lemma testbit_pattern_high b p j : pattern b p -> bits b <= j -> Z.testbit p j = false.
Proof.
  intros [H0 H1] Hj. destruct (Z.eq_dec p 0) as [->|]; [apply Z.testbit_0_l|].
  apply Z.bits_above_log2; [lia|].
  apply Z.lt_le_trans with (bits b); auto. apply Z.log2_lt_pow2; [lia|exact H1].
Qed.

Lemma pattern_of_testbit b p :
  0 <= p -> (forall j, bits b <= j -> Z.testbit p j = false) -> pattern b p.
Proof.
  intros H0 H. split; auto.
  destruct (Z.eq_dec p 0) as [->|]; [apply modulus_pos|].
  apply Z.log2_lt_pow2; [lia|]. destruct (Z.lt_ge_cases (Z.log2 p) (bits b)); auto.
  specialize (H _ H1). rewrite Z.bit_log2 in H by lia. discriminate.
Qed.

Lemma land_pattern b p q : pattern b p -> pattern b q -> pattern b (Z.land p q).
Proof.
  intros Hp Hq. apply pattern_of_testbit.
  - apply Z.land_nonneg; left; apply Hp.
  - intros j Hj. rewrite Z.land_spec, (testbit_pattern_high b p) by auto. reflexivity.
Qed.

Lemma lor_pattern b p q : pattern b p -> pattern b q -> pattern b (Z.lor p q).
Proof.
  intros Hp Hq. apply pattern_of_testbit.
  - apply Z.lor_nonneg; split; [apply Hp|apply Hq].
  - intros j Hj. rewrite Z.lor_spec, (testbit_pattern_high b p), (testbit_pattern_high b q) by auto. reflexivity.
Qed.

Lemma lxor_pattern b p q : pattern b p -> pattern b q -> pattern b (Z.lxor p q).
Proof.
  intros Hp Hq. apply pattern_of_testbit.
  - apply Z.lxor_nonneg. destruct Hp, Hq; tauto.
  - intros j Hj. rewrite Z.lxor_spec, (testbit_pattern_high b p), (testbit_pattern_high b q) by auto. reflexivity.
Qed.

Lemma testbit_ones b j : 0 <= j < bits b -> Z.testbit (ones b) j = true.
Proof.
  intros. unfold ones, modulus. replace (2 ^ bits b - 1) with (Z.ones (bits b)).
  - apply Z.ones_spec_low; auto.
  - rewrite Z.ones_equiv. lia.
Qed.

Theorem bitwise_operators t x y :
  integer_type t -> is_vector t x -> is_vector t y ->
  lanewise2 t x y (bitand t x y) (bitwise2 t andb) /\
  lanewise2 t x y (bitor t x y) (bitwise2 t orb) /\
  lanewise2 t x y (bitxor t x y) (bitwise2 t xorb) /\
  lanewise1 t x (not t x) (bitwise1 t negb).
Proof.
  intros Ht Hx Hy. split; [|split; [|split]].
  - apply (lanewise2_map2 t); auto. intros a b Ha Hb; split; [now apply land_pattern|].
    intros j Hj; apply Z.land_spec.
  - apply (lanewise2_map2 t); auto. intros a b Ha Hb; split; [now apply lor_pattern|].
    intros j Hj; apply Z.lor_spec.
  - apply (lanewise2_map2 t); auto. intros a b Ha Hb; split; [now apply lxor_pattern|].
    intros j Hj; apply Z.lxor_spec.
  - unfold not, simd_xor, splat. rewrite map2_repeat_l by apply Hx. rewrite ones_wrap.
    apply (lanewise1_map t); auto. intros a Ha; split; [apply lxor_pattern; auto using ones_pattern|].
    intros j Hj. rewrite Z.lxor_spec, testbit_ones by exact Hj. reflexivity.
Qed.

Theorem bitwise_scalar t x s :
  integer_type t -> is_vector t x -> 0 <= s < 2 ^ width t ->
  lanewise1 t x (bitand_vs t x s) (fun a => bitwise2 t andb a s) /\
  lanewise1 t x (bitand_sv t s x) (fun a => bitwise2 t andb s a) /\
  lanewise1 t x (bitor_vs t x s) (fun a => bitwise2 t orb a s) /\
  lanewise1 t x (bitor_sv t s x) (fun a => bitwise2 t orb s a) /\
  lanewise1 t x (bitxor_vs t x s) (fun a => bitwise2 t xorb a s) /\
  lanewise1 t x (bitxor_sv t s x) (fun a => bitwise2 t xorb s a).
Proof.
  intros Ht Hx Hs. pose proof (splat_vector t s Hs) as Hv.
  pose proof (bitwise_operators t x (splat t s) Ht Hx Hv) as (A1 & O1 & X1 & _).
  pose proof (bitwise_operators t (splat t s) x Ht Hv Hx) as (A2 & O2 & X2 & _).
  split; [|split; [|split; [|split; [|split]]]].
  - exact (lanewise_vs t t x s _ _ Hx A1).
  - exact (lanewise_sv t t x s _ _ Hx A2).
  - exact (lanewise_vs t t x s _ _ Hx O1).
  - exact (lanewise_sv t t x s _ _ Hx O2).
  - exact (lanewise_vs t t x s _ _ Hx X1).
  - exact (lanewise_sv t t x s _ _ Hx X2).
Qed.

(** Mask operators. *)
Lemma mlane_land b c d : Z.land (mlane b c) (mlane b d) = mlane b (c && d).
Proof. destruct c, d; cbn [mlane andb]; rewrite ?Z.land_diag, ?Z.land_0_r, ?Z.land_0_l; auto. Qed.
Lemma mlane_lor b c d : Z.lor (mlane b c) (mlane b d) = mlane b (c || d).
Proof. destruct c, d; cbn [mlane orb]; rewrite ?Z.lor_diag, ?Z.lor_0_r, ?Z.lor_0_l; auto. Qed.
Lemma mlane_lxor b c d : Z.lxor (mlane b c) (mlane b d) = mlane b (xorb c d).
Proof. destruct c, d; cbn [mlane xorb]; rewrite ?Z.lxor_nilpotent, ?Z.lxor_0_r, ?Z.lxor_0_l; auto. Qed.

Lemma canonical_map2 t f x y (g : bool -> bool -> bool) :
  (forall c d, f (mlane (vb t) c) (mlane (vb t) d) = mlane (vb t) (g c d)) ->
  canonical t x -> canonical t y ->
  canonical t (map2 f x y) /\
  forall i c d, lane x i (mask_lane t c) -> lane y i (mask_lane t d) ->
    lane (map2 f x y) i (mask_lane t (g c d)).
Proof.
  intros H Hx Hy. split.
  - rewrite (canonical_map_truth t x Hx), (canonical_map_truth t y Hy).
    rewrite map2_map_l, map2_map_r.
    erewrite map2_ext by (intros; apply H). rewrite <- (map_map2 (mlane (vb t)) g).
    apply canonical_mlanes. apply map2_length_eq; rewrite map_length; [apply Hx|apply Hy].
  - intros i c d Lc Ld. unfold lane. rewrite <- mlane_mask_lane, <- H.
    now apply nth_error_map2.
Qed.

Theorem mask_operators t x y :
  mask_type t -> canonical t x -> canonical t y ->
  (canonical t (mask_bitand t x y) /\
   forall i c d, lane x i (mask_lane t c) -> lane y i (mask_lane t d) ->
     lane (mask_bitand t x y) i (mask_lane t (c && d))) /\
  (canonical t (mask_bitor t x y) /\
   forall i c d, lane x i (mask_lane t c) -> lane y i (mask_lane t d) ->
     lane (mask_bitor t x y) i (mask_lane t (c || d))) /\
  (canonical t (mask_bitxor t x y) /\
   forall i c d, lane x i (mask_lane t c) -> lane y i (mask_lane t d) ->
     lane (mask_bitxor t x y) i (mask_lane t (xorb c d))) /\
  (canonical t (mask_not t x) /\
   forall i c, lane x i (mask_lane t c) -> lane (mask_not t x) i (mask_lane t (negb c))).
Proof.
  intros Ht Hx Hy.
  split; [|split; [|split]].
  - apply (canonical_map2 t Z.land x y andb); auto using mlane_land.
  - apply (canonical_map2 t Z.lor x y orb); auto using mlane_lor.
  - apply (canonical_map2 t Z.lxor x y xorb); auto using mlane_lxor.
  - destruct (canonical_map2 t Z.lxor (mask_splat t true) x xorb) as [C L]; auto using mlane_lxor.
    { apply mask_splat_spec. }
    split; auto. intros i c Lc. apply (L i true c); auto.
    apply mask_splat_spec. rewrite <- (proj1 Hx). eapply nth_error_lt; eauto.
Qed.

Theorem mask_scalar_operators t x s :
  mask_type t -> canonical t x ->
  let ok f g := canonical t (f : vec) /\
    forall i c, lane x i (mask_lane t c) -> lane f i (mask_lane t (g c)) in
  ok (mask_bitand_vs t x s) (fun c => c && s) /\ ok (mask_bitand_sv t s x) (fun c => c && s) /\
  ok (mask_bitor_vs t x s) (fun c => c || s) /\ ok (mask_bitor_sv t s x) (fun c => c || s) /\
  ok (mask_bitxor_vs t x s) (fun c => xorb c s) /\ ok (mask_bitxor_sv t s x) (fun c => xorb c s).
Proof.
  intros Ht Hx. pose proof (mask_splat_spec t s) as [Cs Ls].
  assert (Ls' : forall i c, lane x i c -> lane (mask_splat t s) i (mask_lane t s)).
  { intros i c L. apply Ls. rewrite <- (proj1 Hx). eapply nth_error_lt; eauto. }
  pose proof (mask_operators t x (mask_splat t s) Ht Hx Cs) as ((A1 & A2) & (O1 & O2) & (X1 & X2) & _).
  pose proof (mask_operators t (mask_splat t s) x Ht Cs Hx) as ((B1 & B2) & (P1 & P2) & (Y1 & Y2) & _).
  cbv zeta.
  split; [|split; [|split; [|split; [|split]]]]; (split; [assumption|]); intros i c L.
  - eapply A2; eauto.
  - rewrite Bool.andb_comm. eapply B2; eauto.
  - eapply O2; eauto.
  - rewrite Bool.orb_comm. eapply P2; eauto.
  - eapply X2; eauto.
  - rewrite Bool.xorb_comm. eapply Y2; eauto.
Qed.

(** *** Negation (C09) *)

Theorem neg_wraps t x :
  signed_type t -> is_vector t x ->
  lanewise1 t x (neg t x) (fun a c => wraps_to t (- value t a) (value t c)).
Proof.
  intros Ht Hx. assert (Hi : integer_type t) by (left; auto).
  unfold neg, mul, simd_mul, splat. rewrite lane_mul_int by auto.
  rewrite map2_repeat_l by apply Hx. apply (lanewise1_map t); auto.
  intros a Ha; split; [apply wrap_pattern|].
  apply wraps_lane; auto.
  assert (L : lit (vkind t) (vb t) (-1) = wrap (vb t) (-1)) by (destruct Ht as [-> _]; auto).
  rewrite L.
  destruct (value_divide t a Hi) as [k Hk]. destruct (wrap_divide (vb t) (-1)) as [l Hl].
  change (modulus (vb t)) with (2 ^ width t) in Hl.
  replace (value t a) with (a - k * 2 ^ width t) by lia.
  replace (wrap (vb t) (-1)) with (-1 - l * 2 ^ width t) by lia.
  exists (k + l * a). ring.
Qed.

(** *** Scalar shifts (C11) *)

Lemma wrap_spec_width t k : wrap (vb t) k = k mod 2 ^ width t.
Proof. reflexivity. Qed.

Lemma scalar_amount t k :
  integer_type t ->
  (~ bad_amount t (k mod 2 ^ width t) <-> k mod 2 ^ width t < width t).
Proof.
  intros Ht. rewrite <- amount_spec by (auto; apply wrap_pattern).
  change (bits (vb t)) with (width t). rewrite Z.ltb_ge. lia.
Qed.

Theorem scalar_shift t x k :
  integer_type t -> is_vector t x -> 0 <= k ->
  let m := k mod 2 ^ width t in
  (m < width t ->
     (exists r, shl_scalar t x k = Ok r /\
        lanewise1 t x r (fun a c => wraps_to t (value t a * 2 ^ m) (value t c))) /\
     (exists r, shr_scalar t x k = Ok r /\
        lanewise1 t x r (fun a c => value t c = value t a / 2 ^ m))) /\
  (width t <= m -> shl_scalar t x k = UB /\ shr_scalar t x k = UB).
Proof.
  intros Ht Hx Hk m. assert (Hm : pattern (vb t) m) by (apply (wrap_pattern (vb t) k)).
  pose proof (splat_vector t m Hm) as Hv.
  split; intros H.
  - assert (B : forall i b, lane (splat t m) i b -> ~ bad_amount t b).
    { intros i b Lb. rewrite (splat_lane_inv _ _ _ _ Lb). now apply scalar_amount. }
    pose proof (value_small t m Ht Hm H) as V.
    split.
    + destruct (shl_correct t x (splat t m) Ht Hx Hv B) as (r & E & L).
      exists r; split; auto. apply (lanewise_vs t) in L; auto. rewrite V in L. exact L.
    + destruct (shr_correct t x (splat t m) Ht Hx Hv B) as (r & E & L).
      exists r; split; auto. apply (lanewise_vs t) in L; auto. rewrite V in L. exact L.
  - assert (exists i b, lane (splat t m) i b /\ bad_amount t b).
    { exists 0%nat, m. split.
      - apply nth_error_repeat. destruct (int_vt t Ht) as (_ & ? & _); auto.
      - apply amount_spec; auto. apply Z.ltb_ge. exact H. }
    split; [now apply (shl_undefined_iff t x (splat t m))|now apply (shr_undefined_iff t x (splat t m))].
Qed.
