(** Float vectors: C44 - C49 and the float part of C33. *)
From Coq Require Import ZArith List Bool Lia Reals Lra.
From Coq.Floats Require Import SpecFloat.
From Flocq Require Import Core BinarySingleNaN.
From Verif.Model Require Import Base FloatLane Llvm Tables Minimal MaskReduce Ops Cmp Cast Reduce Float.
From Verif.Spec Require Import Spec Floats.
From Verif.Proofs Require Import Lib MinimalP OpsP OpsP2 MaskReduceP CmpP ReduceP CastP FloatP FloatOpsP.
Import ListNotations.
Open Scope Z_scope.

Lemma float_size t : float_type t -> fsize (vb t).
Proof. intros (_ & S & _). exact S. Qed.
Lemma float_vt t : float_type t -> vector_type t.
Proof. intros (_ & _ & V). exact V. Qed.

(** ** Lanes *)
Section Lanes.
Variable b : nat.
Hypothesis F : fsize b.
Notation bf := (binary_float (fprec b) (femax b)).

(** A finite datum is representable, and its sign is that of its value. *)
Lemma finite_datum p s u : pattern b p -> datum_of b p = Fin s u ->
  rounded b u = u /\ (Rabs u < bpow radix2 (bias b + 1))%R /\ ((u < 0)%R -> s = true) /\ ((0 < u)%R -> s = false).
Proof.
  intros P D. rewrite datum_fl in D by auto. rewrite top_eq, rounded_eq by auto.
  assert (B : BinarySingleNaN.is_finite (fl b p) = true) by (destruct (fl b p); try discriminate; reflexivity).
  rewrite b_datum_finite in D by auto. injection D as <- <-. split; [|split; [|split]].
  - apply round_generic; [apply valid_rnd_round_mode|]. apply generic_format_B2R.
  - apply abs_B2R_lt_emax.
  - apply sign_neg.
  - apply sign_pos.
Qed.

Lemma rounds_exact x z s r :
  rounded b x = x -> (Rabs x < bpow radix2 (bias b + 1))%R -> result_sign x z s ->
  rounds_to b x z r -> r = Fin s x.
Proof.
  intros E L (S1 & S2 & S3) (s' & (T1 & T2 & T3) & ->). rewrite E, Rlt_bool_true by auto. f_equal.
  destruct (Rtotal_order x 0) as [H|[H|H]].
  - now rewrite S1, T1.
  - now rewrite S3, T3.
  - now rewrite S2, T2.
Qed.

Lemma rounds_unique x z r r' : rounds_to b x z r -> rounds_to b x z r' -> r = r'.
Proof.
  intros (s & (S1 & S2 & S3) & ->) (s' & (T1 & T2 & T3) & ->).
  assert (E : s = s').
  { destruct (Rtotal_order x 0) as [H|[H|H]]; [now rewrite S1, T1|now rewrite S3, T3|now rewrite S2, T2]. }
  now rewrite E.
Qed.
Lemma add_unique x y r r' : ieee_add b x y r -> ieee_add b x y r' -> r = r'.
Proof. destruct x, y; cbn [ieee_add]; intros; try congruence. eapply rounds_unique; eauto. Qed.
Lemma mul_unique x y r r' : ieee_mul b x y r -> ieee_mul b x y r' -> r = r'.
Proof. destruct x, y; cbn [ieee_mul]; intros; try congruence. eapply rounds_unique; eauto. Qed.

(** Integers. *)
Lemma of_int_datum z : pattern b (fl_of_int b z) /\ rounds_to b (IZR z) false (datum_of b (fl_of_int b z)).
Proof.
  unfold fl_of_int. rewrite (binary_normalize_equiv _ _ (fprec_gt_0 b) (fprec_lt_emax b)).
  destruct (encode_B b (binary_normalize (fprec b) (femax b) (fprec_gt_0 b) (fprec_lt_emax b) mode_NE z 0 false) F) as [EP ->].
  split; [exact EP|].
  pose proof (binary_normalize_correct (fprec b) (femax b) (fprec_gt_0 b) (fprec_lt_emax b) mode_NE z 0 false) as H.
  cbv zeta in H. rewrite <- rounded_eq in H by auto.
  assert (E : F2R (Float radix2 z 0) = IZR z) by (unfold F2R; cbn; ring). rewrite E in H.
  unfold rounds_to. rewrite top_eq by auto.
  destruct (Rlt_bool_spec (Rabs (rounded b (IZR z))) (bpow radix2 (femax b))).
  - destruct H as (HR & HF & HS). exists (match Rcompare (IZR z) 0 with Eq => false | Lt => true | Gt => false end).
    split; [apply compare_sign|]. rewrite b_datum_finite by auto. now rewrite HR, HS.
  - exists (Rlt_bool (IZR z) 0). split.
    + split; [|split]; intros S.
      * now apply Rlt_bool_true.
      * apply Rlt_bool_false; lra.
      * apply Rlt_bool_false; lra.
    + now apply overflow_datum.
Qed.

Lemma of_small_int z : Z.abs z < 2 ^ fprec b -> datum_of b (fl_of_int b z) = Fin (z <? 0) (IZR z).
Proof.
  intros Z. unfold fl_of_int. rewrite (binary_normalize_equiv _ _ (fprec_gt_0 b) (fprec_lt_emax b)).
  destruct (encode_B b (binary_normalize (fprec b) (femax b) (fprec_gt_0 b) (fprec_lt_emax b) mode_NE z 0 false) F) as [EP ->].
  rewrite normalize_exact; auto.
  - f_equal; [now destruct z|]. unfold F2R; cbn; ring.
  - unfold emin. clear - F. destruct F as [-> | ->]; discriminate.
  - clear - F. destruct F as [-> | ->]; discriminate.
Qed.

(** -1 * x and 1 * x. *)
Lemma minus_one_mul d r p : pattern b p -> d = datum_of b p -> ieee_mul b (Fin true (-1)) d r -> r = negated d.
Proof.
  intros P -> H. destruct (datum_of b p) as [|s|s u] eqn:D; cbn [ieee_mul negated] in *.
  - exact H.
  - rewrite Req_bool_false in H by lra. rewrite H. now destruct s.
  - destruct (finite_datum p s u P D) as (E & L & S1 & S2).
    replace (-1 * u)%R with (- u)%R in H by ring.
    apply (rounds_exact (- u) (xorb true s)); auto.
    + unfold rounded in *. rewrite round_NE_opp. now apply f_equal.
    + now rewrite Rabs_Ropp.
    + split; [|split]; intros X.
      * rewrite S2; auto; lra.
      * rewrite S1; auto; lra.
      * now destruct s.
Qed.
Lemma one_mul p r : pattern b p -> ieee_mul b (Fin false 1) (datum_of b p) r -> r = datum_of b p.
Proof.
  intros P H. destruct (datum_of b p) as [|s|s u] eqn:D; cbn [ieee_mul] in *.
  - exact H.
  - rewrite Req_bool_false in H by lra. rewrite H. now destruct s.
  - destruct (finite_datum p s u P D) as (E & L & S1 & S2). rewrite Rmult_1_l in H.
    apply (rounds_exact u (xorb false s)); auto. split; [|split]; intros X; auto. now destruct s.
Qed.
(** 0 + x. *)
Lemma zero_add p z r : pattern b p -> ieee_add b (Fin z 0) (datum_of b p) r ->
  r = match datum_of b p with Fin s u => if Req_bool u 0 then Fin (z && s) 0 else Fin s u | d => d end.
Proof.
  intros P H. destruct (datum_of b p) as [|s|s u] eqn:D; cbn [ieee_add] in *; auto.
  destruct (finite_datum p s u P D) as (E & L & S1 & S2). rewrite Rplus_0_l in H.
  destruct (Req_bool_spec u 0) as [U|U].
  - subst u. apply (rounds_exact 0 (z && s)); auto. split; [|split]; intros X; auto; lra.
  - apply (rounds_exact u (z && s)); auto. split; [|split]; intros X; auto. contradiction.
Qed.

(** Truncation. *)
Lemma trunc_datum p : pattern b p ->
  match datum_of b p with
  | Fin s u => SFtrunc (fdecode b p) = Some (Ztrunc u)
  | _ => SFtrunc (fdecode b p) = None
  end.
Proof.
  intros P. rewrite datum_decode by auto. destruct (fdecode b p) as [s|s| |s m e]; cbn [sf_datum SFtrunc]; auto.
  - f_equal. symmetry. exact (Ztrunc_IZR 0).
  - f_equal. unfold F2R. cbn [Fnum Fexp]. destruct (Z.leb_spec 0 e).
    + assert (E : bpow radix2 e = IZR (2 ^ e)) by (rewrite <- IZR_Zpower by auto; reflexivity).
      rewrite E, <- mult_IZR, Ztrunc_IZR. destruct s; cbn [cond_Zopp]; ring.
    + assert (E : (bpow radix2 e = / IZR (2 ^ (- e)))%R).
      { replace e with (- (- e)) at 1 by lia. rewrite bpow_opp. f_equal. rewrite <- IZR_Zpower by lia. reflexivity. }
      assert (Q : 0 < 2 ^ (- e)) by (apply Z.pow_pos_nonneg; lia).
      rewrite E. change (IZR (cond_Zopp s (Z.pos m)) * / IZR (2 ^ - e))%R with (IZR (cond_Zopp s (Z.pos m)) / IZR (2 ^ - e))%R.
      rewrite Ztrunc_div by lia.
      destruct s; cbn [cond_Zopp]; rewrite ?Z.quot_opp_l by lia; now rewrite Z.quot_div_nonneg by lia.
Qed.

Lemma lt_le_total p q : pattern b p -> pattern b q -> datum_of b p <> NaN -> datum_of b q <> NaN ->
  ~ ieee_lt (datum_of b q) (datum_of b p) -> ieee_le (datum_of b p) (datum_of b q).
Proof.
  intros P Q NP NQ H. unfold ieee_le.
  destruct (datum_of b p) as [|s|s u], (datum_of b q) as [|s'|s' v]; try congruence; cbn [ieee_lt ieee_eq] in *.
  - destruct s, s'; tauto.
  - destruct s; tauto.
  - destruct s'; [exfalso|]; auto.
  - destruct (Rtotal_order u v) as [?|[?|?]]; tauto.
Qed.
Lemma le_refl_datum d : d <> NaN -> ieee_le d d.
Proof. destruct d; try congruence; right; reflexivity. Qed.
Lemma le_trans_datum d e f : ieee_le d e -> ieee_le e f -> ieee_le d f.
Proof.
  unfold ieee_le. destruct d as [|[]|s u], e as [|[]|s' v], f as [|[]|s'' w]; cbn [ieee_lt ieee_eq];
    try (intuition (congruence || lra)).
Qed.

Lemma nan_decode p : pattern b p -> (SFis_nan (fdecode b p) = true <-> datum_of b p = NaN).
Proof.
  intros P. rewrite datum_decode by auto. destruct (fdecode b p); cbn; split; congruence.
Qed.

Lemma min_datum p q : pattern b p -> pattern b q ->
  (fl_min b p q = p \/ fl_min b p q = q) /\ ieee_min (datum_of b p) (datum_of b q) (datum_of b (fl_min b p q)).
Proof.
  intros P Q. unfold fl_min.
  destruct (SFis_nan (fdecode b p)) eqn:NP.
  { apply nan_decode in NP; auto. split; auto. now rewrite NP. }
  destruct (SFis_nan (fdecode b q)) eqn:NQ.
  { apply nan_decode in NQ; auto. split; auto. rewrite NQ. now destruct (datum_of b p). }
  assert (NP' : datum_of b p <> NaN) by (intros H; apply nan_decode in H; auto; congruence).
  assert (NQ' : datum_of b q <> NaN) by (intros H; apply nan_decode in H; auto; congruence).
  assert (G : forall r, (r = p \/ r = q) -> ieee_le (datum_of b r) (datum_of b p) -> ieee_le (datum_of b r) (datum_of b q) ->
     ieee_min (datum_of b p) (datum_of b q) (datum_of b r)).
  { intros r O L1 L2. assert (O' : datum_of b r = datum_of b p \/ datum_of b r = datum_of b q) by (destruct O as [-> | ->]; auto).
    clear - O' L1 L2 NP' NQ'. unfold ieee_min. destruct (datum_of b p), (datum_of b q); try congruence; auto. }
  destruct (fl_lt b q p) eqn:L.
  - split; auto. apply G; auto using le_refl_datum. left. now apply fl_lt_iff.
  - split; auto. apply G; auto using le_refl_datum. apply lt_le_total; auto.
    rewrite <- fl_lt_iff by auto. congruence.
Qed.
Lemma max_datum p q : pattern b p -> pattern b q ->
  (fl_max b p q = p \/ fl_max b p q = q) /\ ieee_max (datum_of b p) (datum_of b q) (datum_of b (fl_max b p q)).
Proof.
  intros P Q. unfold fl_max.
  destruct (SFis_nan (fdecode b p)) eqn:NP.
  { apply nan_decode in NP; auto. split; auto. now rewrite NP. }
  destruct (SFis_nan (fdecode b q)) eqn:NQ.
  { apply nan_decode in NQ; auto. split; auto. rewrite NQ. now destruct (datum_of b p). }
  assert (NP' : datum_of b p <> NaN) by (intros H; apply nan_decode in H; auto; congruence).
  assert (NQ' : datum_of b q <> NaN) by (intros H; apply nan_decode in H; auto; congruence).
  assert (G : forall r, (r = p \/ r = q) -> ieee_le (datum_of b p) (datum_of b r) -> ieee_le (datum_of b q) (datum_of b r) ->
     ieee_max (datum_of b p) (datum_of b q) (datum_of b r)).
  { intros r O L1 L2. assert (O' : datum_of b r = datum_of b p \/ datum_of b r = datum_of b q) by (destruct O as [-> | ->]; auto).
    clear - O' L1 L2 NP' NQ'. unfold ieee_max. destruct (datum_of b p), (datum_of b q); try congruence; auto. }
  destruct (fl_lt b p q) eqn:L.
  - split; auto. apply G; auto using le_refl_datum. left. now apply fl_lt_iff.
  - split; auto. apply G; auto using le_refl_datum. apply lt_le_total; auto.
    rewrite <- fl_lt_iff by auto. congruence.
Qed.
End Lanes.

(** Conversion between the formats. *)
Lemma convert_datum b b' p : fsize b -> fsize b' -> pattern b p ->
  pattern b' (fl_convert b b' p) /\ ieee_convert b' (datum_of b p) (datum_of b' (fl_convert b b' p)).
Proof.
  intros F F' P. unfold fl_convert. rewrite datum_decode by auto.
  destruct (fdecode b p) as [s|s| |s m e] eqn:D; cbn [sf_datum ieee_convert].
  - assert (V : valid_binary (fprec b') (femax b') (S754_zero s) = true) by reflexivity.
    split; [now apply encode_pattern|]. rewrite datum_decode by (auto using encode_pattern).
    rewrite decode_encode by auto. cbn [sf_datum]. exists s. split; [split; [|split]; intros; auto; lra|].
    rewrite rounded_0, Rabs_R0, Rlt_bool_true; auto. apply bpow_gt_0.
  - assert (V : valid_binary (fprec b') (femax b') (S754_infinity s) = true) by reflexivity.
    split; [now apply encode_pattern|]. rewrite datum_decode by (auto using encode_pattern).
    now rewrite decode_encode by auto.
  - assert (V : valid_binary (fprec b') (femax b') S754_nan = true) by reflexivity.
    split; [now apply encode_pattern|]. rewrite datum_decode by (auto using encode_pattern).
    now rewrite decode_encode by auto.
  - rewrite (binary_normalize_equiv _ _ (fprec_gt_0 b') (fprec_lt_emax b')).
    match goal with |- context [fencode b' (B2SF ?x)] => destruct (encode_B b' x F') as [EP ->] end.
    split; [exact EP|].
    pose proof (binary_normalize_correct (fprec b') (femax b') (fprec_gt_0 b') (fprec_lt_emax b') mode_NE (cond_Zopp s (Z.pos m)) e s) as H.
    cbv zeta in H. rewrite <- rounded_eq in H by auto.
    set (x := F2R (Float radix2 (cond_Zopp s (Z.pos m)) e)) in *.
    unfold rounds_to. rewrite top_eq by auto.
    destruct (Rlt_bool_spec (Rabs (rounded b' x)) (bpow radix2 (femax b'))).
    + destruct H as (HR & HF & HS). exists (match Rcompare x 0 with Eq => s | Lt => true | Gt => false end).
      split; [apply compare_sign|]. rewrite b_datum_finite by auto. now rewrite HR, HS.
    + exists (Rlt_bool x 0). split.
      * assert (x <> 0%R) by (intros X; apply eq_0_F2R in X; destruct s; discriminate).
        split; [|split]; intros S; [now apply Rlt_bool_true|apply Rlt_bool_false; lra|contradiction].
      * now apply overflow_datum.
Qed.

(** f32 to f64 is exact. *)
Lemma widen_datum p : pattern 4 p -> datum_of 8 (fl_convert 4 8 p) = datum_of 4 p.
Proof.
  intros P. assert (F : fsize 4) by (now left). assert (F' : fsize 8) by (now right).
  destruct (convert_datum 4 8 p F F' P) as [EP H]. unfold fl_convert in *. pose proof (decode_valid 4 p F P) as V.
  rewrite (datum_decode 4 p) in * by auto.
  destruct (fdecode 4 p) as [s|s| |s m e] eqn:D; cbn [sf_datum ieee_convert] in H |- *; auto.
  - rewrite datum_decode, decode_encode; auto.
  - clear H. rewrite (binary_normalize_equiv _ _ (fprec_gt_0 8) (fprec_lt_emax 8)) in *.
    match goal with |- context [fencode 8 (B2SF ?x)] => destruct (encode_B 8 x F') as [_ ->] end.
    cbn [valid_binary] in V. destruct (bounded_facts 4 m e V) as [M E].
    rewrite normalize_exact; auto.
    + f_equal. now destruct s.
    + replace (Z.abs (cond_Zopp s (Z.pos m))) with (Z.pos m) by (destruct s; reflexivity).
      eapply Z.lt_trans; [exact M|]. reflexivity.
    + destruct E as [E _]. unfold emin in *. cbn in *. lia.
    + destruct E as [_ E]. cbn in *. lia.
Qed.
