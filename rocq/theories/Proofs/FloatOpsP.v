(** Float lane operations meet IEEE-754. *)
From Coq Require Import ZArith List Bool Lia Reals Lra.
From Coq.Floats Require Import SpecFloat.
From Flocq Require Import Core BinarySingleNaN.
From Verif.Model Require Import Base FloatLane.
From Verif.Spec Require Import Spec Floats.
From Verif.Proofs Require Import Lib FloatP.
Open Scope Z_scope.

Lemma rounded_eq b x : fsize b ->
  rounded b x = round radix2 (SpecFloat.fexp (fprec b) (femax b)) (round_mode mode_NE) x.
Proof. intros [-> | ->]; reflexivity. Qed.
Lemma top_eq b : fsize b -> bias b + 1 = femax b.
Proof. intros F. destruct (formats b F) as (_ & _ & _ & -> & _). reflexivity. Qed.

Section Lanes.
Variable b : nat.
Hypothesis F : fsize b.
Notation bf := (binary_float (fprec b) (femax b)).
Local Instance Hp : Prec_gt_0 (fprec b) := fprec_gt_0 b.
Local Instance He : Prec_lt_emax (fprec b) (femax b) := fprec_lt_emax b.

Lemma overflow_datum (z : bf) s : B2SF z = binary_overflow (fprec b) (femax b) mode_NE s -> b_datum z = Inf s.
Proof. intros E. unfold b_datum. now rewrite E. Qed.

Lemma sign_neg (x : bf) : (B2R x < 0)%R -> Bsign x = true.
Proof.
  destruct x as [s|s| |s m e B]; cbn; try (intros; lra). destruct s; auto. intros H. exfalso.
  assert (0 < F2R (Float radix2 (Z.pos m) e))%R by (now apply F2R_gt_0). cbn in *. lra.
Qed.
Lemma sign_pos (x : bf) : (0 < B2R x)%R -> Bsign x = false.
Proof.
  destruct x as [s|s| |s m e B]; cbn; try (intros; lra). destruct s; auto. intros H. exfalso.
  assert (F2R (Float radix2 (Z.neg m) e) < 0)%R by (now apply F2R_lt_0). cbn in *. lra.
Qed.

Lemma rounded_0 : rounded b 0 = 0%R.
Proof. apply round_0. apply valid_rnd_N. Qed.

Lemma sum_sign (x y : bf) :
  Bsign x = Bsign y -> (B2R x + B2R y <> 0)%R ->
  result_sign (B2R x + B2R y) (Bsign x && Bsign y) (Bsign x).
Proof.
  intros E N. split; [|split]; intros H; [| |contradiction].
  - destruct (Rlt_or_le (B2R x) 0); [now apply sign_neg|].
    rewrite E. apply sign_neg. lra.
  - destruct (Rlt_or_le 0 (B2R x)); [now apply sign_pos|].
    rewrite E. apply sign_pos. lra.
Qed.

Lemma compare_sign x z :
  result_sign x z (match Rcompare x 0 with Eq => z | Lt => true | Gt => false end).
Proof.
  split; [|split]; intros H.
  - now rewrite Rcompare_Lt.
  - now rewrite Rcompare_Gt.
  - now rewrite Rcompare_Eq.
Qed.

Lemma plus_datum (x y : bf) : ieee_add b (b_datum x) (b_datum y) (b_datum (Bplus mode_NE x y)).
Proof.
  destruct (is_finite x) eqn:FX, (is_finite y) eqn:FY.
  - rewrite !b_datum_finite by auto. cbn [ieee_add].
    pose proof (Bplus_correct (fprec b) (femax b) Hp He mode_NE x y FX FY) as H.
    unfold rounds_to. rewrite (rounded_eq b _ F), (top_eq b F).
    destruct (Rlt_bool _ _) eqn:RB.
    + destruct H as (HR & HF & HS). exists (Bsign (Bplus mode_NE x y)).
      split; [|rewrite b_datum_finite by auto; now rewrite HR].
      rewrite HS. apply compare_sign.
    + destruct H as (HO & HS). exists (Bsign x). split; [|now apply overflow_datum].
      apply sum_sign; auto. intros Z0. rewrite Z0, <- (rounded_eq b _ F), rounded_0, Rabs_R0 in RB.
      rewrite Rlt_bool_true in RB; [discriminate|]. apply bpow_gt_0.
  - destruct x, y; try discriminate; reflexivity.
  - destruct x, y; try discriminate; reflexivity.
  - destruct x, y; try discriminate; try reflexivity. unfold b_datum; cbn. destruct (Bool.eqb s s0); reflexivity.
Qed.

Lemma opp_datum (x : bf) : b_datum (Bopp x) = negated (b_datum x).
Proof.
  destruct x as [s|s| |s m e B]; unfold b_datum; cbn [Bopp B2SF sf_datum negated]; auto.
  - f_equal. now rewrite Ropp_0.
  - f_equal. rewrite !F2R_cond. destruct s; cbn [negb]; ring.
Qed.

Lemma minus_plus (x y : bf) : Bminus mode_NE x y = Bplus mode_NE x (Bopp y).
Proof. destruct x, y; reflexivity. Qed.

Lemma prod_sign (x y : bf) :
  result_sign (B2R x * B2R y) (xorb (Bsign x) (Bsign y)) (xorb (Bsign x) (Bsign y)).
Proof.
  split; [|split; [|auto]]; intros H.
  - destruct (Rtotal_order (B2R x) 0) as [X|[X|X]], (Rtotal_order (B2R y) 0) as [Y|[Y|Y]];
      try (exfalso; rewrite ?X, ?Y in H; nra); rewrite ?(sign_neg _ X), ?(sign_neg _ Y), ?(sign_pos _ X), ?(sign_pos _ Y); auto.
  - destruct (Rtotal_order (B2R x) 0) as [X|[X|X]], (Rtotal_order (B2R y) 0) as [Y|[Y|Y]];
      try (exfalso; rewrite ?X, ?Y in H; nra); rewrite ?(sign_neg _ X), ?(sign_neg _ Y), ?(sign_pos _ X), ?(sign_pos _ Y); auto.
Qed.

Lemma nonzero_finite s m e : Req_bool (F2R (Float radix2 (cond_Zopp s (Z.pos m)) e)) 0 = false.
Proof.
  apply Req_bool_false. intros E. apply eq_0_F2R in E. destruct s; discriminate.
Qed.

Lemma finite_not_nan (z : bf) : is_finite z = true -> is_nan z = false.
Proof. destruct z; auto; discriminate. Qed.

Lemma mult_datum (x y : bf) : ieee_mul b (b_datum x) (b_datum y) (b_datum (Bmult mode_NE x y)).
Proof.
  destruct (is_finite x) eqn:FX, (is_finite y) eqn:FY.
  - rewrite !b_datum_finite by auto. cbn [ieee_mul].
    pose proof (Bmult_correct (fprec b) (femax b) Hp He mode_NE x y) as H.
    unfold rounds_to. rewrite (rounded_eq b _ F), (top_eq b F).
    exists (xorb (Bsign x) (Bsign y)). split; [apply prod_sign|].
    destruct (Rlt_bool _ _) eqn:RB.
    + destruct H as (HR & HF & HS). rewrite FX, FY in HF. cbn [andb] in HF.
      rewrite b_datum_finite by auto. rewrite HR, HS by (now apply finite_not_nan). reflexivity.
    + now apply overflow_datum.
  - destruct x, y; try discriminate; unfold b_datum; cbn [B2SF sf_datum ieee_mul Bmult]; try reflexivity.
    + now rewrite Req_bool_true.
    + rewrite nonzero_finite. now rewrite xorb_comm.
  - destruct x, y; try discriminate; unfold b_datum; cbn [B2SF sf_datum ieee_mul Bmult]; try reflexivity.
    + now rewrite Req_bool_true.
    + now rewrite nonzero_finite.
  - destruct x, y; try discriminate; reflexivity.
Qed.

Lemma quot_sign (x y : bf) : (B2R y <> 0)%R ->
  result_sign (B2R x / B2R y) (xorb (Bsign x) (Bsign y)) (xorb (Bsign x) (Bsign y)).
Proof.
  intros NY. assert (E : (B2R x = B2R x / B2R y * B2R y)%R) by (now field).
  split; [|split; [|auto]]; intros H.
  - destruct (Rtotal_order (B2R x) 0) as [X|[X|X]], (Rtotal_order (B2R y) 0) as [Y|[Y|Y]];
      try contradiction; try (exfalso; nra); rewrite ?(sign_neg _ X), ?(sign_neg _ Y), ?(sign_pos _ X), ?(sign_pos _ Y); auto.
  - destruct (Rtotal_order (B2R x) 0) as [X|[X|X]], (Rtotal_order (B2R y) 0) as [Y|[Y|Y]];
      try contradiction; try (exfalso; nra); rewrite ?(sign_neg _ X), ?(sign_neg _ Y), ?(sign_pos _ X), ?(sign_pos _ Y); auto.
Qed.

Lemma div_datum (x y : bf) : ieee_div b (b_datum x) (b_datum y) (b_datum (Bdiv mode_NE x y)).
Proof.
  destruct (is_finite x) eqn:FX, (is_finite y) eqn:FY.
  - rewrite (b_datum_finite x), (b_datum_finite y) by auto. cbn [ieee_div].
    destruct (Req_bool_spec (B2R y) 0) as [Y0|NY].
    + assert (Y1 : exists s, y = B754_zero s).
      { destruct y as [s|s| |s m e B]; try discriminate; [eauto|]. exfalso.
        cbn in Y0. apply eq_0_F2R in Y0. destruct s; discriminate. }
      destruct Y1 as [s ->]. destruct x as [s'|s'| |s' m e B]; try discriminate; unfold b_datum; cbn [Bdiv B2SF sf_datum B2R Bsign].
      * now rewrite Req_bool_true.
      * now rewrite nonzero_finite.
    + pose proof (Bdiv_correct (fprec b) (femax b) Hp He mode_NE x y NY) as H.
      unfold rounds_to. rewrite (rounded_eq b _ F), (top_eq b F).
      exists (xorb (Bsign x) (Bsign y)). split; [now apply quot_sign|].
      destruct (Rlt_bool _ _) eqn:RB.
      * destruct H as (HR & HF & HS). rewrite FX in HF.
        rewrite b_datum_finite by auto. rewrite HR, HS by (now apply finite_not_nan). reflexivity.
      * now apply overflow_datum.
  - destruct x, y; try discriminate; reflexivity.
  - destruct x, y; try discriminate; reflexivity.
  - destruct x, y; try discriminate; reflexivity.
Qed.

Lemma rounded_finite (z : bf) x : B2R z = rounded b x -> Rlt_bool (Rabs (rounded b x)) (bpow radix2 (bias b + 1)) = true.
Proof.
  intros E. rewrite <- E. apply Rlt_bool_true. rewrite (top_eq b F). apply abs_B2R_lt_emax.
Qed.

Lemma sqrt_datum (x : bf) : ieee_sqrt b (b_datum x) (b_datum (Bsqrt mode_NE x)).
Proof.
  pose proof (Bsqrt_correct (fprec b) (femax b) Hp He mode_NE x) as (HR & HF & HS).
  destruct x as [s|s| |s m e B].
  - unfold b_datum; cbn [B2SF sf_datum ieee_sqrt Bsqrt]. rewrite Rlt_bool_false by lra. rewrite sqrt_0.
    exists s. split; [split; [|split]; intros; auto; lra|]. rewrite rounded_0, Rabs_R0, Rlt_bool_true; auto. apply bpow_gt_0.
  - destruct s; reflexivity.
  - reflexivity.
  - destruct s.
    + unfold b_datum; cbn [B2SF sf_datum ieee_sqrt Bsqrt]. rewrite Rlt_bool_true; [reflexivity|].
      now apply F2R_lt_0.
    + rewrite (b_datum_finite (Bsqrt _ _)) by exact HF. rewrite HR, HS by (now apply finite_not_nan).
      unfold b_datum at 1. cbn [B2SF sf_datum ieee_sqrt]. cbn [Bsign].
      assert (P : (0 < B2R (B754_finite false m e B : bf))%R) by (now apply F2R_gt_0).
      rewrite Rlt_bool_false by (apply Rlt_le; exact P).
      exists false. split.
      * split; [|split]; intros H; auto. exfalso. pose proof (sqrt_pos (F2R (Float radix2 (cond_Zopp false (Z.pos m)) e))). lra.
      * rewrite <- (rounded_eq b _ F) in HR. cbn [B2R] in HR |- *. rewrite (rounded_finite _ _ HR).
        now rewrite (rounded_eq b _ F).
Qed.

(** Comparisons. *)
Lemma lt_datum (x y : bf) : SFltb (B2SF x) (B2SF y) = true <-> ieee_lt (b_datum x) (b_datum y).
Proof.
  destruct (is_finite x) eqn:FX, (is_finite y) eqn:FY.
  - rewrite !b_datum_finite by auto. cbn [ieee_lt]. fold (Bltb x y). rewrite Bltb_correct by auto.
    destruct (Rlt_bool_spec (B2R x) (B2R y)); split; intros; auto; try discriminate; lra.
  - destruct x as [|[]| |], y as [|[]| |]; try discriminate; unfold b_datum; cbn; intuition (try discriminate; auto).
  - destruct x as [|[]| |], y as [|[]| |]; try discriminate; unfold b_datum; cbn; intuition (try discriminate; auto).
  - destruct x as [|[]| |], y as [|[]| |]; try discriminate; unfold b_datum; cbn; intuition (try discriminate; auto).
Qed.
Lemma eq_datum (x y : bf) : SFeqb (B2SF x) (B2SF y) = true <-> ieee_eq (b_datum x) (b_datum y).
Proof.
  destruct (is_finite x) eqn:FX, (is_finite y) eqn:FY.
  - rewrite !b_datum_finite by auto. cbn [ieee_eq]. fold (Beqb x y). rewrite Beqb_correct by auto.
    destruct (Req_bool_spec (B2R x) (B2R y)); split; intros; auto; try discriminate; lra.
  - destruct x as [|[]| |], y as [|[]| |]; try discriminate; unfold b_datum; cbn; intuition (try discriminate; auto).
  - destruct x as [|[]| |], y as [|[]| |]; try discriminate; unfold b_datum; cbn; intuition (try discriminate; auto).
  - destruct x as [|[]| |], y as [|[]| |]; try discriminate; unfold b_datum; cbn; intuition (try discriminate; auto).
Qed.
Lemma le_datum (x y : bf) : SFleb (B2SF x) (B2SF y) = true <-> ieee_le (b_datum x) (b_datum y).
Proof.
  unfold ieee_le. rewrite <- lt_datum, <- eq_datum. unfold SFleb, SFltb, SFeqb.
  destruct (SFcompare (B2SF x) (B2SF y)) as [[]|]; intuition (try discriminate; auto).
Qed.

(** ** Exact results *)

(** An integer multiple of 2^e that fits the significand is representable. *)
Lemma normalize_exact k e z :
  Z.abs k < 2 ^ fprec b -> emin (fprec b) (femax b) <= e -> e <= femax b - fprec b ->
  b_datum (binary_normalize (fprec b) (femax b) Hp He mode_NE k e z)
    = Fin (match k with Z0 => z | Zpos _ => false | Zneg _ => true end) (F2R (Float radix2 k e)).
Proof.
  intros K E1 E2.
  pose proof (binary_normalize_correct (fprec b) (femax b) Hp He mode_NE k e z) as H. cbv zeta in H.
  assert (G : round radix2 (SpecFloat.fexp (fprec b) (femax b)) (round_mode mode_NE) (F2R (Float radix2 k e)) = F2R (Float radix2 k e)).
  { apply round_generic; [apply valid_rnd_round_mode|].
    apply (generic_format_FLT radix2 (emin (fprec b) (femax b)) (fprec b)).
    exists (Float radix2 k e); auto. }
  rewrite G in H. rewrite Rlt_bool_true in H.
  - destruct H as (HR & HF & HS). rewrite b_datum_finite by auto. rewrite HR, HS. f_equal.
    destruct k.
    + rewrite Rcompare_Eq; auto.
    + rewrite Rcompare_Gt; auto. now apply F2R_gt_0.
    + rewrite Rcompare_Lt; auto. now apply F2R_lt_0.
  - rewrite <- F2R_Zabs. apply Rlt_le_trans with (F2R (Float radix2 (2 ^ fprec b) e)).
    + now apply F2R_lt.
    + unfold F2R. cbn [Fnum Fexp]. change 2 with (radix_val radix2) at 1.
      rewrite IZR_Zpower by (pose proof Hp; unfold Prec_gt_0 in *; lia). rewrite <- bpow_plus. apply bpow_le. lia.
Qed.

Lemma bounded_facts m e : bounded (fprec b) (femax b) m e = true ->
  Zpos m < 2 ^ fprec b /\ emin (fprec b) (femax b) <= e <= femax b - fprec b.
Proof.
  intros B. unfold bounded in B. apply andb_prop in B as [C L]. apply Zle_bool_imp_le in L.
  unfold canonical_mantissa, SpecFloat.fexp in C. apply Zeq_bool_eq in C.
  split; [|lia]. apply Z.lt_le_trans with (2 ^ Zpos (digits2_pos m)).
  - rewrite Digits.Zpos_digits2_pos. pose proof (Digits.Zdigits_correct radix2 (Zpos m)) as [_ H]. exact H.
  - apply Z.pow_le_mono_r; lia.
Qed.

Lemma align m e e0 s : e0 <= e ->
  F2R (Float radix2 (cond_Zopp s (Zpos m)) e) = F2R (Float radix2 (cond_Zopp s (Zpos m * 2 ^ (e - e0))) e0).
Proof.
  intros L. unfold F2R. cbn [Fnum Fexp].
  assert (E : (bpow radix2 e = IZR (2 ^ (e - e0)) * bpow radix2 e0)%R).
  { change 2 with (radix_val radix2) at 1. rewrite IZR_Zpower by lia. rewrite <- bpow_plus. f_equal. lia. }
  rewrite E. destruct s; cbn [cond_Zopp]; rewrite ?opp_IZR, ?mult_IZR; ring.
Qed.

Lemma trunc_quot x y : y <> 0 -> Ztrunc (IZR x / IZR y) = Z.quot x y.
Proof. intros N. now apply Ztrunc_div. Qed.

Lemma rem_datum (x y : bf) : exists z : bf,
  SFrem (fprec b) (femax b) (B2SF x) (B2SF y) = B2SF z /\ ieee_rem (b_datum x) (b_datum y) (b_datum z).
Proof.
  destruct x as [sx|sx| |sx mx ex BX], y as [sy|sy| |sy my ey BY];
    try (exists B754_nan; split; reflexivity).
  - exists B754_nan. split; [reflexivity|]. unfold b_datum; cbn [B2SF sf_datum ieee_rem]. now rewrite Req_bool_true.
  - exists (B754_zero sx). split; reflexivity.
  - exists (B754_zero sx). split; [reflexivity|]. unfold b_datum; cbn [B2SF sf_datum ieee_rem].
    rewrite nonzero_finite. f_equal. unfold Rdiv. rewrite Rmult_0_l, Ztrunc_IZR. cbn [IZR]. ring.
  - exists B754_nan. split; [reflexivity|]. unfold b_datum; cbn [B2SF sf_datum ieee_rem]. now rewrite Req_bool_true.
  - exists (B754_finite sx mx ex BX). split; reflexivity.
  - set (e := Z.min ex ey). set (A := Zpos mx * 2 ^ (ex - e)). set (B := Zpos my * 2 ^ (ey - e)).
    set (r := Z.rem A B).
    exists (binary_normalize (fprec b) (femax b) Hp He mode_NE (cond_Zopp sx r) e sx).
    split; [cbn [SFrem B2SF]; apply binary_normalize_equiv|].
    destruct (bounded_facts mx ex BX) as [MX EX]. destruct (bounded_facts my ey BY) as [MY EY].
    assert (PA : 0 < A) by (apply Z.mul_pos_pos; [lia|apply Z.pow_pos_nonneg; lia]).
    assert (PB : 0 < B) by (apply Z.mul_pos_pos; [lia|apply Z.pow_pos_nonneg; lia]).
    assert (R0 : 0 <= r < B) by (apply Z.rem_bound_pos; lia).
    assert (RA : r <= A) by (apply Z.rem_le; lia).
    assert (RK : Z.abs (cond_Zopp sx r) < 2 ^ fprec b).
    { assert (r < 2 ^ fprec b).
      { destruct (Z.min_dec ex ey) as [E|E].
        - assert (A = Zpos mx) by (unfold A, e; rewrite E, Z.sub_diag, Z.pow_0_r; lia). lia.
        - assert (B = Zpos my) by (unfold B, e; rewrite E, Z.sub_diag, Z.pow_0_r; lia). lia. }
      destruct sx; cbn [cond_Zopp]; lia. }
    rewrite normalize_exact by (auto; unfold e; lia).
    unfold b_datum; cbn [B2SF sf_datum ieee_rem]. rewrite nonzero_finite.
    rewrite (align mx ex e sx) by (unfold e; lia). rewrite (align my ey e sy) by (unfold e; lia).
    fold A B. set (a := cond_Zopp sx A). set (c := cond_Zopp sy B).
    assert (NC : c <> 0) by (unfold c; destruct sy; cbn [cond_Zopp]; lia).
    assert (ER : cond_Zopp sx r = Z.rem a c).
    { unfold a, c, r. destruct sx, sy; cbn [cond_Zopp]; rewrite ?Z.rem_opp_l', ?Z.rem_opp_r'; auto. }
    f_equal.
    + destruct (cond_Zopp sx r) eqn:S; auto; destruct sx; cbn [cond_Zopp] in S; auto; lia.
    + rewrite ER. unfold F2R. cbn [Fnum Fexp].
      assert (BP : (bpow radix2 e <> 0)%R) by (apply Rgt_not_eq, bpow_gt_0).
      assert (NC' : IZR c <> 0%R) by (now apply IZR_neq).
      replace (IZR a * bpow radix2 e / (IZR c * bpow radix2 e))%R with (IZR a / IZR c)%R by (now field).
      rewrite trunc_quot by auto.
      assert (ED : IZR a = (IZR c * IZR (Z.quot a c) + IZR (Z.rem a c))%R).
      { rewrite <- mult_IZR, <- plus_IZR. f_equal. apply Z.quot_rem'. }
      rewrite ED. ring.
Qed.

(** ** The operations on patterns *)
Section Patterns.
Variables p q : Z.
Hypothesis (P : pattern b p) (Q : pattern b q).

Lemma add_pattern : pattern b (fl_add b p q) /\ ieee_add b (datum_of b p) (datum_of b q) (datum_of b (fl_add b p q)).
Proof.
  unfold fl_add. rewrite <- !fl_decode by auto. rewrite (add_equiv _ _ Hp He).
  destruct (encode_B b (Bplus mode_NE (fl b p) (fl b q)) F) as [EP ->]. split; [exact EP|].
  rewrite !datum_fl by auto. apply plus_datum.
Qed.
Lemma sub_pattern : pattern b (fl_sub b p q) /\ ieee_sub b (datum_of b p) (datum_of b q) (datum_of b (fl_sub b p q)).
Proof.
  unfold fl_sub. rewrite <- !fl_decode by auto. rewrite (sub_equiv _ _ Hp He).
  destruct (encode_B b (Bminus mode_NE (fl b p) (fl b q)) F) as [EP ->]. split; [exact EP|].
  rewrite !datum_fl by auto. unfold ieee_sub. rewrite <- opp_datum, minus_plus. apply plus_datum.
Qed.
Lemma mul_pattern : pattern b (fl_mul b p q) /\ ieee_mul b (datum_of b p) (datum_of b q) (datum_of b (fl_mul b p q)).
Proof.
  unfold fl_mul. rewrite <- !fl_decode by auto. rewrite (mul_equiv _ _ Hp He).
  destruct (encode_B b (Bmult mode_NE (fl b p) (fl b q)) F) as [EP ->]. split; [exact EP|].
  rewrite !datum_fl by auto. apply mult_datum.
Qed.
Lemma div_pattern : pattern b (fl_div b p q) /\ ieee_div b (datum_of b p) (datum_of b q) (datum_of b (fl_div b p q)).
Proof.
  unfold fl_div. rewrite <- !fl_decode by auto. rewrite (div_equiv _ _ Hp He).
  destruct (encode_B b (Bdiv mode_NE (fl b p) (fl b q)) F) as [EP ->]. split; [exact EP|].
  rewrite !datum_fl by auto. apply div_datum.
Qed.
Lemma rem_pattern : pattern b (fl_rem b p q) /\ ieee_rem (datum_of b p) (datum_of b q) (datum_of b (fl_rem b p q)).
Proof.
  unfold fl_rem. rewrite <- !fl_decode by auto.
  destruct (rem_datum (fl b p) (fl b q)) as (z & -> & H).
  destruct (encode_B b z F) as [EP ->]. split; [exact EP|]. now rewrite !datum_fl by auto.
Qed.
Lemma sqrt_pattern : pattern b (fl_sqrt b p) /\ ieee_sqrt b (datum_of b p) (datum_of b (fl_sqrt b p)).
Proof.
  unfold fl_sqrt. rewrite <- !fl_decode by auto. rewrite (sqrt_equiv _ _ Hp He).
  destruct (encode_B b (Bsqrt mode_NE (fl b p)) F) as [EP ->]. split; [exact EP|].
  rewrite !datum_fl by auto. apply sqrt_datum.
Qed.

Lemma fl_lt_iff : fl_lt b p q = true <-> ieee_lt (datum_of b p) (datum_of b q).
Proof. unfold fl_lt. rewrite <- !fl_decode, !datum_fl by auto. apply lt_datum. Qed.
Lemma fl_gt_iff : fl_gt b p q = true <-> ieee_lt (datum_of b q) (datum_of b p).
Proof. unfold fl_gt. rewrite <- !fl_decode, !datum_fl by auto. apply lt_datum. Qed.
Lemma fl_le_iff : fl_le b p q = true <-> ieee_le (datum_of b p) (datum_of b q).
Proof. unfold fl_le. rewrite <- !fl_decode, !datum_fl by auto. apply le_datum. Qed.
Lemma fl_ge_iff : fl_ge b p q = true <-> ieee_le (datum_of b q) (datum_of b p).
Proof. unfold fl_ge. rewrite <- !fl_decode, !datum_fl by auto. apply le_datum. Qed.
Lemma fl_eq_iff : fl_eq b p q = true <-> ieee_eq (datum_of b p) (datum_of b q).
Proof. unfold fl_eq. rewrite <- !fl_decode, !datum_fl by auto. apply eq_datum. Qed.
Lemma fl_ne_iff : fl_ne b p q = true <-> ~ ieee_eq (datum_of b p) (datum_of b q).
Proof.
  unfold fl_ne. rewrite negb_true_iff. rewrite <- fl_eq_iff. unfold fl_eq.
  destruct (SFeqb _ _); split; intros; congruence.
Qed.
End Patterns.
End Lanes.
