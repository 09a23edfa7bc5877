(** The constants that describe the float formats (C55). *)
From Coq Require Import ZArith List Bool Lia Reals Lra.
From Coq.Floats Require Import SpecFloat.
From Flocq Require Import Core BinarySingleNaN.
From Verif.Model Require Import Base FloatLane Minimal Float.
From Verif.Model Require FloatConsts.
From Verif.Spec Require Import Spec Floats FloatLimits.
From Verif.Proofs Require Import Lib MinimalP OpsP OpsP2 FloatP FloatOpsP FloatVecP FloatApiP FloatApi2P FloatConstsP.
Import ListNotations.
Open Scope Z_scope.

Lemma representable_B b u : fsize b -> representable b u ->
  exists x : binary_float (fprec b) (femax b), BinarySingleNaN.is_finite x = true /\ B2R x = u.
Proof.
  intros F (p & s & P & D). rewrite (datum_fl b p F P) in D. exists (fl b p).
  destruct (fl b p); cbn in D; try discriminate; injection D as <- <-; split; reflexivity.
Qed.
Lemma largest_B b u : fsize b -> representable b u ->
  (Rabs u <= bpow radix2 (femax b) - bpow radix2 (femax b - fprec b))%R.
Proof.
  intros F H. destruct (representable_B b u F H) as (x & _ & <-).
  apply (abs_B2R_le_emax_minus_prec (fprec b) (femax b) (fprec_gt_0 b)).
Qed.

Ltac pat := split; [discriminate|reflexivity].
Lemma fmax_datum b : fsize b -> pattern b (elem_fmax b) /\ pattern b (elem_fmin b) /\
  datum_of b (elem_fmax b) = Fin false (bpow radix2 (femax b) - bpow radix2 (femax b - fprec b)) /\
  datum_of b (elem_fmin b) = Fin true (- (bpow radix2 (femax b) - bpow radix2 (femax b - fprec b))).
Proof.
  intros F. assert (E : (bpow radix2 (femax b) - bpow radix2 (femax b - fprec b) =
    IZR (2 ^ fprec b - 1) * bpow radix2 (femax b - fprec b))%R).
  { replace (femax b) with (fprec b + (femax b - fprec b)) at 1 by ring. rewrite bpow_plus, minus_IZR.
    change (2 ^ fprec b) with (Zpower radix2 (fprec b)). rewrite IZR_Zpower by (destruct F as [-> | ->]; discriminate). ring. }
  rewrite E. clear E. destruct F as [-> | ->]; (split; [pat|]; split; [pat|]; split; reflexivity).
Qed.

Lemma fmax_largest b : fsize b -> largest b (bpow radix2 (femax b) - bpow radix2 (femax b - fprec b)).
Proof.
  intros F. destruct (fmax_datum b F) as (P & _ & D & _). split.
  - exists (elem_fmax b), false. split; [exact P|exact D].
  - intros v V. eapply Rle_trans; [apply Rle_abs|now apply largest_B].
Qed.
Lemma fmin_smallest b : fsize b -> smallest b (- (bpow radix2 (femax b) - bpow radix2 (femax b - fprec b))).
Proof.
  intros F. destruct (fmax_datum b F) as (_ & P & _ & D). split.
  - exists (elem_fmin b), true. split; [exact P|exact D].
  - intros v V. apply largest_B in V; [|exact F]. apply Rabs_le_inv in V. lra.
Qed.

Lemma min_positive_datum b : fsize b -> pattern b (elem_min_positive b) /\
  exp_field b (elem_min_positive b) = 1 /\ datum_of b (elem_min_positive b) = Fin false (bpow radix2 (1 - bias b)).
Proof.
  intros F.
  assert (E : bpow radix2 (1 - bias b) = (IZR (2 ^ sig_width b) * bpow radix2 (1 - bias b - sig_width b))%R).
  { change (2 ^ sig_width b) with (Zpower radix2 (sig_width b)).
    rewrite IZR_Zpower by (destruct F as [-> | ->]; discriminate). rewrite <- bpow_plus. f_equal. ring. }
  rewrite E. clear E. destruct F as [-> | ->]; (split; [pat|]; split; reflexivity).
Qed.
Lemma min_positive_smallest b : fsize b -> smallest_positive_normal b (bpow radix2 (1 - bias b)).
Proof.
  intros F. destruct (min_positive_datum b F) as (P & X & D). split; [|split].
  - exists (elem_min_positive b), false. rewrite X. split; [exact P|]. split; [discriminate|exact D].
  - apply bpow_gt_0.
  - intros v (p & s & Pp & NZ & Dp) V. unfold datum_of in Dp.
    destruct (exp_field b p =? 2 ^ exp_width b - 1); [destruct (sig_field b p =? 0); discriminate|].
    unfold magnitude in Dp. apply Z.eqb_neq in NZ. rewrite NZ in Dp. apply Z.eqb_neq in NZ.
    assert (W : 0 <= sig_width b) by (destruct F as [-> | ->]; discriminate).
    assert (Sg : 0 <= sig_field b p) by (apply Z.mod_pos_bound; apply Z.pow_pos_nonneg; lia).
    assert (Xp : 1 <= exp_field b p).
    { assert (0 <= exp_field b p); [|lia]. apply Z.mod_pos_bound. apply Z.pow_pos_nonneg; [lia|]. destruct F as [-> | ->]; discriminate. }
    assert (M : (bpow radix2 (1 - bias b) <= IZR (2 ^ sig_width b + sig_field b p) * bpow radix2 (exp_field b p - bias b - sig_width b))%R).
    { replace (1 - bias b) with (sig_width b + (1 - bias b - sig_width b)) by ring. rewrite bpow_plus.
      apply Rmult_le_compat; [apply bpow_ge_0|apply bpow_ge_0| |apply bpow_le; lia].
      rewrite <- IZR_Zpower by exact W. change (Zpower radix2 (sig_width b)) with (2 ^ sig_width b). apply IZR_le. clear - Sg. lia. }
    destruct (sign_field b p); injection Dp as <- <-; [|exact M].
    exfalso. assert (B := bpow_gt_0 radix2 (1 - bias b)). lra.
Qed.

Lemma epsilon_datum b : fsize b -> pattern b (elem_epsilon b) /\
  datum_of b (elem_epsilon b) = Fin false (bpow radix2 (- sig_width b)).
Proof.
  intros F.
  assert (E : bpow radix2 (- sig_width b) = (IZR (2 ^ sig_width b) * bpow radix2 (- sig_width b - sig_width b))%R).
  { change (2 ^ sig_width b) with (Zpower radix2 (sig_width b)).
    rewrite IZR_Zpower by (destruct F as [-> | ->]; discriminate). rewrite <- bpow_plus. f_equal. ring. }
  rewrite E. clear E. destruct F as [-> | ->]; (split; [pat|]; reflexivity).
Qed.
Lemma epsilon_gap b : fsize b -> gap_above_one b (bpow radix2 (- sig_width b)).
Proof.
  intros F. assert (W : 0 <= sig_width b) by (destruct F as [-> | ->]; discriminate).
  assert (B := bpow_gt_0 radix2 (- sig_width b)). split; [exact B|split].
  - assert (E : (1 + bpow radix2 (- sig_width b) = IZR (2 ^ sig_width b + 1) * bpow radix2 (- sig_width b))%R).
    { rewrite plus_IZR. change (2 ^ sig_width b) with (Zpower radix2 (sig_width b)). rewrite IZR_Zpower by exact W.
      rewrite Rmult_plus_distr_r, <- bpow_plus. replace (sig_width b + - sig_width b) with 0 by ring. cbn [bpow]. ring. }
    rewrite E. clear E. exists (bias b * 2 ^ sig_width b + 1), false.
    destruct F as [-> | ->]; (split; [split; [discriminate|reflexivity]|reflexivity]).
  - intros v V V1. destruct (representable_B b v F V) as (x & _ & Xv).
    pose proof (generic_format_B2R (fprec b) (femax b) x) as G. rewrite Xv in G. clear x Xv V.
    destruct (Rle_lt_dec (1 + bpow radix2 (- sig_width b)) v) as [L|L]; [exact L|exfalso].
    assert (Bs : (bpow radix2 (- sig_width b) <= 1)%R) by (apply (bpow_le radix2 _ 0); lia).
    assert (Mg : mag radix2 v = 1 :> Z).
    { apply mag_unique_pos. change (bpow radix2 (1 - 1)) with 1%R. change (bpow radix2 1) with 2%R. lra. }
    unfold generic_format, F2R in G. cbn [Fnum Fexp] in G. unfold cexp in G. rewrite Mg in G.
    assert (Ce : SpecFloat.fexp (fprec b) (femax b) 1 = - sig_width b) by (destruct F as [-> | ->]; reflexivity).
    rewrite Ce in G. set (k := Ztrunc (scaled_mantissa radix2 (SpecFloat.fexp (fprec b) (femax b)) v)) in G. clearbody k.
    assert (S1 : (IZR (2 ^ sig_width b) * bpow radix2 (- sig_width b) = 1)%R).
    { change (2 ^ sig_width b) with (Zpower radix2 (sig_width b)). rewrite IZR_Zpower by exact W. rewrite <- bpow_plus.
      replace (sig_width b + - sig_width b) with 0 by ring. reflexivity. }
    assert (K1 : (IZR (2 ^ sig_width b) < IZR k)%R) by (apply Rmult_lt_reg_r with (bpow radix2 (- sig_width b)); [exact B|lra]).
    assert (K2 : (IZR k < IZR (2 ^ sig_width b + 1))%R).
    { apply Rmult_lt_reg_r with (bpow radix2 (- sig_width b)); [exact B|]. rewrite plus_IZR, Rmult_plus_distr_r. lra. }
    apply lt_IZR in K1, K2. clear - K1 K2. lia.
Qed.

Theorem float_limits t : float_type t ->
  let says (v : vec) (Q : datum -> Prop) :=
    is_vector t v /\ forall i p, lane v i p -> Q (datum_of (vb t) p) in
  says (MAX t) (fun d => exists u, d = Fin false u /\ largest (vb t) u) /\
  says (MIN t) (fun d => exists u, d = Fin true u /\ smallest (vb t) u) /\
  says (MIN_POSITIVE t) (fun d => exists u, d = Fin false u /\ smallest_positive_normal (vb t) u) /\
  says (EPSILON t) (fun d => exists u, d = Fin false u /\ gap_above_one (vb t) u) /\
  says (INFINITY t) (fun d => d = Inf false) /\
  says (NEG_INFINITY t) (fun d => d = Inf true) /\
  says (NAN t) (fun d => d = NaN).
Proof.
  intros T says. pose proof (float_size t T) as F.
  destruct (fmax_datum _ F) as (P1 & P2 & D1 & D2). destruct (min_positive_datum _ F) as (P3 & _ & D3).
  destruct (epsilon_datum _ F) as (P4 & D4). destruct (infinity_datum _ F) as (P5 & D5 & P6 & D6).
  split; [|split; [|split; [|split; [|split; [|split]]]]].
  - apply (splat_const t _ (fun d => exists u, d = Fin false u /\ largest (vb t) u)); [exact T|exact P1|]. eexists. split; [exact D1|now apply fmax_largest].
  - apply (splat_const t _ (fun d => exists u, d = Fin true u /\ smallest (vb t) u)); [exact T|exact P2|]. eexists. split; [exact D2|now apply fmin_smallest].
  - apply (splat_const t _ (fun d => exists u, d = Fin false u /\ smallest_positive_normal (vb t) u)); [exact T|exact P3|]. eexists. split; [exact D3|now apply min_positive_smallest].
  - apply (splat_const t _ (fun d => exists u, d = Fin false u /\ gap_above_one (vb t) u)); [exact T|exact P4|]. eexists. split; [exact D4|now apply epsilon_gap].
  - apply (splat_const t _ (fun d => d = Inf false)); [exact T|exact P5|exact D5].
  - apply (splat_const t _ (fun d => d = Inf true)); [exact T|exact P6|exact D6].
  - apply (splat_const t _ (fun d => d = NaN)); [exact T| |]; destruct F as [-> | ->]; [pat|pat|reflexivity|reflexivity].
Qed.

Theorem float_constants t : float_type t ->
  is_constant t (Float.PI t) (Rtrigo1.PI) /\
  is_constant t (FloatConsts.FRAC_PI_2 t) (Rtrigo1.PI / 2) /\
  is_constant t (FloatConsts.FRAC_PI_3 t) (Rtrigo1.PI / 3) /\
  is_constant t (FloatConsts.FRAC_PI_4 t) (Rtrigo1.PI / 4) /\
  is_constant t (FloatConsts.FRAC_PI_6 t) (Rtrigo1.PI / 6) /\
  is_constant t (FloatConsts.FRAC_PI_8 t) (Rtrigo1.PI / 8) /\
  is_constant t (FloatConsts.FRAC_1_PI t) (1 / Rtrigo1.PI) /\
  is_constant t (FloatConsts.FRAC_2_PI t) (2 / Rtrigo1.PI) /\
  is_constant t (FloatConsts.FRAC_2_SQRT_PI t) (2 / sqrt Rtrigo1.PI) /\
  is_constant t (FloatConsts.SQRT_2 t) (sqrt 2) /\
  is_constant t (FloatConsts.FRAC_1_SQRT_2 t) (1 / sqrt 2) /\
  is_constant t (FloatConsts.E t) (exp 1) /\
  is_constant t (FloatConsts.LOG2_E t) (ln (exp 1) / ln 2) /\
  is_constant t (FloatConsts.LOG10_E t) (ln (exp 1) / ln 10) /\
  is_constant t (FloatConsts.LN_2 t) (ln 2) /\
  is_constant t (FloatConsts.LN_10 t) (ln 10).
Proof.
  intros T. exact ((conj (const_PI t T) (conj (const_FRAC_PI_2 t T) (conj (const_FRAC_PI_3 t T) (conj (const_FRAC_PI_4 t T) (conj (const_FRAC_PI_6 t T) (conj (const_FRAC_PI_8 t T) (conj (const_FRAC_1_PI t T) (conj (const_FRAC_2_PI t T) (conj (const_FRAC_2_SQRT_PI t T) (conj (const_SQRT_2 t T) (conj (const_FRAC_1_SQRT_2 t T) (conj (const_E t T) (conj (const_LOG2_E t T) (conj (const_LOG10_E t T) (conj (const_LN_2 t T) (const_LN_10 t T))))))))))))))))).
Qed.
