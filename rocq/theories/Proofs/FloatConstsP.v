(** The float constants are the mathematical constants, correctly rounded, and the limits
    of the format (C55). *)
From Coq Require Import ZArith QArith Qreals List Bool Lia Reals Lra.
From Flocq Require Import Core.
From Verif.Model Require Import Base Minimal.
From Verif.Model Require Float FloatConsts.
From Verif.Spec Require Import Spec Floats.
From Verif.Proofs Require Import Lib MinimalP OpsP OpsP2 FloatP FloatOpsP FloatVecP FloatApiP FloatApi2P ConstBoundsP.
Import ListNotations.
Open Scope Z_scope.

(** A real number within half a unit of the last place of [m * 2^e] rounds to it. *)
Lemma rounded_near b m e x : fsize b ->
  2 ^ sig_width b < m -> m < 2 ^ (sig_width b + 1) -> 1 - bias b - sig_width b <= e ->
  ((IZR m - / 2) * bpow radix2 e < x < (IZR m + / 2) * bpow radix2 e)%R ->
  rounded b x = (IZR m * bpow radix2 e)%R.
Proof.
  intros F Hm Hm' He [Hl Hu].
  assert (Bp := bpow_gt_0 radix2 e).
  assert (Sw : 0 <= sig_width b) by (destruct F as [-> | ->]; discriminate).
  assert (Mg : mag radix2 x = (sig_width b + 1 + e) :> Z).
  { apply mag_unique_pos. split.
    - replace (sig_width b + 1 + e - 1) with (sig_width b + e) by ring.
      rewrite bpow_plus. left. eapply Rle_lt_trans; [|exact Hl]. apply Rmult_le_compat_r; [lra|].
      rewrite <- IZR_Zpower by exact Sw. change (Zpower radix2 (sig_width b)) with (2 ^ sig_width b).
      assert (H : 2 ^ sig_width b + 1 <= m) by lia. apply IZR_le in H. rewrite plus_IZR in H. lra.
    - rewrite bpow_plus. eapply Rlt_le_trans; [exact Hu|]. apply Rmult_le_compat_r; [lra|].
      rewrite <- IZR_Zpower by lia. change (Zpower radix2 (sig_width b + 1)) with (2 ^ (sig_width b + 1)).
      assert (H : m + 1 <= 2 ^ (sig_width b + 1)) by lia. apply IZR_le in H. rewrite plus_IZR in H. lra. }
  unfold rounded, round, F2R, scaled_mantissa, cexp. cbn [Fnum Fexp].
  assert (Ce : FLT_exp (1 - bias b - sig_width b) (sig_width b + 1) (mag radix2 x) = e).
  { rewrite Mg. unfold FLT_exp. lia. }
  rewrite Ce. f_equal. f_equal. apply Znearest_imp. rewrite bpow_opp. apply Rabs_def1.
  - apply Rmult_lt_reg_r with (bpow radix2 e); [exact Bp|]. rewrite Rmult_minus_distr_r, Rmult_assoc, Rinv_l by lra. lra.
  - apply Rmult_lt_reg_r with (bpow radix2 e); [exact Bp|]. rewrite Rmult_minus_distr_r, Rmult_assoc, Rinv_l by lra. lra.
Qed.

Lemma bpow_inv k : 0 <= k -> bpow radix2 (- k) = (/ IZR (2 ^ k))%R.
Proof. intros H. rewrite bpow_opp. f_equal. rewrite <- IZR_Zpower by exact H. reflexivity. Qed.

(** The pattern of a positive number with significand [m] and last place [2^-k] stands
    for [x] correctly rounded if rational bounds on [x] lie within half a place. *)
Lemma const_rounds b m k p lo hi x : fsize b ->
  2 ^ sig_width b < m -> m < 2 ^ (sig_width b + 1) -> 0 <= k -> k <= bias b + sig_width b - 1 ->
  datum_of b p = Fin false (IZR m * bpow radix2 (- k)) ->
  (Q2R lo <= x <= Q2R hi)%R ->
  Qle_bool lo (2 * m - 1 # Z.to_pos (2 ^ (k + 1))) = false ->
  Qle_bool (2 * m + 1 # Z.to_pos (2 ^ (k + 1))) hi = false ->
  rounds_to b x false (datum_of b p).
Proof.
  intros F Hm Hm' Hk He D [Hl Hu] Ql Qh.
  assert (P1 : 0 < 2 ^ (k + 1)) by (apply Z.pow_pos_nonneg; lia).
  assert (P0 : (0 < IZR (2 ^ k))%R) by (apply IZR_lt; apply Z.pow_pos_nonneg; lia).
  assert (E2 : IZR (Zpos (Z.to_pos (2 ^ (k + 1)))) = (2 * IZR (2 ^ k))%R).
  { rewrite Z2Pos.id by exact P1. rewrite Z.pow_add_r, mult_IZR by lia. change (IZR (2 ^ 1)) with 2%R. ring. }
  assert (Bl : ((IZR m - / 2) * bpow radix2 (- k) < x)%R).
  { eapply Rlt_le_trans; [|exact Hl]. rewrite bpow_inv by exact Hk.
    destruct (Rlt_le_dec (Q2R (2 * m - 1 # Z.to_pos (2 ^ (k + 1)))) (Q2R lo)) as [G|G].
    - eapply Rle_lt_trans; [|exact G]. unfold Q2R. cbn [Qnum Qden]. rewrite E2, minus_IZR, mult_IZR. right. field. lra.
    - apply Rle_Qle in G. apply Qle_bool_iff in G. congruence. }
  assert (Bh : (x < (IZR m + / 2) * bpow radix2 (- k))%R).
  { eapply Rle_lt_trans; [exact Hu|]. rewrite bpow_inv by exact Hk.
    destruct (Rlt_le_dec (Q2R hi) (Q2R (2 * m + 1 # Z.to_pos (2 ^ (k + 1))))) as [G|G].
    - eapply Rlt_le_trans; [exact G|]. unfold Q2R. cbn [Qnum Qden]. rewrite E2, plus_IZR, mult_IZR. right. field. lra.
    - apply Rle_Qle in G. apply Qle_bool_iff in G. congruence. }
  assert (Rd : rounded b x = (IZR m * bpow radix2 (- k))%R) by (apply rounded_near; [exact F|exact Hm|exact Hm'|lia|split; [exact Bl|exact Bh]]).
  assert (M1 : (1 <= IZR m)%R).
  { apply IZR_le. assert (0 < 2 ^ sig_width b) by (destruct F as [-> | ->]; reflexivity). lia. }
  assert (Xp : (0 < x)%R).
  { eapply Rlt_trans; [|exact Bl]. apply Rmult_lt_0_compat; [lra|apply bpow_gt_0]. }
  exists false. split; [split; [intros; lra|split; [reflexivity|intros; reflexivity]]|].
  rewrite D, Rd, Rlt_bool_true; [reflexivity|]. rewrite Rabs_pos_eq.
  - apply Rlt_le_trans with (IZR (2 ^ (sig_width b + 1)) * bpow radix2 (- k))%R.
    + apply Rmult_lt_compat_r; [apply bpow_gt_0|now apply IZR_lt].
    + change (2 ^ (sig_width b + 1)) with (Zpower radix2 (sig_width b + 1)).
      rewrite IZR_Zpower by (destruct F as [-> | ->]; discriminate). rewrite <- bpow_plus. apply bpow_le.
      assert (sig_width b <= bias b) by (destruct F as [-> | ->]; discriminate). lia.
  - apply Rmult_le_pos; [lra|apply bpow_ge_0].
Qed.

Lemma inv_bounds lo hi x : (0 < Q2R lo)%R -> (Q2R lo <= x <= Q2R hi)%R -> (/ Q2R hi <= / x <= / Q2R lo)%R.
Proof. intros P [L U]. split; apply Rinv_le_contravar; lra. Qed.
Lemma root_bounds lo hi y x : (0 <= lo)%R -> (0 <= hi)%R -> (0 <= x)%R -> (x * x = y -> lo * lo <= y -> y <= hi * hi -> lo <= x <= hi)%R.
Proof.
  intros L H X E A B. subst y. split.
  - destruct (Rle_lt_dec lo x) as [G|G]; [exact G|]. exfalso. assert (x * x < lo * lo)%R by (apply Rmult_le_0_lt_compat; lra). lra.
  - destruct (Rle_lt_dec x hi) as [G|G]; [exact G|]. exfalso. assert (hi * hi < x * x)%R by (apply Rmult_le_0_lt_compat; lra). lra.
Qed.
Ltac q2r := unfold Q2R in *; cbn [Qnum Qden] in *.

Definition lo_PI : Q := (31415926535897932384 # 10000000000000000000).
Definition hi_PI : Q := (31415926535897932385 # 10000000000000000000).
Lemma bounds_PI : (Q2R lo_PI <= PI <= Q2R hi_PI)%R.
Proof.
  pose proof pi_bounds as H. unfold qlo_pi, qhi_pi, lo_PI, hi_PI in *. q2r. lra.
Qed.

Definition lo_FRAC_PI_2 : Q := (15707963267948966192 # 10000000000000000000).
Definition hi_FRAC_PI_2 : Q := (15707963267948966193 # 10000000000000000000).
Lemma bounds_FRAC_PI_2 : (Q2R lo_FRAC_PI_2 <= PI / 2 <= Q2R hi_FRAC_PI_2)%R.
Proof.
  pose proof pi_bounds as H. unfold qlo_pi, qhi_pi, lo_FRAC_PI_2, hi_FRAC_PI_2 in *. q2r. lra.
Qed.

Definition lo_FRAC_PI_3 : Q := (10471975511965977461 # 10000000000000000000).
Definition hi_FRAC_PI_3 : Q := (10471975511965977462 # 10000000000000000000).
Lemma bounds_FRAC_PI_3 : (Q2R lo_FRAC_PI_3 <= PI / 3 <= Q2R hi_FRAC_PI_3)%R.
Proof.
  pose proof pi_bounds as H. unfold qlo_pi, qhi_pi, lo_FRAC_PI_3, hi_FRAC_PI_3 in *. q2r. lra.
Qed.

Definition lo_FRAC_PI_4 : Q := (7853981633974483096 # 10000000000000000000).
Definition hi_FRAC_PI_4 : Q := (7853981633974483097 # 10000000000000000000).
Lemma bounds_FRAC_PI_4 : (Q2R lo_FRAC_PI_4 <= PI / 4 <= Q2R hi_FRAC_PI_4)%R.
Proof.
  pose proof pi_bounds as H. unfold qlo_pi, qhi_pi, lo_FRAC_PI_4, hi_FRAC_PI_4 in *. q2r. lra.
Qed.

Definition lo_FRAC_PI_6 : Q := (5235987755982988730 # 10000000000000000000).
Definition hi_FRAC_PI_6 : Q := (5235987755982988731 # 10000000000000000000).
Lemma bounds_FRAC_PI_6 : (Q2R lo_FRAC_PI_6 <= PI / 6 <= Q2R hi_FRAC_PI_6)%R.
Proof.
  pose proof pi_bounds as H. unfold qlo_pi, qhi_pi, lo_FRAC_PI_6, hi_FRAC_PI_6 in *. q2r. lra.
Qed.

Definition lo_FRAC_PI_8 : Q := (3926990816987241548 # 10000000000000000000).
Definition hi_FRAC_PI_8 : Q := (3926990816987241549 # 10000000000000000000).
Lemma bounds_FRAC_PI_8 : (Q2R lo_FRAC_PI_8 <= PI / 8 <= Q2R hi_FRAC_PI_8)%R.
Proof.
  pose proof pi_bounds as H. unfold qlo_pi, qhi_pi, lo_FRAC_PI_8, hi_FRAC_PI_8 in *. q2r. lra.
Qed.

Definition lo_FRAC_1_PI : Q := (3183098861837906715 # 10000000000000000000).
Definition hi_FRAC_1_PI : Q := (3183098861837906716 # 10000000000000000000).
Lemma bounds_FRAC_1_PI : (Q2R lo_FRAC_1_PI <= 1 / PI <= Q2R hi_FRAC_1_PI)%R.
Proof.
  pose proof pi_bounds as H. apply inv_bounds in H; [|unfold qlo_pi; q2r; lra].
  unfold qlo_pi, qhi_pi, lo_FRAC_1_PI, hi_FRAC_1_PI in *. unfold Rdiv. q2r. lra.
Qed.

Definition lo_FRAC_2_PI : Q := (6366197723675813430 # 10000000000000000000).
Definition hi_FRAC_2_PI : Q := (6366197723675813431 # 10000000000000000000).
Lemma bounds_FRAC_2_PI : (Q2R lo_FRAC_2_PI <= 2 / PI <= Q2R hi_FRAC_2_PI)%R.
Proof.
  pose proof pi_bounds as H. apply inv_bounds in H; [|unfold qlo_pi; q2r; lra].
  unfold qlo_pi, qhi_pi, lo_FRAC_2_PI, hi_FRAC_2_PI in *. unfold Rdiv. q2r. lra.
Qed.

Definition lo_FRAC_2_SQRT_PI : Q := (11283791670955125738 # 10000000000000000000).
Definition hi_FRAC_2_SQRT_PI : Q := (11283791670955125739 # 10000000000000000000).
Lemma bounds_FRAC_2_SQRT_PI : (Q2R lo_FRAC_2_SQRT_PI <= 2 / sqrt PI <= Q2R hi_FRAC_2_SQRT_PI)%R.
Proof.
  pose proof pi_bounds as H. assert (P := PI_RGT_0). assert (S := sqrt_lt_R0 _ P). assert (S2 := sqrt_sqrt _ (Rlt_le _ _ P)).
  pose proof H as I. apply inv_bounds in I; [|unfold qlo_pi; q2r; lra].
  apply root_bounds with (4 * / PI)%R; unfold qlo_pi, qhi_pi, lo_FRAC_2_SQRT_PI, hi_FRAC_2_SQRT_PI in *; q2r; try lra.
  - apply Rmult_le_pos; [lra|]. left. now apply Rinv_0_lt_compat.
  - rewrite <- S2 at 3. field. now apply Rgt_not_eq.
Qed.

Definition lo_SQRT_2 : Q := (14142135623730950488 # 10000000000000000000).
Definition hi_SQRT_2 : Q := (14142135623730950489 # 10000000000000000000).
Lemma bounds_SQRT_2 : (Q2R lo_SQRT_2 <= sqrt 2 <= Q2R hi_SQRT_2)%R.
Proof.
  assert (S := sqrt_pos 2). assert (S2 := sqrt_sqrt 2 ltac:(lra)).
  apply root_bounds with 2%R; unfold lo_SQRT_2, hi_SQRT_2 in *; q2r; lra.
Qed.

Definition lo_FRAC_1_SQRT_2 : Q := (7071067811865475244 # 10000000000000000000).
Definition hi_FRAC_1_SQRT_2 : Q := (7071067811865475245 # 10000000000000000000).
Lemma bounds_FRAC_1_SQRT_2 : (Q2R lo_FRAC_1_SQRT_2 <= 1 / sqrt 2 <= Q2R hi_FRAC_1_SQRT_2)%R.
Proof.
  assert (S := sqrt_lt_R0 2 ltac:(lra)). assert (S2 := sqrt_sqrt 2 ltac:(lra)).
  apply root_bounds with (/ 2)%R; unfold lo_FRAC_1_SQRT_2, hi_FRAC_1_SQRT_2 in *; q2r; try lra.
  - unfold Rdiv. rewrite Rmult_1_l. left. now apply Rinv_0_lt_compat.
  - rewrite <- S2 at 3. field. now apply Rgt_not_eq.
Qed.

Definition lo_E : Q := (27182818284590452353 # 10000000000000000000).
Definition hi_E : Q := (27182818284590452354 # 10000000000000000000).
Lemma bounds_E : (Q2R lo_E <= exp 1 <= Q2R hi_E)%R.
Proof.
  pose proof e_bounds as H. unfold qlo_e, qhi_e, lo_E, hi_E in *. q2r. lra.
Qed.

Definition lo_LOG2_E : Q := (14426950408889634073 # 10000000000000000000).
Definition hi_LOG2_E : Q := (14426950408889634074 # 10000000000000000000).
Lemma bounds_LOG2_E : (Q2R lo_LOG2_E <= ln (exp 1) / ln 2 <= Q2R hi_LOG2_E)%R.
Proof.
  pose proof ln2_bounds as H. apply inv_bounds in H; [|unfold qlo_ln2; q2r; lra].
  rewrite ln_exp. unfold qlo_ln2, qhi_ln2, lo_LOG2_E, hi_LOG2_E in *. unfold Rdiv. q2r. lra.
Qed.

Definition lo_LOG10_E : Q := (4342944819032518276 # 10000000000000000000).
Definition hi_LOG10_E : Q := (4342944819032518277 # 10000000000000000000).
Lemma bounds_LOG10_E : (Q2R lo_LOG10_E <= ln (exp 1) / ln 10 <= Q2R hi_LOG10_E)%R.
Proof.
  pose proof ln10_bounds as H. apply inv_bounds in H; [|unfold qlo_ln10; q2r; lra].
  rewrite ln_exp. unfold qlo_ln10, qhi_ln10, lo_LOG10_E, hi_LOG10_E in *. unfold Rdiv. q2r. lra.
Qed.

Definition lo_LN_2 : Q := (6931471805599453094 # 10000000000000000000).
Definition hi_LN_2 : Q := (6931471805599453095 # 10000000000000000000).
Lemma bounds_LN_2 : (Q2R lo_LN_2 <= ln 2 <= Q2R hi_LN_2)%R.
Proof.
  pose proof ln2_bounds as H. unfold qlo_ln2, qhi_ln2, lo_LN_2, hi_LN_2 in *. q2r. lra.
Qed.

Definition lo_LN_10 : Q := (23025850929940456840 # 10000000000000000000).
Definition hi_LN_10 : Q := (23025850929940456841 # 10000000000000000000).
Lemma bounds_LN_10 : (Q2R lo_LN_10 <= ln 10 <= Q2R hi_LN_10)%R.
Proof.
  pose proof ln10_bounds as H. unfold qlo_ln10, qhi_ln10, lo_LN_10, hi_LN_10 in *. q2r. lra.
Qed.

(** Every lane of a splatted constant. *)
Lemma splat_const t s (Q : datum -> Prop) : float_type t -> pattern (vb t) s -> Q (datum_of (vb t) s) ->
  is_vector t (splat t s) /\ forall i p, lane (splat t s) i p -> Q (datum_of (vb t) p).
Proof.
  intros T P H. split; [now apply splat_vector|]. intros i p L. unfold lane, splat in L.
  apply nth_error_In, repeat_spec in L. now subst p.
Qed.
Lemma const_PI t : float_type t ->
  is_vector t (Float.PI t) /\ forall i p, lane (Float.PI t) i p -> rounds_to (vb t) (PI) false (datum_of (vb t) p).
Proof.
  intros T. unfold Float.PI. apply (splat_const t _ (rounds_to (vb t) (PI) false)); [exact T| |].
  - destruct (float_size t T) as [-> | ->]; (split; [discriminate|reflexivity]).
  - destruct (float_size t T) as [-> | ->].
    + apply (const_rounds 4 13176795 22 _ lo_PI hi_PI); [now left|reflexivity|reflexivity|discriminate|discriminate| |exact bounds_PI|reflexivity|reflexivity].
      reflexivity.
    + apply (const_rounds 8 7074237752028440 51 _ lo_PI hi_PI); [now right|reflexivity|reflexivity|discriminate|discriminate| |exact bounds_PI|reflexivity|reflexivity].
      reflexivity.
Qed.
Lemma const_FRAC_PI_2 t : float_type t ->
  is_vector t (FloatConsts.FRAC_PI_2 t) /\ forall i p, lane (FloatConsts.FRAC_PI_2 t) i p -> rounds_to (vb t) (PI / 2) false (datum_of (vb t) p).
Proof.
  intros T. unfold FloatConsts.FRAC_PI_2. apply (splat_const t _ (rounds_to (vb t) (PI / 2) false)); [exact T| |].
  - destruct (float_size t T) as [-> | ->]; (split; [discriminate|reflexivity]).
  - destruct (float_size t T) as [-> | ->].
    + apply (const_rounds 4 13176795 23 _ lo_FRAC_PI_2 hi_FRAC_PI_2); [now left|reflexivity|reflexivity|discriminate|discriminate| |exact bounds_FRAC_PI_2|reflexivity|reflexivity].
      reflexivity.
    + apply (const_rounds 8 7074237752028440 52 _ lo_FRAC_PI_2 hi_FRAC_PI_2); [now right|reflexivity|reflexivity|discriminate|discriminate| |exact bounds_FRAC_PI_2|reflexivity|reflexivity].
      reflexivity.
Qed.
Lemma const_FRAC_PI_3 t : float_type t ->
  is_vector t (FloatConsts.FRAC_PI_3 t) /\ forall i p, lane (FloatConsts.FRAC_PI_3 t) i p -> rounds_to (vb t) (PI / 3) false (datum_of (vb t) p).
Proof.
  intros T. unfold FloatConsts.FRAC_PI_3. apply (splat_const t _ (rounds_to (vb t) (PI / 3) false)); [exact T| |].
  - destruct (float_size t T) as [-> | ->]; (split; [discriminate|reflexivity]).
  - destruct (float_size t T) as [-> | ->].
    + apply (const_rounds 4 8784530 23 _ lo_FRAC_PI_3 hi_FRAC_PI_3); [now left|reflexivity|reflexivity|discriminate|discriminate| |exact bounds_FRAC_PI_3|reflexivity|reflexivity].
      reflexivity.
    + apply (const_rounds 8 4716158501352294 52 _ lo_FRAC_PI_3 hi_FRAC_PI_3); [now right|reflexivity|reflexivity|discriminate|discriminate| |exact bounds_FRAC_PI_3|reflexivity|reflexivity].
      reflexivity.
Qed.
Lemma const_FRAC_PI_4 t : float_type t ->
  is_vector t (FloatConsts.FRAC_PI_4 t) /\ forall i p, lane (FloatConsts.FRAC_PI_4 t) i p -> rounds_to (vb t) (PI / 4) false (datum_of (vb t) p).
Proof.
  intros T. unfold FloatConsts.FRAC_PI_4. apply (splat_const t _ (rounds_to (vb t) (PI / 4) false)); [exact T| |].
  - destruct (float_size t T) as [-> | ->]; (split; [discriminate|reflexivity]).
  - destruct (float_size t T) as [-> | ->].
    + apply (const_rounds 4 13176795 24 _ lo_FRAC_PI_4 hi_FRAC_PI_4); [now left|reflexivity|reflexivity|discriminate|discriminate| |exact bounds_FRAC_PI_4|reflexivity|reflexivity].
      reflexivity.
    + apply (const_rounds 8 7074237752028440 53 _ lo_FRAC_PI_4 hi_FRAC_PI_4); [now right|reflexivity|reflexivity|discriminate|discriminate| |exact bounds_FRAC_PI_4|reflexivity|reflexivity].
      reflexivity.
Qed.
Lemma const_FRAC_PI_6 t : float_type t ->
  is_vector t (FloatConsts.FRAC_PI_6 t) /\ forall i p, lane (FloatConsts.FRAC_PI_6 t) i p -> rounds_to (vb t) (PI / 6) false (datum_of (vb t) p).
Proof.
  intros T. unfold FloatConsts.FRAC_PI_6. apply (splat_const t _ (rounds_to (vb t) (PI / 6) false)); [exact T| |].
  - destruct (float_size t T) as [-> | ->]; (split; [discriminate|reflexivity]).
  - destruct (float_size t T) as [-> | ->].
    + apply (const_rounds 4 8784530 24 _ lo_FRAC_PI_6 hi_FRAC_PI_6); [now left|reflexivity|reflexivity|discriminate|discriminate| |exact bounds_FRAC_PI_6|reflexivity|reflexivity].
      reflexivity.
    + apply (const_rounds 8 4716158501352294 53 _ lo_FRAC_PI_6 hi_FRAC_PI_6); [now right|reflexivity|reflexivity|discriminate|discriminate| |exact bounds_FRAC_PI_6|reflexivity|reflexivity].
      reflexivity.
Qed.
Lemma const_FRAC_PI_8 t : float_type t ->
  is_vector t (FloatConsts.FRAC_PI_8 t) /\ forall i p, lane (FloatConsts.FRAC_PI_8 t) i p -> rounds_to (vb t) (PI / 8) false (datum_of (vb t) p).
Proof.
  intros T. unfold FloatConsts.FRAC_PI_8. apply (splat_const t _ (rounds_to (vb t) (PI / 8) false)); [exact T| |].
  - destruct (float_size t T) as [-> | ->]; (split; [discriminate|reflexivity]).
  - destruct (float_size t T) as [-> | ->].
    + apply (const_rounds 4 13176795 25 _ lo_FRAC_PI_8 hi_FRAC_PI_8); [now left|reflexivity|reflexivity|discriminate|discriminate| |exact bounds_FRAC_PI_8|reflexivity|reflexivity].
      reflexivity.
    + apply (const_rounds 8 7074237752028440 54 _ lo_FRAC_PI_8 hi_FRAC_PI_8); [now right|reflexivity|reflexivity|discriminate|discriminate| |exact bounds_FRAC_PI_8|reflexivity|reflexivity].
      reflexivity.
Qed.
Lemma const_FRAC_1_PI t : float_type t ->
  is_vector t (FloatConsts.FRAC_1_PI t) /\ forall i p, lane (FloatConsts.FRAC_1_PI t) i p -> rounds_to (vb t) (1 / PI) false (datum_of (vb t) p).
Proof.
  intros T. unfold FloatConsts.FRAC_1_PI. apply (splat_const t _ (rounds_to (vb t) (1 / PI) false)); [exact T| |].
  - destruct (float_size t T) as [-> | ->]; (split; [discriminate|reflexivity]).
  - destruct (float_size t T) as [-> | ->].
    + apply (const_rounds 4 10680707 25 _ lo_FRAC_1_PI hi_FRAC_1_PI); [now left|reflexivity|reflexivity|discriminate|discriminate| |exact bounds_FRAC_1_PI|reflexivity|reflexivity].
      reflexivity.
    + apply (const_rounds 8 5734161139222659 54 _ lo_FRAC_1_PI hi_FRAC_1_PI); [now right|reflexivity|reflexivity|discriminate|discriminate| |exact bounds_FRAC_1_PI|reflexivity|reflexivity].
      reflexivity.
Qed.
Lemma const_FRAC_2_PI t : float_type t ->
  is_vector t (FloatConsts.FRAC_2_PI t) /\ forall i p, lane (FloatConsts.FRAC_2_PI t) i p -> rounds_to (vb t) (2 / PI) false (datum_of (vb t) p).
Proof.
  intros T. unfold FloatConsts.FRAC_2_PI. apply (splat_const t _ (rounds_to (vb t) (2 / PI) false)); [exact T| |].
  - destruct (float_size t T) as [-> | ->]; (split; [discriminate|reflexivity]).
  - destruct (float_size t T) as [-> | ->].
    + apply (const_rounds 4 10680707 24 _ lo_FRAC_2_PI hi_FRAC_2_PI); [now left|reflexivity|reflexivity|discriminate|discriminate| |exact bounds_FRAC_2_PI|reflexivity|reflexivity].
      reflexivity.
    + apply (const_rounds 8 5734161139222659 53 _ lo_FRAC_2_PI hi_FRAC_2_PI); [now right|reflexivity|reflexivity|discriminate|discriminate| |exact bounds_FRAC_2_PI|reflexivity|reflexivity].
      reflexivity.
Qed.
Lemma const_FRAC_2_SQRT_PI t : float_type t ->
  is_vector t (FloatConsts.FRAC_2_SQRT_PI t) /\ forall i p, lane (FloatConsts.FRAC_2_SQRT_PI t) i p -> rounds_to (vb t) (2 / sqrt PI) false (datum_of (vb t) p).
Proof.
  intros T. unfold FloatConsts.FRAC_2_SQRT_PI. apply (splat_const t _ (rounds_to (vb t) (2 / sqrt PI) false)); [exact T| |].
  - destruct (float_size t T) as [-> | ->]; (split; [discriminate|reflexivity]).
  - destruct (float_size t T) as [-> | ->].
    + apply (const_rounds 4 9465531 23 _ lo_FRAC_2_SQRT_PI hi_FRAC_2_SQRT_PI); [now left|reflexivity|reflexivity|discriminate|discriminate| |exact bounds_FRAC_2_SQRT_PI|reflexivity|reflexivity].
      reflexivity.
    + apply (const_rounds 8 5081767996463981 52 _ lo_FRAC_2_SQRT_PI hi_FRAC_2_SQRT_PI); [now right|reflexivity|reflexivity|discriminate|discriminate| |exact bounds_FRAC_2_SQRT_PI|reflexivity|reflexivity].
      reflexivity.
Qed.
Lemma const_SQRT_2 t : float_type t ->
  is_vector t (FloatConsts.SQRT_2 t) /\ forall i p, lane (FloatConsts.SQRT_2 t) i p -> rounds_to (vb t) (sqrt 2) false (datum_of (vb t) p).
Proof.
  intros T. unfold FloatConsts.SQRT_2. apply (splat_const t _ (rounds_to (vb t) (sqrt 2) false)); [exact T| |].
  - destruct (float_size t T) as [-> | ->]; (split; [discriminate|reflexivity]).
  - destruct (float_size t T) as [-> | ->].
    + apply (const_rounds 4 11863283 23 _ lo_SQRT_2 hi_SQRT_2); [now left|reflexivity|reflexivity|discriminate|discriminate| |exact bounds_SQRT_2|reflexivity|reflexivity].
      reflexivity.
    + apply (const_rounds 8 6369051672525773 52 _ lo_SQRT_2 hi_SQRT_2); [now right|reflexivity|reflexivity|discriminate|discriminate| |exact bounds_SQRT_2|reflexivity|reflexivity].
      reflexivity.
Qed.
Lemma const_FRAC_1_SQRT_2 t : float_type t ->
  is_vector t (FloatConsts.FRAC_1_SQRT_2 t) /\ forall i p, lane (FloatConsts.FRAC_1_SQRT_2 t) i p -> rounds_to (vb t) (1 / sqrt 2) false (datum_of (vb t) p).
Proof.
  intros T. unfold FloatConsts.FRAC_1_SQRT_2. apply (splat_const t _ (rounds_to (vb t) (1 / sqrt 2) false)); [exact T| |].
  - destruct (float_size t T) as [-> | ->]; (split; [discriminate|reflexivity]).
  - destruct (float_size t T) as [-> | ->].
    + apply (const_rounds 4 11863283 24 _ lo_FRAC_1_SQRT_2 hi_FRAC_1_SQRT_2); [now left|reflexivity|reflexivity|discriminate|discriminate| |exact bounds_FRAC_1_SQRT_2|reflexivity|reflexivity].
      reflexivity.
    + apply (const_rounds 8 6369051672525773 53 _ lo_FRAC_1_SQRT_2 hi_FRAC_1_SQRT_2); [now right|reflexivity|reflexivity|discriminate|discriminate| |exact bounds_FRAC_1_SQRT_2|reflexivity|reflexivity].
      reflexivity.
Qed.
Lemma const_E t : float_type t ->
  is_vector t (FloatConsts.E t) /\ forall i p, lane (FloatConsts.E t) i p -> rounds_to (vb t) (exp 1) false (datum_of (vb t) p).
Proof.
  intros T. unfold FloatConsts.E. apply (splat_const t _ (rounds_to (vb t) (exp 1) false)); [exact T| |].
  - destruct (float_size t T) as [-> | ->]; (split; [discriminate|reflexivity]).
  - destruct (float_size t T) as [-> | ->].
    + apply (const_rounds 4 11401300 22 _ lo_E hi_E); [now left|reflexivity|reflexivity|discriminate|discriminate| |exact bounds_E|reflexivity|reflexivity].
      reflexivity.
    + apply (const_rounds 8 6121026514868073 51 _ lo_E hi_E); [now right|reflexivity|reflexivity|discriminate|discriminate| |exact bounds_E|reflexivity|reflexivity].
      reflexivity.
Qed.
Lemma const_LOG2_E t : float_type t ->
  is_vector t (FloatConsts.LOG2_E t) /\ forall i p, lane (FloatConsts.LOG2_E t) i p -> rounds_to (vb t) (ln (exp 1) / ln 2) false (datum_of (vb t) p).
Proof.
  intros T. unfold FloatConsts.LOG2_E. apply (splat_const t _ (rounds_to (vb t) (ln (exp 1) / ln 2) false)); [exact T| |].
  - destruct (float_size t T) as [-> | ->]; (split; [discriminate|reflexivity]).
  - destruct (float_size t T) as [-> | ->].
    + apply (const_rounds 4 12102203 23 _ lo_LOG2_E hi_LOG2_E); [now left|reflexivity|reflexivity|discriminate|discriminate| |exact bounds_LOG2_E|reflexivity|reflexivity].
      reflexivity.
    + apply (const_rounds 8 6497320848556798 52 _ lo_LOG2_E hi_LOG2_E); [now right|reflexivity|reflexivity|discriminate|discriminate| |exact bounds_LOG2_E|reflexivity|reflexivity].
      reflexivity.
Qed.
Lemma const_LOG10_E t : float_type t ->
  is_vector t (FloatConsts.LOG10_E t) /\ forall i p, lane (FloatConsts.LOG10_E t) i p -> rounds_to (vb t) (ln (exp 1) / ln 10) false (datum_of (vb t) p).
Proof.
  intros T. unfold FloatConsts.LOG10_E. apply (splat_const t _ (rounds_to (vb t) (ln (exp 1) / ln 10) false)); [exact T| |].
  - destruct (float_size t T) as [-> | ->]; (split; [discriminate|reflexivity]).
  - destruct (float_size t T) as [-> | ->].
    + apply (const_rounds 4 14572505 25 _ lo_LOG10_E hi_LOG10_E); [now left|reflexivity|reflexivity|discriminate|discriminate| |exact bounds_LOG10_E|reflexivity|reflexivity].
      reflexivity.
    + apply (const_rounds 8 7823553867474190 54 _ lo_LOG10_E hi_LOG10_E); [now right|reflexivity|reflexivity|discriminate|discriminate| |exact bounds_LOG10_E|reflexivity|reflexivity].
      reflexivity.
Qed.
Lemma const_LN_2 t : float_type t ->
  is_vector t (FloatConsts.LN_2 t) /\ forall i p, lane (FloatConsts.LN_2 t) i p -> rounds_to (vb t) (ln 2) false (datum_of (vb t) p).
Proof.
  intros T. unfold FloatConsts.LN_2. apply (splat_const t _ (rounds_to (vb t) (ln 2) false)); [exact T| |].
  - destruct (float_size t T) as [-> | ->]; (split; [discriminate|reflexivity]).
  - destruct (float_size t T) as [-> | ->].
    + apply (const_rounds 4 11629080 24 _ lo_LN_2 hi_LN_2); [now left|reflexivity|reflexivity|discriminate|discriminate| |exact bounds_LN_2|reflexivity|reflexivity].
      reflexivity.
    + apply (const_rounds 8 6243314768165359 53 _ lo_LN_2 hi_LN_2); [now right|reflexivity|reflexivity|discriminate|discriminate| |exact bounds_LN_2|reflexivity|reflexivity].
      reflexivity.
Qed.
Lemma const_LN_10 t : float_type t ->
  is_vector t (FloatConsts.LN_10 t) /\ forall i p, lane (FloatConsts.LN_10 t) i p -> rounds_to (vb t) (ln 10) false (datum_of (vb t) p).
Proof.
  intros T. unfold FloatConsts.LN_10. apply (splat_const t _ (rounds_to (vb t) (ln 10) false)); [exact T| |].
  - destruct (float_size t T) as [-> | ->]; (split; [discriminate|reflexivity]).
  - destruct (float_size t T) as [-> | ->].
    + apply (const_rounds 4 9657742 22 _ lo_LN_10 hi_LN_10); [now left|reflexivity|reflexivity|discriminate|discriminate| |exact bounds_LN_10|reflexivity|reflexivity].
      reflexivity.
    + apply (const_rounds 8 5184960683398422 51 _ lo_LN_10 hi_LN_10); [now right|reflexivity|reflexivity|discriminate|discriminate| |exact bounds_LN_10|reflexivity|reflexivity].
      reflexivity.
Qed.
