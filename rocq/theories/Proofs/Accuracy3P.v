(** Relative errors of products, reciprocals and reciprocal square roots. *)
From Coq Require Import ZArith List Bool Lia Reals Lra.
From Flocq Require Import Core Relative.
From Verif.Model Require Import Base FloatLane Llvm Tables Minimal Float Reduce Math MathTables.
From Verif.Spec Require Import Spec Floats MathSpec Accuracy.
From Verif.Proofs Require Import Lib MinimalP FloatP FloatVecP FloatOpsP FloatApiP FloatApi2P MathP MathApiP MathLlvmP AccuracyP.
Import ListNotations.
Open Scope R_scope.

Section Lane.
Variable b : nat.
Hypothesis F : fsize b.
Notation u := (roundoff b).
Notation fmt := (generic_format radix2 (FLT_exp (1 - bias b - sig_width b) (sig_width b + 1))).

Lemma top0 : (1 + u) ^ 0 * 0 < bpow radix2 (bias b + 1).
Proof. rewrite Rmult_0_r. apply bpow_gt_0. Qed.
Lemma datum_format' p s x : pattern b p -> datum_of b p = Fin s x -> fmt x.
Proof. exact (datum_format b F 0 0 top0 p s x). Qed.
Lemma roundoff_small : 0 < u <= / 16.
Proof.
  clear - F. split; [apply bpow_gt_0|]. unfold roundoff. replace (/ 16) with (bpow radix2 (-4)) by (cbn; lra).
  apply bpow_le. destruct F as [-> | ->]; cbn; lia.
Qed.

Lemma rounded_rel x : bpow radix2 (1 - bias b) <= Rabs x -> exists e, Rabs e <= u /\ rounded b x = x * (1 + e).
Proof.
  intros H. pose proof roundoff_small as U.
  destruct (relative_error_N_FLT_ex radix2 (1 - bias b - sig_width b) (sig_width b + 1) ltac:(destruct F as [-> | ->]; reflexivity)
    (fun x => negb (Z.even x)) x) as (e & E1 & E2).
  { replace (1 - bias b - sig_width b + (sig_width b + 1) - 1)%Z with (1 - bias b)%Z by ring. exact H. }
  exists e. split; [|exact E2]. eapply Rle_trans; [exact E1|]. unfold roundoff. right.
  replace (- (sig_width b + 1) + 1)%Z with (1 + - (sig_width b + 1))%Z by ring. rewrite bpow_plus. change (bpow radix2 1) with 2. field.
Qed.

Lemma rounds_rel x z r : bpow radix2 (1 - bias b) <= Rabs x -> (1 + u) * Rabs x < bpow radix2 (bias b + 1) ->
  rounds_to b x z r -> exists s e, r = Fin s (x * (1 + e)) /\ Rabs e <= u.
Proof.
  intros L H (s & _ & R). destruct (rounded_rel x L) as (e & E1 & E2). rewrite E2 in R. rewrite Rlt_bool_true in R; [eauto|].
  rewrite Rabs_mult. eapply Rle_lt_trans; [|exact H]. rewrite (Rmult_comm (1 + u)). apply Rmult_le_compat_l; [apply Rabs_pos|].
  eapply Rle_trans; [apply Rabs_triang|]. rewrite Rabs_R1. lra.
Qed.

Lemma datum_below p s x : pattern b p -> datum_of b p = Fin s x -> Rabs x < bpow radix2 (bias b + 1).
Proof.
  intros P D. rewrite datum_fl in D by auto.
  destruct (BinarySingleNaN.is_finite (fl b p)) eqn:E.
  - rewrite b_datum_finite in D by exact E. injection D as _ <-.
    destruct F as [-> | ->]; apply BinarySingleNaN.abs_B2R_lt_emax.
  - destruct (fl b p); discriminate.
Qed.
Lemma datum_above p s x : pattern b p -> datum_of b p = Fin s x -> x <> 0 -> bpow radix2 (1 - bias b - sig_width b) <= Rabs x.
Proof.
  intros P D N. apply (generic_format_ge_bpow radix2 (FLT_exp (1 - bias b - sig_width b) (sig_width b + 1))).
  - intros e. unfold FLT_exp. lia.
  - now apply Rabs_pos_lt.
  - apply generic_format_abs. now apply (datum_format' p s).
Qed.

(** ** Reciprocals *)
Lemma recip_rel s x r : bpow radix2 (- bias b) <= Rabs x <= bpow radix2 (bias b - 1) ->
  ieee_div b (Fin false 1) (Fin s x) r -> exists s' z, r = Fin s' z /\ roundings b 1 (/ x) z.
Proof.
  intros [L H] D. cbn [ieee_div] in D. pose proof (bpow_gt_0 radix2 (- bias b)) as G.
  assert (N : x <> 0) by (intros ->; rewrite Rabs_R0 in L; lra).
  rewrite Req_bool_false in D by exact N. replace (1 / x) with (/ x) in D by (field; exact N).
  pose proof roundoff_small as U. pose proof (Rabs_pos_lt x N) as PX.
  apply rounds_rel in D as (s' & e & -> & E).
  - exists s', (/ x * (1 + e)). split; [reflexivity|]. exists (1 + e). split; [reflexivity|]. cbn [pow].
    apply Rabs_le_inv in E. lra.
  - rewrite Rabs_inv. replace (1 - bias b)%Z with (- (bias b - 1))%Z by ring. rewrite bpow_opp. now apply Rinv_le.
  - rewrite Rabs_inv. apply Rle_lt_trans with ((1 + u) * bpow radix2 (bias b)).
    + apply Rmult_le_compat_l; [lra|]. rewrite <- (Z.opp_involutive (bias b)), bpow_opp. apply Rinv_le; [exact G|exact L].
    + replace (bias b + 1)%Z with (1 + bias b)%Z by ring. rewrite bpow_plus. change (bpow radix2 1) with 2.
      apply Rmult_lt_compat_r; [apply bpow_gt_0|lra].
Qed.

(** ** Reciprocal square roots *)
Lemma rsqrt_rel p s x q r : pattern b p -> datum_of b p = Fin s x -> 0 < x ->
  ieee_sqrt b (Fin s x) q -> ieee_div b (Fin false 1) q r ->
  exists s' z, r = Fin s' z /\ Rabs (z * sqrt x - 1) <= 2 * u / (1 - u).
Proof.
  intros P D X Q R. pose proof roundoff_small as U.
  pose proof (datum_below p s x P D) as B. pose proof (datum_above p s x P D ltac:(lra)) as A. rewrite Rabs_pos_eq in A, B by lra.
  cbn [ieee_sqrt] in Q. rewrite Rlt_bool_false in Q by lra. pose proof (sqrt_lt_R0 x X) as SX.
  assert (L : bpow radix2 (2 - bias b) <= sqrt x).
  { rewrite <- (sqrt_square (bpow radix2 (2 - bias b))) by apply bpow_ge_0. apply sqrt_le_1_alt. eapply Rle_trans; [|exact A].
    rewrite <- bpow_plus. apply bpow_le. destruct F as [-> | ->]; cbn; lia. }
  assert (H : sqrt x <= bpow radix2 (bias b - 2)).
  { rewrite <- (sqrt_square (bpow radix2 (bias b - 2))) by apply bpow_ge_0. apply sqrt_le_1_alt. eapply Rle_trans; [apply Rlt_le, B|].
    rewrite <- bpow_plus. apply bpow_le. destruct F as [-> | ->]; cbn; lia. }
  assert (G : forall k, 0 < bpow radix2 k) by (intros; apply bpow_gt_0).
  assert (D2 : forall k, bpow radix2 (k + 1) = 2 * bpow radix2 k).
  { intros k. rewrite bpow_plus. change (bpow radix2 1) with 2. ring. }
  apply rounds_rel in Q as (s1 & e & -> & E).
  - assert (Ee : 1 - u <= 1 + e <= 1 + u) by (apply Rabs_le_inv in E; lra).
    assert (PQ : 0 < sqrt x * (1 + e)) by (apply Rmult_lt_0_compat; lra).
    apply recip_rel in R as (s' & z & -> & f & -> & Fb).
    + exists s', (/ (sqrt x * (1 + e)) * f). split; [reflexivity|]. cbn [pow] in Fb.
      replace (/ (sqrt x * (1 + e)) * f * sqrt x - 1) with ((f - (1 + e)) / (1 + e)) by (field; lra).
      unfold Rdiv. rewrite Rabs_mult, Rabs_inv, (Rabs_pos_eq (1 + e)) by lra.
      apply Rmult_le_compat; [apply Rabs_pos|left; apply Rinv_0_lt_compat; lra| |apply Rinv_le; lra].
      apply Rabs_le. lra.
    + rewrite Rabs_pos_eq by lra. split.
      * apply Rle_trans with (bpow radix2 (2 - bias b) * (1 - u)).
        -- replace (2 - bias b)%Z with (- bias b + 1 + 1)%Z by ring. rewrite !D2. pose proof (G (- bias b)%Z).
           assert (bpow radix2 (- bias b) * u <= bpow radix2 (- bias b) * / 16) by (apply Rmult_le_compat_l; lra). lra.
        -- apply Rmult_le_compat; auto; lra || (left; apply G).
      * apply Rle_trans with (bpow radix2 (bias b - 2) * (1 + u)).
        -- apply Rmult_le_compat; lra.
        -- replace (bias b - 1)%Z with (bias b - 2 + 1)%Z by ring. rewrite !D2. pose proof (G (bias b - 2)%Z).
           assert (bpow radix2 (bias b - 2) * u <= bpow radix2 (bias b - 2) * / 16) by (apply Rmult_le_compat_l; lra). lra.
  - rewrite Rabs_pos_eq by lra. eapply Rle_trans; [|exact L]. apply bpow_le. lia.
  - rewrite Rabs_pos_eq by lra. apply Rle_lt_trans with ((1 + u) * bpow radix2 (bias b - 2)); [apply Rmult_le_compat_l; lra|].
    replace (bias b + 1)%Z with (bias b - 2 + 1 + 1 + 1)%Z by ring. rewrite !D2. pose proof (G (bias b - 2)%Z).
    assert (u * bpow radix2 (bias b - 2) <= / 16 * bpow radix2 (bias b - 2)) by (apply Rmult_le_compat_r; lra). lra.
Qed.

(** ** Products *)
Lemma roundings_0 x : roundings b 0 x x.
Proof. exists 1. cbn [pow]. split; [ring|lra]. Qed.
Lemma pow_lo k k' : (k <= k')%nat -> (1 - u) ^ k' <= (1 - u) ^ k.
Proof.
  intros H. pose proof roundoff_small as U. replace k' with (k + (k' - k))%nat by lia. rewrite pow_add.
  rewrite <- (Rmult_1_r ((1 - u) ^ k)) at 2. apply Rmult_le_compat_l; [apply pow_le; lra|].
  clear H. generalize (k' - k)%nat as m. induction m as [|m IH]; cbn [pow]; [lra|].
  apply Rle_trans with (1 * 1); [|lra]. apply Rmult_le_compat; try lra. apply pow_le. lra.
Qed.
Lemma pow_hi k k' : (k <= k')%nat -> (1 + u) ^ k <= (1 + u) ^ k'.
Proof. intros H. apply Rle_pow; [|exact H]. pose proof roundoff_small. lra. Qed.
Lemma roundings_weaken k k' x z : (k <= k')%nat -> roundings b k x z -> roundings b k' x z.
Proof. intros H (f & E & L & U). exists f. split; [exact E|]. pose proof (pow_lo k k' H). pose proof (pow_hi k k' H). lra. Qed.

Lemma rounded_0 : rounded b 0 = 0.
Proof. unfold rounded. apply round_0. apply valid_rnd_N. Qed.

Lemma mul_step k K s z s' x r e : (S k <= K)%nat -> roundings b k e z -> stays_normal b K (e * x) ->
  ieee_mul b (Fin s z) (Fin s' x) r -> exists s'' z', r = Fin s'' z' /\ roundings b (S k) (e * x) z'.
Proof.
  intros K' (f & -> & Fl & Fu) N M. cbn [ieee_mul] in M. pose proof roundoff_small as U.
  pose proof (pow_lt (1 - u) k ltac:(lra)) as Pl. pose proof (pow_lt (1 + u) k ltac:(lra)) as Pu.
  replace (e * f * x) with (e * x * f) in M by ring.
  destruct N as [N|[N1 N2]].
  - rewrite N, Rmult_0_l in *. destruct M as (s'' & _ & M). rewrite rounded_0, Rabs_R0 in M. rewrite Rlt_bool_true in M by apply bpow_gt_0.
    exists s'', 0. split; [exact M|]. exists f. split; [ring|]. cbn [pow].
    assert ((1 - u) * (1 - u) ^ k <= 1 * (1 - u) ^ k) by (apply Rmult_le_compat_r; lra).
    assert (1 * (1 + u) ^ k <= (1 + u) * (1 + u) ^ k) by (apply Rmult_le_compat_r; lra). lra.
  - pose proof (Rabs_pos (e * x)) as A.
    apply rounds_rel in M as (s'' & d & -> & Hd).
    + apply Rabs_le_inv in Hd. exists s'', (e * x * f * (1 + d)). split; [reflexivity|]. exists (f * (1 + d)). split; [ring|].
      cbn [pow]. rewrite !(Rmult_comm _ (_ ^ k)). split; apply Rmult_le_compat; lra.
    + rewrite Rabs_mult, (Rabs_pos_eq f) by lra. eapply Rle_trans; [exact N1|]. rewrite Rmult_comm. apply Rmult_le_compat_l; [exact A|].
      pose proof (pow_lo k K ltac:(lia)). lra.
    + rewrite Rabs_mult, (Rabs_pos_eq f) by lra. eapply Rle_lt_trans; [|exact N2].
      rewrite <- Rmult_assoc, (Rmult_comm (1 + u)), Rmult_assoc, (Rmult_comm _ (Rabs (e * x))). apply Rmult_le_compat_l; [exact A|].
      apply Rle_trans with ((1 + u) ^ S k); [|now apply pow_hi]. cbn [pow]. apply Rmult_le_compat_l; lra.
Qed.

Lemma fold_mul K : forall ps xs k e s z r, numbers b ps xs -> (k + length ps <= K)%nat -> roundings b k e z ->
  (forall j, (0 < j <= length xs)%nat -> stays_normal b K (e * exact_product (firstn j xs))) ->
  folds b (ieee_mul b) (Fin s z) ps r ->
  exists s' z', r = Fin s' z' /\ roundings b (k + length ps) (e * exact_product xs) z'.
Proof.
  induction ps as [|p ps IH]; intros xs k e s z r N L R H X; inversion N as [|? x ? xs' [P (sx & D)] N']; subst; inversion X as [|? ? ? m ? M X']; subst.
  - exists s, z. split; [reflexivity|]. cbn [length exact_product fold_right]. now rewrite Nat.add_0_r, Rmult_1_r.
  - cbn [length] in *. rewrite D in M. destruct (mul_step k K s z sx x m e) as (s1 & z1 & -> & R1); [lia|exact R| |exact M|].
    { specialize (H 1%nat ltac:(lia)). cbn in H. now rewrite Rmult_1_r in H. }
    destruct (IH xs' (S k) (e * x) s1 z1 r N' ltac:(lia) R1) as (s' & z' & -> & R'); [|exact X'|].
    + intros j J. specialize (H (S j) ltac:(lia)). cbn [firstn exact_product fold_right] in H. now rewrite Rmult_assoc.
    + exists s', z'. split; [reflexivity|]. replace (k + S (length ps))%nat with (S k + length ps)%nat by lia.
      cbn [exact_product fold_right]. now rewrite <- Rmult_assoc.
Qed.

Lemma one_mul s x p m : pattern b p -> datum_of b p = Fin s x -> ieee_mul b (Fin false 1) (Fin s x) m -> exists s', m = Fin s' x.
Proof.
  intros P D M. cbn [ieee_mul] in M. rewrite Rmult_1_l in M. destruct M as (s' & _ & M).
  rewrite (format_small b F 0 0 top0 x s p P D) in M. rewrite Rlt_bool_true in M by now apply (datum_below p s). eauto.
Qed.

Lemma product_head p l xs s r : numbers b (p :: l) xs -> datum_of b p = Fin s (hd 0 xs) ->
  (forall j, (0 < j <= length xs)%nat -> stays_normal b (length l) (exact_product (firstn j xs))) ->
  forall s0, folds b (ieee_mul b) (Fin s0 (hd 0 xs)) l r ->
  exists s' z', r = Fin s' z' /\ roundings b (length l) (exact_product xs) z'.
Proof.
  intros N D H s0 X. inversion N as [|? x ? xs' _ N']; subst. cbn [hd] in *.
  destruct (fold_mul (length l) l xs' 0 x s0 x r N' ltac:(lia) (roundings_0 x)) as (s' & z' & E & R); [|exact X|eauto].
  intros j J. exact (H (S j) ltac:(cbn [length]; lia)).
Qed.

Lemma product_from_one ps xs r : numbers b ps xs ->
  (forall j, (0 < j <= length xs)%nat -> stays_normal b (length ps - 1) (exact_product (firstn j xs))) ->
  folds b (ieee_mul b) (Fin false 1) ps r ->
  exists s' z', r = Fin s' z' /\ roundings b (length ps - 1) (exact_product xs) z'.
Proof.
  intros N H X. destruct ps as [|p l].
  - inversion N; subst. inversion X; subst. exists false, 1. split; [reflexivity|]. apply roundings_0.
  - inversion N as [|? x ? xs' [P (s & D)] N']; subst. inversion X as [|? ? ? m ? M X']; subst. rewrite D in M.
    destruct (one_mul s x p m P D M) as (s1 & ->).
    replace (length (p :: l) - 1)%nat with (length l) in * by (cbn [length]; lia).
    now apply (product_head p l (x :: xs') s r N D H s1).
Qed.

(** ** Multiply and add *)
Lemma mul_add_err sx x sy y sz z m : fmt z ->
  (1 + u) ^ 2 * (Rabs (x * y) + Rabs z + half_least b) < bpow radix2 (bias b + 1) ->
  ieee_fma b (Fin sx x) (Fin sy y) (Fin sz z) m \/ ieee_mul_add b (Fin sx x) (Fin sy y) (Fin sz z) m ->
  exists s w, m = Fin s w /\ Rabs (w - (x * y + z)) <= u * Rabs (x * y + z) + (1 + u) * (u * Rabs (x * y) + half_least b).
Proof.
  intros Z T M. pose proof roundoff_small as U. assert (H0 : 0 < half_least b) by apply bpow_gt_0.
  pose proof (Rabs_pos (x * y)) as A. pose proof (Rabs_pos z) as B. pose proof (Rabs_triang (x * y) z) as TR.
  assert (UA : 0 <= u * Rabs (x * y)) by (apply Rmult_le_pos; lra).
  assert (UZ : 0 <= u * Rabs z) by (apply Rmult_le_pos; lra).
  assert (UH : 0 <= u * half_least b) by (apply Rmult_le_pos; lra).
  assert (UUA : 0 <= u * (u * Rabs (x * y))) by (apply Rmult_le_pos; lra).
  assert (UUZ : 0 <= u * (u * Rabs z)) by (apply Rmult_le_pos; lra).
  assert (UUH : 0 <= u * (u * half_least b)) by (apply Rmult_le_pos; lra).
  assert (US : u * Rabs (x * y + z) <= u * (Rabs (x * y) + Rabs z)) by (apply Rmult_le_compat_l; lra).
  assert (Fin_ok : forall w, Rabs (w - (x * y + z)) <= u * Rabs (x * y + z) + (1 + u) * (u * Rabs (x * y) + half_least b) ->
    (exists s, m = if Rlt_bool (Rabs w) (bpow radix2 (bias b + 1)) then Fin s w else Inf s) ->
    exists s w, m = Fin s w /\ Rabs (w - (x * y + z)) <= u * Rabs (x * y + z) + (1 + u) * (u * Rabs (x * y) + half_least b)).
  { intros w E (s & M'). rewrite Rlt_bool_true in M'; [eauto|]. eapply Rle_lt_trans; [|exact T].
    replace w with ((w - (x * y + z)) + (x * y + z)) by ring. eapply Rle_trans; [apply Rabs_triang|]. cbn [pow]. lra. }
  destruct M as [M|(q & M1 & M2)].
  - cbn [ieee_fma] in M. destruct M as (s & _ & M). apply (Fin_ok (rounded b (x * y + z))); [|eauto].
    pose proof (rounded_err b F (x * y + z)). lra.
  - cbn [ieee_mul] in M1. destruct M1 as (s1 & _ & M1). pose proof (rounded_err b F (x * y)) as E1.
    assert (Q : Rabs (rounded b (x * y)) <= (1 + u) * Rabs (x * y) + half_least b).
    { replace (rounded b (x * y)) with ((rounded b (x * y) - x * y) + x * y) by ring. eapply Rle_trans; [apply Rabs_triang|]. lra. }
    rewrite Rlt_bool_true in M1 by (eapply Rle_lt_trans; [exact Q|]; eapply Rle_lt_trans; [|exact T]; cbn [pow]; lra).
    subst q. cbn [ieee_add] in M2. destruct M2 as (s & _ & M2).
    apply (Fin_ok (rounded b (rounded b (x * y) + z))); [|eauto].
    destruct (rounded_sum b F 0 0 top0 (rounded b (x * y)) z) as (e & Ee & ->); [|exact Z|].
    { unfold rounded. apply generic_format_round; [|apply valid_rnd_N]. apply FLT_exp_valid. destruct F as [-> | ->]; reflexivity. }
    set (q := rounded b (x * y)) in *. replace ((q + z) * (1 + e) - (x * y + z)) with ((q - x * y) + e * (q + z)) by ring.
    eapply Rle_trans; [apply Rabs_triang|]. rewrite Rabs_mult.
    assert (Rabs e * Rabs (q + z) <= u * (Rabs (q - x * y) + Rabs (x * y + z))).
    { apply Rmult_le_compat; auto using Rabs_pos. replace (q + z) with ((q - x * y) + (x * y + z)) by ring. apply Rabs_triang. }
    assert (u * Rabs (q - x * y) <= u * (u * Rabs (x * y) + half_least b)) by (apply Rmult_le_compat_l; lra). lra.
Qed.

(** Whoever multiplies and adds with two roundings gets no nearer. *)
Lemma mul_add_nearest sx x sy y sz z s w m : 
  ieee_fma b (Fin sx x) (Fin sy y) (Fin sz z) (Fin s w) \/ ieee_mul_add b (Fin sx x) (Fin sy y) (Fin sz z) (Fin s w) ->
  ieee_mul_add b (Fin sx x) (Fin sy y) (Fin sz z) m ->
  forall s' w', m = Fin s' w' -> Rabs (w - (x * y + z)) <= Rabs (w' - (x * y + z)).
Proof.
  assert (V : Valid_exp (FLT_exp (1 - bias b - sig_width b) (sig_width b + 1))) by (apply FLT_exp_valid; destruct F as [-> | ->]; reflexivity).
  assert (R : forall v zs s w, rounds_to b v zs (Fin s w) -> w = rounded b v).
  { intros v zs s0 w0 (s1 & _ & E). destruct (Rlt_bool _ _); congruence. }
  assert (Q : forall s0 w0, ieee_mul_add b (Fin sx x) (Fin sy y) (Fin sz z) (Fin s0 w0) -> w0 = rounded b (rounded b (x * y) + z)).
  { intros s0 w0 (q & M1 & M2). cbn [ieee_mul] in M1. destruct M1 as (s1 & _ & M1).
    destruct (Rlt_bool (Rabs (rounded b (x * y))) (bpow radix2 (bias b + 1))); subst q; cbn [ieee_add] in M2; [|discriminate].
    exact (R _ _ _ _ M2). }
  intros M M' s' w' ->. apply Q in M'. subst w'. destruct M as [M|M].
  - cbn [ieee_fma] in M. apply R in M. subst w. apply round_N_pt; [exact V|]. apply generic_format_round; [exact V|apply valid_rnd_N].
  - apply Q in M. subst w. lra.
Qed.
End Lane.

Theorem recpre_accuracy t v : float_type t -> is_vector t v ->
  exists r, recpre t v = Ok r /\
    forall i p s x, lane v i p -> datum_of (vb t) p = Fin s x ->
      bpow radix2 (- bias (vb t)) <= Rabs x <= bpow radix2 (bias (vb t) - 1) ->
      exists c s' z, lane r i c /\ datum_of (vb t) c = Fin s' z /\ roundings (vb t) 1 (/ x) z.
Proof.
  intros T V. destruct (proj1 (float_estimates t v T V)) as (r & E & _ & L). exists r. split; [exact E|].
  intros i p s x I D B. destruct (L i p I) as (c & C & H). rewrite D in H.
  destruct (recip_rel (vb t) (float_size t T) s x _ B H) as (s' & z & E' & R). eauto 6.
Qed.

Theorem rsqrte_accuracy t v : float_type t -> is_vector t v ->
  exists r, rsqrte t v = Ok r /\
    forall i p s x, lane v i p -> datum_of (vb t) p = Fin s x -> 0 < x ->
      exists c s' z, lane r i c /\ datum_of (vb t) c = Fin s' z /\
        Rabs (z * sqrt x - 1) <= 2 * roundoff (vb t) / (1 - roundoff (vb t)).
Proof.
  intros T V. destruct (proj2 (float_estimates t v T V)) as (r & E & _ & L). exists r. split; [exact E|].
  intros i p s x I D X. destruct (L i p I) as (c & C & q & H1 & H2). rewrite D in H1.
  destruct (rsqrt_rel (vb t) (float_size t T) p s x q _ (is_vector_lane t v i p V I) D X H1 H2) as (s' & z & E' & R). eauto 6.
Qed.

Theorem product_accuracy tg t v xs : float_type t -> is_vector t v -> numbers (vb t) v xs ->
  (forall j, (0 < j <= length xs)%nat -> stays_normal (vb t) (vn t - 1) (exact_product (firstn j xs))) ->
  exists r s z, fproduct tg t v = Ok r /\ datum_of (vb t) r = Fin s z /\ roundings (vb t) (vn t - 1) (exact_product xs) z.
Proof.
  intros T V N H. destruct (proj2 (float_reductions tg t v T V)) as (r & E & _ & A & B).
  pose proof (proj1 V) as L. rewrite <- L in *. exists r.
  enough (X : exists s z, datum_of (vb t) r = Fin s z /\ roundings (vb t) (length v - 1) (exact_product xs) z).
  { destruct X as (s & z & X). exists s, z. split; [exact E|exact X]. }
  pose proof (float_size t T) as F.
  assert (D : {t_arch tg = Aarch64} + {t_arch tg <> Aarch64}) by decide equality. destruct D as [D|D].
  - destruct (B D) as (p & l & -> & X). inversion N as [|? x ? xs' [P (s & DP)] N']; subst.
    rewrite DP in X. replace (length (p :: l) - 1)%nat with (length l) in * by (cbn [length]; lia).
    exact (product_head (vb t) F p l (x :: xs') s _ N DP H s X).
  - exact (product_from_one (vb t) F v xs _ N H (A D)).
Qed.

Theorem iter_product_accuracy t vs i ps xs : float_type t -> Forall (is_vector t) vs -> (i < vn t)%nat ->
  Forall2 (fun v p => lane v i p) vs ps -> numbers (vb t) ps xs ->
  (forall j, (0 < j <= length xs)%nat -> stays_normal (vb t) (length vs - 1) (exact_product (firstn j xs))) ->
  exists c s z, lane (iter_product t vs) i c /\ datum_of (vb t) c = Fin s z /\ roundings (vb t) (length vs - 1) (exact_product xs) z.
Proof.
  intros T V I P N H. destruct (float_iter_reductions t vs T V) as (_ & _ & X). destruct (X i ps I P) as (_ & c & C & Fo).
  assert (LE : length vs = length ps) by (clear - P; induction P; cbn [length]; congruence). rewrite LE in *.
  destruct (product_from_one (vb t) (float_size t T) ps xs _ N H Fo) as (s & z & E & R). exists c, s, z. auto.
Qed.

Theorem mul_adde_lanes tg t X S : In t math_types -> works_lanewise X S -> follows_llvm S ->
  let d := datum_of (vb t) in
  forall x y z, is_vector t x -> is_vector t y -> is_vector t z ->
     exists r, Math.mul_adde X tg t x y z = Some r /\
       lanewise3 t x y z r (fun a b c p =>
         ieee_fma (vb t) (d a) (d b) (d c) (d p) \/ ieee_mul_add (vb t) (d a) (d b) (d c) (d p)).
Proof.
  intros Ht W L d x y z Hx Hy Hz. pose proof (MathApiP.math_type_float t Ht) as Hf. pose proof (float_size t Hf) as Hs.
  destruct (MathApiP.mul_adde_method tg t Ht) as [MA M3].
  assert (t_arch tg = S390x \/ t_arch tg <> S390x) as [E3|N3] by (destruct (t_arch tg); auto; right; discriminate).
  - destruct (M3 E3 X x y z Hx Hy Hz) as (r & Er & R & A).
    exists r. split; [exact Er|]. split; [exact R|]. intros i a b c La Lb Lc.
    destruct (A i a b c La Lb Lc) as (p & Lp & Hp). exists p. split; [exact Lp|]. right. exact Hp.
  - destruct (MA N3) as (f & F1 & F2 & F3 & M). destruct (M X S W x y z Hx Hy Hz) as (r & Er & R & A).
    exists r. split; [exact Er|]. split; [exact R|]. intros i a b c La Lb Lc.
    destruct (A i a b c La Lb Lc) as (p & Lp & ->). exists (l3 S f a b c). split; [exact Lp|].
    destruct (L f F3) as (_ & _ & _ & LA); [now rewrite F2|]. rewrite F2 in LA.
    apply LA; auto; unfold lane_pattern; rewrite F2.
    + exact (is_vector_lane t x i a Hx La).
    + exact (is_vector_lane t y i b Hy Lb).
    + exact (is_vector_lane t z i c Hz Lc).
Qed.

Theorem mul_adde_accuracy tg t X S : In t math_types -> works_lanewise X S -> follows_llvm S ->
  forall x y z, is_vector t x -> is_vector t y -> is_vector t z ->
  exists r, Math.mul_adde X tg t x y z = Some r /\
    forall i p q o sp sq so a c d, lane x i p -> lane y i q -> lane z i o ->
      datum_of (vb t) p = Fin sp a -> datum_of (vb t) q = Fin sq c -> datum_of (vb t) o = Fin so d ->
      let u := roundoff (vb t) in let h := half_least (vb t) in
      (1 + u) ^ 2 * (Rabs (a * c) + Rabs d + h) < bpow radix2 (bias (vb t) + 1) ->
      exists m s w, lane r i m /\ datum_of (vb t) m = Fin s w /\
        Rabs (w - (a * c + d)) <= u * Rabs (a * c + d) + (1 + u) * (u * Rabs (a * c) + h) /\
        forall s' w', ieee_mul_add (vb t) (Fin sp a) (Fin sq c) (Fin so d) (Fin s' w') ->
          Rabs (w - (a * c + d)) <= Rabs (w' - (a * c + d)).
Proof.
  intros IM W Fo x y z VX VY VZ.
  destruct (mul_adde_lanes tg t X S IM W Fo x y z VX VY VZ) as (r & E & _ & L).
  exists r. split; [exact E|]. intros i p q o sp sq so a c d I J K Dp Dq Do u h B.
  assert (T : float_type t) by (apply math_type_float; exact IM).
  destruct (L i p q o I J K) as (m & Lm & H). rewrite Dp, Dq, Do in H.
  destruct (mul_add_err (vb t) (float_size t T) sp a sq c so d _
    (datum_format' (vb t) (float_size t T) o so d (is_vector_lane t z i o VZ K) Do) B H) as (s & w & E' & R). exists m, s, w.
  split; [exact Lm|]. split; [exact E'|]. split; [exact R|]. rewrite E' in H. intros s' w' M.
  now apply (mul_add_nearest (vb t) (float_size t T) sp a sq c so d s w _ H M s').
Qed.
