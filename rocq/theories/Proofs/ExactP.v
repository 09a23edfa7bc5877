(** Arithmetic that is exact: numbers on a grid of units. *)
From Coq Require Import ZArith List Bool Lia Reals Lra.
From Flocq Require Import Core.
From Verif.Model Require Import Base FloatLane.
From Verif.Spec Require Import Spec Floats Examples.
From Verif.Proofs Require Import Lib FloatP FloatOpsP.
Import ListNotations.
Open Scope Z_scope.

Notation top b := (2 ^ (sig_width b + 1)).

Lemma grid_format b e z : fsize b -> unit_exponent b e -> Z.abs z <= top b ->
  generic_format radix2 (FLT_exp (1 - bias b - sig_width b) (sig_width b + 1)) (IZR z * bpow radix2 e).
Proof.
  intros F [E1 E2] H.
  assert (W : 0 < sig_width b) by (destruct F as [-> | ->]; reflexivity).
  destruct (Z.eq_dec (Z.abs z) (top b)) as [Q|Q].
  - assert (X : exists c, z = 2 * c /\ Z.abs c < top b).
    { assert (S : top b = 2 * 2 ^ sig_width b) by (rewrite Z.pow_add_r by lia; lia).
      assert (0 < 2 ^ sig_width b) by (apply Z.pow_pos_nonneg; lia).
      destruct (Z.abs_eq_or_opp z) as [A|A].
      - exists (2 ^ sig_width b). lia.
      - exists (- 2 ^ sig_width b). lia. }
    destruct X as (c & -> & C).
    apply generic_format_FLT. apply FLT_spec with (f := Float radix2 c (e + 1)).
    + unfold F2R. cbn [Fnum Fexp]. rewrite bpow_plus, mult_IZR. change (bpow radix2 1) with 2%R. ring.
    + exact C.
    + cbn [Fexp]. lia.
  - apply generic_format_FLT. apply FLT_spec with (f := Float radix2 z e).
    + reflexivity.
    + cbn [Fnum]. change (radix_val radix2) with 2. lia.
    + exact E1.
Qed.

Lemma grid_rounded b e z : fsize b -> unit_exponent b e -> Z.abs z <= top b ->
  rounded b (IZR z * bpow radix2 e) = (IZR z * bpow radix2 e)%R.
Proof.
  intros F E H. unfold rounded. apply round_generic; [apply valid_rnd_N|]. apply grid_format; auto.
Qed.

Lemma grid_small b e z : fsize b -> unit_exponent b e -> Z.abs z <= top b ->
  Rlt_bool (Rabs (IZR z * bpow radix2 e)) (bpow radix2 (bias b + 1)) = true.
Proof.
  intros F [E1 E2] H.
  assert (W : 0 < sig_width b) by (destruct F as [-> | ->]; reflexivity).
  apply Rlt_bool_true. rewrite Rabs_mult, (Rabs_pos_eq (bpow _ _)) by apply bpow_ge_0.
  rewrite <- abs_IZR. apply Rle_lt_trans with (bpow radix2 (sig_width b + 1) * bpow radix2 e)%R.
  - apply Rmult_le_compat_r; [apply bpow_ge_0|].
    rewrite <- IZR_Zpower by lia. apply IZR_le. exact H.
  - rewrite <- bpow_plus. apply bpow_lt. lia.
Qed.

Lemma grid_rounds b e z s r : fsize b -> unit_exponent b e -> Z.abs z <= top b ->
  rounds_to b (IZR z * bpow radix2 e) s r -> exists s', r = Fin s' (IZR z * bpow radix2 e).
Proof.
  intros F E H (s' & _ & ->). rewrite grid_rounded, grid_small by auto. eauto.
Qed.

Lemma add_units b e p q x y : fsize b -> unit_exponent b e ->
  units b e p x -> units b e q y -> Z.abs (x + y) <= top b -> units b e (fl_add b p q) (x + y).
Proof.
  intros F E [P (s & D)] [Q (s' & D')] H.
  destruct (add_pattern b F p q P Q) as [P' A]. split; [exact P'|].
  rewrite D, D' in A. cbn [ieee_add] in A.
  rewrite <- Rmult_plus_distr_r, <- plus_IZR in A.
  exact (grid_rounds b e _ _ _ F E H A).
Qed.

Lemma mul_units b e e' p q x y : fsize b -> unit_exponent b (e + e') ->
  units b e p x -> units b e' q y -> Z.abs (x * y) <= top b -> units b (e + e') (fl_mul b p q) (x * y).
Proof.
  intros F E [P (s & D)] [Q (s' & D')] H.
  destruct (mul_pattern b F p q P Q) as [P' A]. split; [exact P'|].
  rewrite D, D' in A. cbn [ieee_mul] in A.
  replace (IZR x * bpow radix2 e * (IZR y * bpow radix2 e'))%R with (IZR (x * y) * bpow radix2 (e + e'))%R in A
    by (rewrite mult_IZR, bpow_plus; ring).
  exact (grid_rounds b _ _ _ _ F E H A).
Qed.

Lemma zero_units b e : fsize b -> units b e (fl_of_int b 0) 0.
Proof.
  intros F. split; [destruct F as [-> | ->]; split; [discriminate|reflexivity|discriminate|reflexivity]|].
  exists false. rewrite Rmult_0_l. destruct F as [-> | ->].
  - unfold datum_of, magnitude. cbn -[bpow]. now rewrite Rmult_0_l.
  - unfold datum_of, magnitude. cbn -[bpow]. now rewrite Rmult_0_l.
Qed.

Lemma total_abs_nonneg l : 0 <= total_abs l.
Proof. unfold total, total_abs in *. induction l; cbn [fold_right app]; lia. Qed.
Lemma total_le_abs l : Z.abs (total l) <= total_abs l.
Proof. unfold total, total_abs in *. induction l; cbn [fold_right app]; lia. Qed.
Lemma total_app l r : total (l ++ r) = total l + total r.
Proof. unfold total, total_abs in *. induction l; cbn [fold_right app]; lia. Qed.
Lemma total_abs_app l r : total_abs (l ++ r) = total_abs l + total_abs r.
Proof. unfold total, total_abs in *. induction l; cbn [fold_right app]; lia. Qed.

(** A sum from left to right. *)
Lemma fold_units b e : fsize b -> unit_exponent b e ->
  forall ps zs p z, units b e p z -> Forall2 (units b e) ps zs -> Z.abs z + total_abs zs <= top b ->
  units b e (fold_left (fl_add b) ps p) (z + total zs).
Proof.
  intros F E ps. induction ps as [|q ps IH]; intros zs p z P Fa H; inversion Fa as [|? y ? zs' Q Fa']; subst.
  - cbn. rewrite Z.add_0_r. exact P.
  - cbn [fold_left total fold_right]. cbn [total_abs fold_right] in H.
    rewrite Z.add_assoc. fold (total zs'). fold (total_abs zs') in H.
    pose proof (total_abs_nonneg zs').
    apply IH; [|exact Fa'|lia]. apply add_units; auto. lia.
Qed.
