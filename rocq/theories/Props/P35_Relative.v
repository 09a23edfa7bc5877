(** C82: how accurate products, reciprocals, reciprocal square roots and mul_adde are. *)
From Coq Require Import ZArith List Bool Lia Reals Lra.
From Flocq Require Import Core.
From Verif.Model Require Import Base FloatLane Tables Float Reduce Math MathTables.
From Verif.Spec Require Import Spec Floats MathSpec Accuracy.
From Verif.Proofs Require Import MathLlvmP Accuracy3P.
From Verif.Props Require Import Tac Targets P15_Math.
Import ListNotations.
Open Scope Z_scope.

(** C82: recpre is within one rounding of 1 / x if that is no subnormal number and not too large. *)
Theorem C82_recpre : forall t v,
  float_type t -> is_vector t v ->
  exists r, recpre t v = Ok r /\
    forall i p s x, lane v i p -> datum_of (vb t) p = Fin s x ->
      (bpow radix2 (- bias (vb t)) <= Rabs x <= bpow radix2 (bias (vb t) - 1))%R ->
      exists c s' z, lane r i c /\ datum_of (vb t) c = Fin s' z /\ roundings (vb t) 1 (/ x) z.
Proof. exact recpre_accuracy. Qed.
Print Assumptions C82_recpre.

(** C82: the condition is needed: 1 / x is infinite for the smallest numbers. *)
Theorem C82_recpre_any_refuted : exists p s x, datum_of 4 p = Fin s x /\ (0 < x)%R /\
  recpre f32x2 [p; p] = Ok [0x7f800000; 0x7f800000] /\ datum_of 4 0x7f800000 = Inf false.
Proof.
  exists 1, false, (bpow radix2 (-149)). split; [unfold datum_of, magnitude; cbn -[bpow]; f_equal; change (1 * bpow radix2 (-149) = bpow radix2 (-149))%R; ring|].
  split; [apply bpow_gt_0|]. split; [vm_compute; reflexivity|reflexivity].
Qed.
Print Assumptions C82_recpre_any_refuted.

(** C82: rsqrte of every positive finite number has a relative error of little more than two roundings. *)
Theorem C82_rsqrte : forall t v,
  float_type t -> is_vector t v ->
  exists r, rsqrte t v = Ok r /\
    forall i p s x, lane v i p -> datum_of (vb t) p = Fin s x -> (0 < x)%R ->
      exists c s' z, lane r i c /\ datum_of (vb t) c = Fin s' z /\
        (Rabs (z * sqrt x - 1) <= 2 * roundoff (vb t) / (1 - roundoff (vb t)))%R.
Proof. exact rsqrte_accuracy. Qed.
Print Assumptions C82_rsqrte.

(** C82: the product of the lanes is within lanes - 1 roundings of the exact one, on every target, as long as the
    products of the first lanes are normal numbers (or zero). *)
Theorem C82_product : forall tg t v xs,
  float_type t -> is_vector t v -> numbers (vb t) v xs ->
  (forall j, (0 < j <= length xs)%nat -> stays_normal (vb t) (vn t - 1) (exact_product (firstn j xs))) ->
  exists r s z, fproduct tg t v = Ok r /\ datum_of (vb t) r = Fin s z /\
    roundings (vb t) (vn t - 1) (exact_product xs) z.
Proof. exact product_accuracy. Qed.
Print Assumptions C82_product.

(** C82: and so for every lane of the product of an iterator of vectors. *)
Theorem C82_iter : forall t vs i ps xs,
  float_type t -> Forall (is_vector t) vs -> (i < vn t)%nat ->
  Forall2 (fun v p => lane v i p) vs ps -> numbers (vb t) ps xs ->
  (forall j, (0 < j <= length xs)%nat -> stays_normal (vb t) (length vs - 1) (exact_product (firstn j xs))) ->
  exists c s z, lane (iter_product t vs) i c /\ datum_of (vb t) c = Fin s z /\
    roundings (vb t) (length vs - 1) (exact_product xs) z.
Proof. exact iter_product_accuracy. Qed.
Print Assumptions C82_iter.

(** C82: mul_adde has a bounded error on every target, and is at least as near to the exact value as a product and a
    sum with a rounding each, as its documentation says. *)
Theorem C82_mul_adde : forall tg t X S,
  In t math_types -> works_lanewise X S -> follows_llvm S ->
  forall x y z, is_vector t x -> is_vector t y -> is_vector t z ->
  exists r, Math.mul_adde X tg t x y z = Some r /\
    forall i p q o sp sq so a c d, lane x i p -> lane y i q -> lane z i o ->
      datum_of (vb t) p = Fin sp a -> datum_of (vb t) q = Fin sq c -> datum_of (vb t) o = Fin so d ->
      let u := roundoff (vb t) in let h := half_least (vb t) in
      ((1 + u) ^ 2 * (Rabs (a * c) + Rabs d + h) < bpow radix2 (bias (vb t) + 1))%R ->
      exists m s w, lane r i m /\ datum_of (vb t) m = Fin s w /\
        (Rabs (w - (a * c + d)) <= u * Rabs (a * c + d) + (1 + u) * (u * Rabs (a * c) + h))%R /\
        forall s' w', ieee_mul_add (vb t) (Fin sp a) (Fin sq c) (Fin so d) (Fin s' w') ->
          (Rabs (w - (a * c + d)) <= Rabs (w' - (a * c + d)))%R.
Proof. exact mul_adde_accuracy. Qed.
Print Assumptions C82_mul_adde.

Lemma three : datum_of 4 0x40400000 = Fin false 3%R.
Proof. unfold datum_of, magnitude. cbn -[bpow]. f_equal. change (IZR 12582912 * bpow radix2 (-22) = 3)%R. cbn. lra. Qed.
Lemma five : datum_of 4 0x40a00000 = Fin false 5%R.
Proof. unfold datum_of, magnitude. cbn -[bpow]. f_equal. change (IZR 10485760 * bpow radix2 (-21) = 5)%R. cbn. lra. Qed.

Example C82_example :
  float_type f32x2 /\ is_vector f32x2 [0x40400000; 0x40a00000] /\
  recpre f32x2 [0x40400000; 0x40a00000] = Ok [0x3eaaaaab; 0x3e4ccccd] /\
  rsqrte f32x2 [0x40400000; 1] = Ok [0x3f13cd3a; 0x64b504f3] /\
  (bpow radix2 (- bias 4) <= Rabs 3 <= bpow radix2 (bias 4 - 1))%R /\
  numbers 4 [0x40400000; 0x40a00000] [3; 5]%R /\
  (forall j, (0 < j <= 2)%nat -> stays_normal 4 1 (exact_product (firstn j [3; 5]%R))) /\
  fproduct aarch64_neon f32x2 [0x40400000; 0x40a00000] = Ok 0x41700000 /\
  In f32x2 math_types /\ works_lanewise ref_externals ref_lanes /\ follows_llvm ref_lanes /\
  mul_adde ref_externals s390x f32x2 [0x40400000; 0] [0x40a00000; 0] [0x40a00000; 0] = Some [0x41a00000; 0] /\
  ((1 + roundoff 4) ^ 2 * (Rabs (3 * 5) + Rabs 5 + half_least 4) < bpow radix2 (bias 4 + 1))%R.
Proof.
  assert (U : roundoff 4 = (/ 16777216)%R) by (unfold roundoff; cbn; lra).
  assert (B : (bpow radix2 (1 - bias 4) <= / 1024)%R).
  { replace (/ 1024)%R with (bpow radix2 (-10)) by (cbn; lra). apply bpow_le. cbn; lia. }
  assert (B' : (bpow radix2 (- bias 4) <= / 1024)%R).
  { replace (/ 1024)%R with (bpow radix2 (-10)) by (cbn; lra). apply bpow_le. cbn; lia. }
  assert (B2 : (1024 <= bpow radix2 (bias 4 - 1))%R).
  { replace 1024%R with (bpow radix2 10) by (cbn; lra). apply bpow_le. cbn; lia. }
  assert (B3 : (1024 <= bpow radix2 (bias 4 + 1))%R).
  { replace 1024%R with (bpow radix2 10) by (cbn; lra). apply bpow_le. cbn; lia. }
  split; [repeat split; auto; cbn; lia|]. split; [isv|]. split; [vm_compute; reflexivity|]. split; [vm_compute; reflexivity|].
  split; [rewrite Rabs_pos_eq by lra; lra|].
  split. { constructor; [split; [split; [discriminate|reflexivity]|]; exists false; exact three|].
           constructor; [split; [split; [discriminate|reflexivity]|]; exists false; exact five|constructor]. }
  split. { intros j J. right. assert (j = 1 \/ j = 2)%nat as [-> | ->] by lia; cbn [firstn exact_product fold_right pow];
    rewrite Rabs_pos_eq by lra; rewrite U; lra. }
  split; [vm_compute; reflexivity|]. destruct C50_example as (W & L & _ & I & _). split; [exact I|]. split; [exact W|]. split; [exact L|].
  split; [vm_compute; reflexivity|].
  rewrite U, !Rabs_pos_eq by lra. assert (half_least 4 <= 1)%R.
  { change 1%R with (bpow radix2 0). apply bpow_le. cbn; lia. }
  cbn [pow]. lra.
Qed.
