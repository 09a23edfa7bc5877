(** The random number generators: what the seeds of the example lead to. *)
From Coq Require Import ZArith List Bool Lia Reals.
From Verif.Model Require Import Base FloatLane Llvm Tables Minimal Ops ExRandom.
From Verif.Spec Require Import Spec Floats Tausworthe.
From Verif.Proofs Require Import Lib FloatP FloatOpsP OpsP2 RotateP ExRandomP ExRandomMainP.
Import ListNotations.
Open Scope Z_scope.

Lemma four_dead g x z n a : of_lfsr113 g -> obeys g x -> started_by g x z -> number_at g x n a ->
  0 <= z < 2 ^ (32 - Z.of_nat (degree g)) -> a = 0.
Proof. intros [-> | [-> | [-> | ->]]] O S N Z; eapply dead_forever; eauto; cbn; lia. Qed.
Lemma four_alive g x z n a : of_lfsr113 g -> obeys g x -> started_by g x z -> number_at g x n a ->
  2 ^ (32 - Z.of_nat (degree g)) <= z < 2 ^ 32 -> 2 ^ (32 - Z.of_nat (degree g)) <= a.
Proof. intros [-> | [-> | [-> | ->]]] O S N Z; eapply alive_forever; eauto; cbn; lia. Qed.

Lemma thread_rng_draws n j p : nth_error (fst (gens n thread_rng)) j = Some p ->
  exists x1 x2 x3 b c d,
    obeys lfsr1 x1 /\ number_at lfsr1 x1 (S j) b /\
    obeys lfsr2 x2 /\ number_at lfsr2 x2 (S j) c /\
    obeys lfsr3 x3 /\ number_at lfsr3 x3 (S j) d /\
    fraction p (Z.lxor (Z.lxor b c) d mod 2 ^ 23).
Proof.
  intros E. destruct (scalar_draws 1 n j p) as (z0 & z1 & z2 & z3 & v & S & L & F); [now split|exact E|].
  destruct L as (x0 & x1 & x2 & x3 & a & b & c & d & H1 & H2 & H3 & H4 & H5 & H6 & H7 & H8 & H9 & H10 & H11 & H12 & ->).
  destruct S as [-> _].
  assert (a = 0) by (apply (four_dead lfsr0 x0 1 (S j)); auto; [now left|cbn; lia]). subst a.
  rewrite Z.lxor_0_l in F. exists x1, x2, x3, b, c, d. auto 10.
Qed.

Lemma shifted_by_two x n v v' : number_at lfsr1 x n v -> number_at lfsr1 x (S n) v' ->
  v' mod 2 ^ 23 = (4 * (v mod 2 ^ 23)) mod 2 ^ 23 + v' mod 4.
Proof.
  intros [P A] [Q B].
  assert (E : forall m, 2 <= m < 32 -> Z.testbit v' m = Z.testbit v (m - 2)).
  { intros m M. specialize (B (Z.to_nat (31 - m)) ltac:(lia)). specialize (A (Z.to_nat (33 - m)) ltac:(lia)).
    rewrite Z2Nat.id in A, B by lia. replace (31 - (31 - m)) with m in B by lia.
    replace (31 - (33 - m)) with (m - 2) in A by lia. rewrite A, B. f_equal. cbn [step lfsr1]. lia. }
  assert (K : v' mod 2 ^ 23 = Z.lor ((v mod 2 ^ 21) * 2 ^ 2) (v' mod 2 ^ 2)).
  { apply Z.bits_inj'. intros m M. rewrite Z.lor_spec.
    destruct (Z.lt_ge_cases m 2) as [L|L].
    - rewrite Z.mul_pow2_bits_low, !Z.mod_pow2_bits_low by lia. reflexivity.
    - rewrite Z.mul_pow2_bits by lia. rewrite (Z.mod_pow2_bits_high v' 2), orb_false_r by lia.
      destruct (Z.lt_ge_cases m 23) as [L'|L'].
      + rewrite !Z.mod_pow2_bits_low by lia. apply E. lia.
      + rewrite !Z.mod_pow2_bits_high by lia. reflexivity. }
  rewrite K, lor_disjoint by (try discriminate; apply Z.mod_pos_bound; reflexivity).
  change (2 ^ 2) with 4. f_equal. change (2 ^ 23) with (4 * 2 ^ 21).
  rewrite Z.mul_mod_distr_l by discriminate. rewrite Z.mul_comm. f_equal.
  rewrite (Z.mul_comm 4). rewrite Z.rem_mul_r by (try discriminate; reflexivity).
  rewrite Z.mul_comm, Z.mod_add by discriminate. symmetry. apply Z.mod_mod. discriminate.
Qed.

Lemma nth_of_zero g M n : nth_of g M 0 n = 0.
Proof.
  induction n as [|n IH]; [reflexivity|]. cbn [nth_of]. rewrite IH. unfold next_of, comp, u32_shl, u32_shr.
  rewrite Z.land_0_l, !Z.shiftl_0_l. change (wrap 4 0) with 0. rewrite !Z.lxor_0_l. apply Z.shiftr_0_l.
Qed.

Lemma seed_zero n j p p' : nth_error (fst (gens n (from_seed 0))) j = Some p ->
  nth_error (fst (gens n (from_seed 0))) (S j) = Some p' ->
  exists k k' e, fraction p k /\ fraction p' k' /\ k' = (4 * k) mod 2 ^ 23 + e /\ 0 <= e < 4.
Proof.
  change (from_seed 0) with (at_step 0 3203395597 0 0 0). intros E E'.
  apply (gens_nth n 0 3203395597 0 0 0) in E. apply (gens_nth n 0 3203395597 0 0 0) in E'.
  set (v := nth_of lfsr1 M1 3203395597). assert (V : forall m, fst (gen_u32 (at_step 0 3203395597 0 0 m)) = v (S m)).
  { intros m. unfold at_step. rewrite !nth_of_zero.
    change (fst (gen_u32 (0, nth_of lfsr1 M1 3203395597 m, 0, 0)))
      with (Z.lxor (Z.lxor (Z.lxor 0 (v (S m))) 0) 0). now rewrite Z.lxor_0_l, !Z.lxor_0_r. }
  rewrite gen_gen_u32, V in E, E'. cbn [fst Nat.add] in E, E'. subst p p'.
  exists (v (S j) mod 2 ^ 23), (v (S (S j)) mod 2 ^ 23), (v (S (S j)) mod 4).
  assert (P : pattern 4 3203395597) by (apply pat32; split; [discriminate|reflexivity]).
  split; [apply minus_one; apply Z.mod_pos_bound; reflexivity|].
  split; [apply minus_one; apply Z.mod_pos_bound; reflexivity|].
  split; [|apply Z.mod_pos_bound; reflexivity].
  apply (shifted_by_two (stream 29 2 3203395597) (S j)); apply (nth_of_number lfsr1); auto using good1.
Qed.

Lemma vthread_first_lane wide n : exists r l r', vthread_rng wide = Ok r /\ vgens wide n r = Ok (l, r') /\ length l = n /\
  forall j v v' p p', nth_error l j = Some v -> nth_error l (S j) = Some v' -> lane v 0 p -> lane v' 0 p' ->
  exists k k' e, fraction p k /\ fraction p' k' /\ k' = (4 * k) mod 2 ^ 23 + e /\ 0 <= e < 4.
Proof.
  destruct (vector_draws wide (incr01 wide) n) as (r & l & r' & A & B & N & D).
  { destruct wide; (split; [reflexivity|]); repeat constructor; discriminate. }
  exists r, l, r'. split; [exact A|]. split; [exact B|]. split; [exact N|].
  intros j v v' p p' Hv Hv' Hp Hp'.
  assert (L0 : lane (incr01 wide) 0 0) by (destruct wide; reflexivity).
  destruct (proj2 (D _ _ Hv) 0%nat 0 L0) as (q & Q & G). destruct (proj2 (D _ _ Hv') 0%nat 0 L0) as (q' & Q' & G').
  unfold lane in *. assert (q = p) by congruence. assert (q' = p') by congruence. subst q q'.
  exact (seed_zero n j p p' G G').
Qed.
