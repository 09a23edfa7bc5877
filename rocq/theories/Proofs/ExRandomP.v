(** The random number generators: bits of the scalar generator, and lanes of the vector one. *)
From Coq Require Import ZArith List Bool Lia Reals Lra.
From Flocq Require Import Core.
From Verif.Model Require Import Base FloatLane Llvm Tables Minimal Ops ExRandom.
From Verif.Spec Require Import Spec Floats Examples Tausworthe.
From Verif.Proofs Require Import Lib FloatP FloatOpsP OpsP2 RotateP ExactP ExMandelbrotP.
Import ListNotations.
Open Scope Z_scope.

(** ** One Tausworthe generator *)

Definition comp (k q s M : Z) (z : Z) : Z :=
  Z.lxor (u32_shl (Z.land z M) s) (u32_shr (Z.lxor (u32_shl z q) z) (k - s)).

Lemma p32 : modulus 4 = 2 ^ 32. Proof. reflexivity. Qed.
Lemma pat32 z : pattern 4 z <-> 0 <= z < 2 ^ 32. Proof. unfold pattern. now rewrite p32. Qed.
Lemma shl32_pattern z n : pattern 4 (u32_shl z n).
Proof. apply wrap_pattern. Qed.
Lemma shr32_pattern z n : 0 <= n -> pattern 4 z -> pattern 4 (u32_shr z n).
Proof.
  intros N H. apply pattern_of_testbit; [apply Z.shiftr_nonneg, H|].
  intros j J. unfold u32_shr. change (bits 4) with 32 in J. rewrite Z.shiftr_spec by lia.
  apply (testbit_pattern_high 4); auto. change (bits 4) with 32. lia.
Qed.
Lemma comp_pattern k q s M z : s <= k -> pattern 4 z -> pattern 4 (comp k q s M z).
Proof.
  intros K H. apply lxor_pattern; [apply shl32_pattern|].
  apply shr32_pattern; [lia|]. apply lxor_pattern; auto. apply shl32_pattern.
Qed.

Lemma testbit_high z j : pattern 4 z -> 32 <= j -> Z.testbit z j = false.
Proof. intros. apply (testbit_pattern_high 4); auto. Qed.
Lemma testbit_shl z n j : 0 <= n -> 0 <= j < 32 ->
  Z.testbit (u32_shl z n) j = (n <=? j) && Z.testbit z (j - n).
Proof.
  intros N J. unfold u32_shl. rewrite testbit_wrap by exact J. rewrite Z.shiftl_spec by lia.
  destruct (Z.leb_spec n j); [reflexivity|]. cbn [andb]. apply Z.testbit_neg_r. lia.
Qed.
Lemma testbit_shr z n j : 0 <= j -> Z.testbit (u32_shr z n) j = Z.testbit z (j + n).
Proof. intros J. apply Z.shiftr_spec, J. Qed.

Definition masks (k M : Z) : Prop := forall m, 0 <= m < 32 -> Z.testbit M m = (32 - k <=? m).

(** Bit [31 - i] of the next number. *)
Lemma comp_bit k q s M z i : 0 <= q -> 0 <= s -> s <= k -> k <= 32 -> 32 + s + q <= 2 * k -> masks k M ->
  pattern 4 z -> 0 <= i < 32 ->
  Z.testbit (comp k q s M z) (31 - i) =
  if i + s <? k then Z.testbit z (31 - (i + s))
  else xorb (Z.testbit z (31 - (i + s - k + q))) (Z.testbit z (31 - (i + s - k))).
Proof.
  intros Q S SK K B HM P I. unfold comp. rewrite Z.lxor_spec, testbit_shl, testbit_shr by lia.
  rewrite Z.land_spec, Z.lxor_spec.
  destruct (Z.ltb_spec (i + s) k) as [L|L].
  - replace (s <=? 31 - i) with true by (symmetry; apply Z.leb_le; lia).
    rewrite HM by lia. replace (32 - k <=? 31 - i - s) with true by (symmetry; apply Z.leb_le; lia).
    rewrite (testbit_high _ (31 - i + (k - s))) by (try apply shl32_pattern; lia).
    rewrite (testbit_high z (31 - i + (k - s))) by (auto; lia).
    cbn [andb]. rewrite andb_true_r, xorb_false_r. f_equal. lia.
  - rewrite testbit_shl by lia.
    replace (q <=? 31 - i + (k - s)) with true by (symmetry; apply Z.leb_le; lia). cbn [andb].
    replace (31 - i + (k - s) - q) with (31 - (i + s - k + q)) by lia.
    replace (31 - i + (k - s)) with (31 - (i + s - k)) by lia.
    destruct (Z.leb_spec s (31 - i)) as [A|A]; [|apply xorb_false_l].
    rewrite HM by lia. replace (32 - k <=? 31 - i - s) with false by (symmetry; apply Z.leb_gt; lia).
    rewrite andb_false_r. apply xorb_false_l.
Qed.

(** The sequence of bits, as a shift register. *)
Definition shifted (k q : nat) (r : nat -> bool) (i : nat) : bool :=
  if (S i <? k)%nat then r (S i) else xorb (r q) (r O).
Fixpoint register (k q m : nat) (r : nat -> bool) : nat -> bool :=
  match m with O => r | S m => shifted k q (register k q m r) end.
Definition stream (k q : nat) (z : Z) (m : nat) : bool :=
  register k q m (fun i => Z.testbit z (31 - Z.of_nat i)) O.

Lemma register_window k q r i : forall m, (i < k)%nat -> register k q m r i = register k q (m + i) r O.
Proof.
  induction i as [|i IH]; intros m I; [now rewrite Nat.add_0_r|].
  replace (m + S i)%nat with (S m + i)%nat by lia. rewrite <- IH by lia.
  cbn [register]. unfold shifted. replace (S i <? k)%nat with true; [reflexivity|].
  symmetry. apply Nat.ltb_lt. lia.
Qed.

Lemma stream_obeys g z : (middle g < degree g)%nat -> obeys g (stream (degree g) (middle g) z).
Proof.
  intros H m. unfold stream. set (r := fun i => _).
  rewrite <- (register_window _ _ r (middle g) m H).
  replace (m + degree g)%nat with (S m + (degree g - 1))%nat by lia.
  rewrite <- (register_window _ _ r (degree g - 1)) by lia.
  cbn [register]. unfold shifted. replace (S (degree g - 1) <? degree g)%nat with false; [reflexivity|].
  symmetry. apply Nat.ltb_ge. lia.
Qed.
Lemma stream_starts g z : started_by g (stream (degree g) (middle g) z) z.
Proof. intros i I. unfold stream. change i with (0 + i)%nat at 2. now rewrite <- register_window. Qed.

(** The generators whose step the code takes correctly. *)
Definition good (g : tausworthe) (M : Z) : Prop :=
  (middle g < degree g)%nat /\ (step g <= degree g <= 32)%nat /\ (32 + step g + middle g <= 2 * degree g)%nat /\
  masks (Z.of_nat (degree g)) M.
Definition next_of (g : tausworthe) (M z : Z) : Z :=
  comp (Z.of_nat (degree g)) (Z.of_nat (middle g)) (Z.of_nat (step g)) M z.
Fixpoint nth_of (g : tausworthe) (M z : Z) (n : nat) : Z :=
  match n with O => z | S n => next_of g M (nth_of g M z n) end.

Lemma nth_of_pattern g M z n : good g M -> pattern 4 z -> pattern 4 (nth_of g M z n).
Proof.
  intros (_ & H & _) P. induction n as [|n IH]; [exact P|]. cbn [nth_of]. apply comp_pattern; auto. lia.
Qed.

Lemma next_window g M x n z : good g M -> obeys g x -> pattern 4 z ->
  (forall i, (i < degree g)%nat -> Z.testbit z (31 - Z.of_nat i) = x (n * step g + i)%nat) ->
  number_at g x (S n) (next_of g M z).
Proof.
  intros (A & B & C & D) O P W. split; [apply pat32, comp_pattern; auto; lia|].
  intros i I. unfold next_of. rewrite comp_bit by (auto; lia).
  replace (S n * step g + i)%nat with (n * step g + (i + step g))%nat by lia.
  destruct (Z.ltb_spec (Z.of_nat i + Z.of_nat (step g)) (Z.of_nat (degree g))) as [L|L].
  - rewrite <- W by lia. do 2 f_equal. lia.
  - replace (n * step g + (i + step g))%nat with (n * step g + (i + step g - degree g) + degree g)%nat by lia.
    rewrite O. rewrite <- Nat.add_assoc. rewrite <- !W by lia. do 3 f_equal; lia.
Qed.

Lemma nth_of_window g M z n : good g M -> pattern 4 z -> forall i, (i < degree g)%nat ->
  Z.testbit (nth_of g M z n) (31 - Z.of_nat i) = stream (degree g) (middle g) z (n * step g + i)%nat.
Proof.
  intros G P. induction n as [|n IH]; intros i I.
  - apply (stream_starts g z i I).
  - cbn [nth_of]. destruct (next_window g M (stream (degree g) (middle g) z) n (nth_of g M z n)) as [_ H]; auto.
    + apply stream_obeys, G.
    + now apply nth_of_pattern.
    + apply H. destruct G as (_ & K & _). lia.
Qed.

Lemma nth_of_number g M z n : good g M -> pattern 4 z ->
  number_at g (stream (degree g) (middle g) z) (S n) (nth_of g M z (S n)).
Proof.
  intros G P. cbn [nth_of]. apply next_window; auto.
  - apply stream_obeys, G.
  - now apply nth_of_pattern.
  - now apply nth_of_window.
Qed.

(** The sequence is determined by its start. *)
Lemma obeys_unique g x y : (middle g < degree g)%nat -> obeys g x -> obeys g y ->
  (forall i, (i < degree g)%nat -> x i = y i) -> forall i, x i = y i.
Proof.
  intros H X Y S i. induction i as [i IH] using (well_founded_induction Wf_nat.lt_wf).
  destruct (Nat.lt_ge_cases i (degree g)) as [L|L]; [auto|].
  replace i with (i - degree g + degree g)%nat by lia. rewrite X, Y, !IH by lia. reflexivity.
Qed.
Lemma same_start g x y z : started_by g x z -> started_by g y z -> forall i, (i < degree g)%nat -> x i = y i.
Proof. intros X Y i I. now rewrite <- X, <- Y by exact I. Qed.
Lemma bits_equal z z' : pattern 4 z -> pattern 4 z' ->
  (forall i, (i < 32)%nat -> Z.testbit z (31 - Z.of_nat i) = Z.testbit z' (31 - Z.of_nat i)) -> z = z'.
Proof.
  intros P P' H. apply Z.bits_inj'. intros j J. destruct (Z.lt_ge_cases j 32) as [L|L].
  - specialize (H (Z.to_nat (31 - j))). rewrite Z2Nat.id in H by lia. replace (31 - (31 - j)) with j in H by lia.
    apply H. lia.
  - now rewrite !testbit_high by auto.
Qed.
Lemma number_unique g x y z n a b : (middle g < degree g)%nat -> obeys g x -> obeys g y ->
  started_by g x z -> started_by g y z -> number_at g x n a -> number_at g y n b -> a = b.
Proof.
  intros H X Y SX SY [P A] [Q B]. apply bits_equal; [now apply pat32|now apply pat32|].
  intros i I. rewrite A, B by exact I. apply (obeys_unique g); auto. now apply (same_start g x y z).
Qed.

(** A generator that starts with zeros stays there, and no other one gets there. *)
Lemma zeros_forward g x n : (middle g < degree g)%nat -> obeys g x ->
  (forall i, (i < degree g)%nat -> x i = false) -> x n = false.
Proof. intros H X S. apply (obeys_unique g x (fun _ => false)); auto. intros m. reflexivity. Qed.
Lemma zeros_back g x n : (0 < middle g < degree g)%nat -> obeys g x ->
  (forall i, (i < degree g)%nat -> x (n + i)%nat = false) -> forall i, (i < degree g)%nat -> x i = false.
Proof.
  intros H X. induction n as [|n IH]; intros Y; [exact Y|]. apply IH. intros i I.
  destruct i as [|i].
  - pose proof (X n) as Q. rewrite Nat.add_0_r.
    replace (n + degree g)%nat with (S n + (degree g - 1))%nat in Q by lia. rewrite Y in Q by lia.
    replace (n + middle g)%nat with (S n + (middle g - 1))%nat in Q by lia. rewrite Y in Q by lia.
    destruct (x n); [discriminate|reflexivity].
  - replace (n + S i)%nat with (S n + i)%nat by lia. apply Y. lia.
Qed.

Lemma below_bits k z : 0 <= k <= 32 -> pattern 4 z ->
  (z < 2 ^ (32 - k) <-> forall i, (Z.of_nat i < k) -> Z.testbit z (31 - Z.of_nat i) = false).
Proof.
  intros K P. split.
  - intros L i I. destruct (Z.eq_dec z 0) as [->|N]; [apply Z.testbit_0_l|].
    destruct P as [P _]. apply Z.bits_above_log2; [exact P|].
    assert (Z.log2 z < 32 - k) by (apply Z.log2_lt_pow2; [clear - P N; lia|exact L]). lia.
  - intros H. destruct (Z.eq_dec z 0) as [->|N]; [apply Z.pow_pos_nonneg; lia|].
    assert (Z0 : 0 < z) by (destruct P; clear H; lia). apply Z.log2_lt_pow2; [exact Z0|].
    destruct (Z.lt_ge_cases (Z.log2 z) (32 - k)) as [L|L]; [exact L|exfalso].
    assert (L32 : Z.log2 z < 32) by (apply Z.log2_lt_pow2; [exact Z0|exact (proj2 (proj1 (pat32 z) P))]).
    specialize (H (Z.to_nat (31 - Z.log2 z))). rewrite Z2Nat.id in H by lia.
    replace (31 - (31 - Z.log2 z)) with (Z.log2 z) in H by lia.
    rewrite Z.bit_log2 in H by exact Z0. discriminate H. lia.
Qed.

Lemma dead_forever g x z n a : (middle g < degree g <= 32)%nat -> obeys g x -> started_by g x z ->
  0 <= z < 2 ^ (32 - Z.of_nat (degree g)) -> number_at g x n a -> a = 0.
Proof.
  intros H X S Z [P A]. assert (P0 : pattern 4 z).
  { apply pat32. split; [apply Z|]. apply Z.lt_le_trans with (2 ^ (32 - Z.of_nat (degree g))); [apply Z|].
    apply Z.pow_le_mono_r; lia. }
  apply bits_equal; [now apply pat32|split; reflexivity|]. intros i I. rewrite A by exact I.
  rewrite Z.testbit_0_l. apply (zeros_forward g); [lia|exact X|]. intros j J. rewrite <- S by exact J.
  apply (proj1 (below_bits (Z.of_nat (degree g)) z ltac:(lia) P0)); [apply Z|lia].
Qed.
Lemma alive_forever g x z n a : (0 < middle g < degree g)%nat -> (degree g <= 32)%nat -> obeys g x -> started_by g x z ->
  2 ^ (32 - Z.of_nat (degree g)) <= z < 2 ^ 32 -> number_at g x n a -> 2 ^ (32 - Z.of_nat (degree g)) <= a.
Proof.
  intros H K X S Z [P A]. assert (P0 : pattern 4 z).
  { apply pat32. split; [|apply Z]. apply Z.le_trans with (2 ^ (32 - Z.of_nat (degree g))); [|apply Z].
    apply Z.pow_nonneg; lia. }
  destruct (Z.lt_ge_cases a (2 ^ (32 - Z.of_nat (degree g)))) as [L|L]; [exfalso|exact L].
  destruct Z as [Z _]. apply Z.le_ngt in Z. apply Z.
  apply (below_bits (Z.of_nat (degree g)) z ltac:(lia) P0). intros i I. rewrite S by lia.
  apply (zeros_back g x (n * step g)); [exact H|exact X| |lia].
  intros j J. rewrite <- A by lia. apply pat32 in P.
  apply (proj1 (below_bits (Z.of_nat (degree g)) a ltac:(lia) P)); [exact L|lia].
Qed.
