(** C62: the fannkuch redux example. *)
From Coq Require Import ZArith List Bool Lia Factorial Permutation.
From Verif.Model Require Import Base Arch ExFannkuch.
From Verif.Spec Require Import Spec Permutations.
From Verif.Proofs Require Import ExFannkuchP ExFannkuchScalarP.
From Verif.Props Require Import Tac Targets.
Import ListNotations.
Open Scope nat_scope.

(** C62: up to sixteen elements the vector version ends on every target and returns the
    alternating sum (as i32) and the maximum of the flips of all permutations. *)
Theorem C62_simd : forall tg n checksum maxflips r, 0 < t_ptr tg -> n <= 16 ->
  is_fannkuch n checksum maxflips -> as_i32 checksum r ->
  exists F, forall fuel, F <= fuel -> simd_fannkuch fuel tg n = Some (Ok (r, Z.of_nat maxflips)).
Proof. exact fannkuch_simd. Qed.
Print Assumptions C62_simd.

(** C62: up to twelve elements so does the scalar version. *)
Theorem C62_scalar : forall n checksum maxflips r, n <= 12 -> is_fannkuch n checksum maxflips -> as_i32 checksum r ->
  exists F, forall fuel, F <= fuel -> scalar_fannkuch fuel n = Some (Ok (r, Z.of_nat maxflips)).
Proof. exact fannkuch_scalar. Qed.
Print Assumptions C62_scalar.

Theorem C62_agree : forall tg n, 0 < t_ptr tg -> n <= 12 ->
  exists r F, forall fuel, F <= fuel -> simd_fannkuch fuel tg n = Some (Ok r) /\ scalar_fannkuch fuel n = Some (Ok r).
Proof. exact fannkuch_agree. Qed.
Print Assumptions C62_agree.

(** C62: there is exactly one alternating sum and one maximum for each size, and the maximum is
    that of all permutations: each of them has exactly one number. *)
Theorem C62_result : forall n, n <= 16 -> exists checksum maxflips, is_fannkuch n checksum maxflips /\
  forall c m, is_fannkuch n c m -> c = checksum /\ m = maxflips.
Proof.
  intros n N. destruct (fannkuch_exists n N) as (c & m & X). exists c, m. split; [exact X|].
  intros c' m' X'. exact (fannkuch_unique n c' m' c m X' X).
Qed.
Print Assumptions C62_result.
Theorem C62_max : forall n checksum maxflips, is_fannkuch n checksum maxflips ->
  (forall p f, Permutation p (seq 0 n) -> flips p f -> f <= maxflips) /\
  (exists p, Permutation p (seq 0 n) /\ flips p maxflips).
Proof. exact fannkuch_max. Qed.
Print Assumptions C62_max.
Theorem C62_numbers : forall n p, Permutation p (seq 0 n) -> exists! k, k < fact n /\ permutation_number n k = p.
Proof. exact each_number. Qed.
Print Assumptions C62_numbers.

(** C62: the scalar worker handles any range of permutation numbers, so that the work can be
    split. *)
Theorem C62_range : forall n x j max fs r, n <= 12 -> perm_new n = Ok x -> j < max -> max <= fact n ->
  flips_of_first n (fact n) fs -> as_i32 (alternating (firstn max fs) - alternating (firstn j fs)) r ->
  exists F, forall fuel, F <= fuel ->
    work fuel x (Z.of_nat j) (Z.of_nat max) = Some (Ok (r, Z.of_nat (list_max (firstn (max - j) (skipn j fs))))).
Proof. exact fannkuch_range. Qed.
Print Assumptions C62_range.

(** C62: from thirteen elements on, which main.rs accepts, the scalar version only looks at the
    first n! mod 2^32 permutations. *)
Theorem C62_scalar_truncated : forall n fs r, n < 16 ->
  flips_of_first n (Z.to_nat (Z.of_nat (fact n) mod 2 ^ 32)) fs -> as_i32 (alternating fs) r ->
  exists F, forall fuel, F <= fuel -> scalar_fannkuch fuel n = Some (Ok (r, Z.of_nat (list_max fs))).
Proof. exact fannkuch_scalar_first. Qed.
Print Assumptions C62_scalar_truncated.
Theorem C62_all_counted_refuted :
  Forall (fun n => (0 < Z.of_nat (fact n) mod 2 ^ 32 < Z.of_nat (fact n))%Z) [13; 14; 15].
Proof.
  do 3 (apply Forall_cons; [rewrite zfact_ok; vm_compute; split; reflexivity|]). apply Forall_nil.
Qed.
Print Assumptions C62_all_counted_refuted.

(** C62: larger sizes panic. *)
Theorem C62_too_large : forall fuel tg n,
  (16 < n -> simd_fannkuch fuel tg n = Some Panic) /\
  (16 <= n -> (Z.of_nat n < 2 ^ 32)%Z -> scalar_fannkuch fuel n = Some Panic).
Proof. intros fuel tg n. split; [apply simd_too_large|apply scalar_too_large]. Qed.
Print Assumptions C62_too_large.

Lemma three : flips_of_first 3 (fact 3) [0; 1; 2; 1; 2; 0].
Proof.
  split; [reflexivity|]. intros k f H.
  do 6 (destruct k as [|k]; [injection H as H; subst f; repeat (first [apply flips_done; reflexivity|apply flips_more; [discriminate|]])|]).
  destruct k; discriminate H.
Qed.
(** The permutations of three elements, the range of two of them, and the size of the test. *)
Example C62_example :
  is_fannkuch 3 2 2 /\ as_i32 2 2 /\
  (exists x F, perm_new 3 = Ok x /\ forall fuel, F <= fuel -> work fuel x 2 4 = Some (Ok (1, 2)%Z)) /\
  scalar_fannkuch 5100 7 = Some (Ok (228, 16)%Z) /\
  Forall (fun tg => simd_fannkuch 1000 tg 5 = Some (Ok (11, 7)%Z)) [x86_64_avx2; x86_64_base; aarch64_neon; s390x] /\
  simd_fannkuch 5100 x86_64_avx2 7 = Some (Ok (228, 16)%Z) /\
  permutation_number 3 4 = [2; 0; 1] /\ permutation_number 4 22 = [1; 3; 0; 2].
Proof.
  split; [exists [0; 1; 2; 1; 2; 0]; split; [exact three|split; reflexivity]|].
  split; [split; [lia|reflexivity]|].
  split.
  { destruct (fannkuch_range 3 _ 2 4 _ 1 ltac:(lia) eq_refl ltac:(lia) ltac:(cbn; lia) three) as [F H]; [split; [lia|reflexivity]|].
    eexists _, F. split; [reflexivity|]. exact H. }
  split; [vm_compute; reflexivity|].
  split; [do 4 (apply Forall_cons; [vm_compute; reflexivity|]); apply Forall_nil|].
  split; [vm_compute; reflexivity|].
  split; vm_compute; reflexivity.
Qed.
