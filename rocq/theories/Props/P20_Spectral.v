(** C60: the spectral norm example. *)
From Coq Require Import ZArith List Bool Lia Reals.
From Verif.Model Require Import Base FloatLane Tables ExSpectral.
From Verif.Spec Require Import Spec Floats Linear.
From Verif.Proofs Require Import Lib FloatVecP ExSpectralP.
From Verif.Props Require Import Tac Targets.
Import ListNotations.
Open Scope Z_scope.

(** C60: on every target and for every even size the two versions return the same bits. *)
Theorem C60_equal : forall tg n, Nat.modulo n 2 = 0%nat ->
  exists r, scalar_spectral_norm tg n = Ok r /\ simd_spectral_norm tg n = Ok r /\ 0 <= r < 2 ^ 64.
Proof. exact norms_equal. Qed.
Print Assumptions C60_equal.

(** C60: as long as the entries of the matrix can be computed exactly, that is the result of
    ten double steps of the power iteration with every operation correctly rounded. *)
Theorem C60_meaning : forall tg n r,
  (t_ptr tg = 8%nat /\ Z.of_nat n <= 2 ^ 25) \/ (t_ptr tg = 4%nat /\ Z.of_nat n <= 2 ^ 15) ->
  simd_spectral_norm tg n = Ok r \/ scalar_spectral_norm tg n = Ok r ->
  spectral_norm_of n (datum_of 8 r).
Proof. exact norms_meaning. Qed.
Print Assumptions C60_meaning.

(** C60: odd sizes panic, in both. *)
Theorem C60_panics : forall tg n, Nat.modulo n 2 <> 0%nat ->
  scalar_spectral_norm tg n = Panic /\ simd_spectral_norm tg n = Panic.
Proof. exact odd_panics. Qed.
Print Assumptions C60_panics.

(** Size 2: 1.1833501765516568. *)
Example C60_example :
  Nat.modulo 2 2 = 0%nat /\ t_ptr x86_64_avx2 = 8%nat /\ Z.of_nat 2 <= 2 ^ 25 /\
  simd_spectral_norm x86_64_avx2 2 = Ok 4608008154586813764 /\
  simd_spectral_norm aarch64_neon 2 = Ok 4608008154586813764 /\
  simd_spectral_norm s390x 5 = Panic.
Proof.
  split; [reflexivity|]. split; [reflexivity|]. split; [vm_compute; discriminate|]. 
  split; [vm_compute; reflexivity|]. split; [vm_compute; reflexivity|]. reflexivity.
Qed.
