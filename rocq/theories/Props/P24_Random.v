(** C64: the random number generators of the ambient occlusion example. *)
From Coq Require Import ZArith List Bool Lia Reals.
From Verif.Model Require Import Base FloatLane Tables ExRandom.
From Verif.Spec Require Import Spec Floats Tausworthe.
From Verif.Proofs Require Import Lib ExRandomP ExRandomMainP ExRandomSeedP.
Import ListNotations.
Open Scope Z_scope.

(** C64: the j-th number drawn from the scalar generator is the float k / 2^23, where k is the
    low 23 bits of the j-th number of LFSR113. *)
Theorem C64_scalar : forall x n, 0 <= x < 2 ^ 32 ->
  length (fst (gens n (from_seed x))) = n /\
  forall j p, nth_error (fst (gens n (from_seed x))) j = Some p ->
    exists z0 z1 z2 z3 v, seeds x z0 z1 z2 z3 /\ lfsr113 z0 z1 z2 z3 (S j) v /\ fraction p (v mod 2 ^ 23).
Proof. intros x n H. split; [apply gens_length|]. intros j p. exact (scalar_draws x n j p H). Qed.
Print Assumptions C64_scalar.

(** C64: so does a generator in any other state. *)
Theorem C64_state : forall z0 z1 z2 z3 n j p,
  0 <= z0 < 2 ^ 32 -> 0 <= z1 < 2 ^ 32 -> 0 <= z2 < 2 ^ 32 -> 0 <= z3 < 2 ^ 32 ->
  nth_error (fst (gens n (z0, z1, z2, z3))) j = Some p ->
  exists v, lfsr113 z0 z1 z2 z3 (S j) v /\ fraction p (v mod 2 ^ 23).
Proof. intros z0 z1 z2 z3 n j p H0 H1 H2 H3. apply draws_lfsr. exact (conj H0 (conj H1 (conj H2 H3))). Qed.
Print Assumptions C64_state.

(** C64: seeds and numbers of LFSR113 are determined. *)
Theorem C64_unique :
  (forall x z0 z1 z2 z3 y0 y1 y2 y3, seeds x z0 z1 z2 z3 -> seeds x y0 y1 y2 y3 ->
     z0 = y0 /\ z1 = y1 /\ z2 = y2 /\ z3 = y3) /\
  (forall z0 z1 z2 z3 n v v', lfsr113 z0 z1 z2 z3 n v -> lfsr113 z0 z1 z2 z3 n v' -> v = v').
Proof. split; [exact seeds_unique|exact lfsr113_unique]. Qed.
Print Assumptions C64_unique.

(** C64: every lane of the vector generator draws what the scalar generator draws that is
    seeded with that lane; nothing panics and nothing is undefined. *)
Theorem C64_vector : forall wide x n, is_vector (u32xN wide) x ->
  exists r l r', vfrom_seed wide x = Ok r /\ vgens wide n r = Ok (l, r') /\ length l = n /\
    forall j v, nth_error l j = Some v -> is_vector (f32xN wide) v /\
      forall i s, lane x i s -> exists p, lane v i p /\ nth_error (fst (gens n (from_seed s))) j = Some p.
Proof. exact vector_draws. Qed.
Print Assumptions C64_vector.

(** C64: each of the four generators gives zeros only, or never a number with nothing but
    zeros on top, depending on its seed. *)
Theorem C64_alive : forall g x z n a, of_lfsr113 g -> obeys g x -> started_by g x z -> number_at g x n a ->
  (0 <= z < 2 ^ (32 - Z.of_nat (degree g)) -> a = 0) /\
  (2 ^ (32 - Z.of_nat (degree g)) <= z < 2 ^ 32 -> 2 ^ (32 - Z.of_nat (degree g)) <= a).
Proof. intros g x z n a G O S N. split; [exact (four_dead g x z n a G O S N)|exact (four_alive g x z n a G O S N)]. Qed.
Print Assumptions C64_alive.

(** C64: the seed of the scalar [thread_rng] leaves the first generator at zero. *)
Theorem C64_thread_rng : forall n j p, nth_error (fst (gens n thread_rng)) j = Some p ->
  exists x1 x2 x3 b c d,
    obeys lfsr1 x1 /\ number_at lfsr1 x1 (S j) b /\
    obeys lfsr2 x2 /\ number_at lfsr2 x2 (S j) c /\
    obeys lfsr3 x3 /\ number_at lfsr3 x3 (S j) d /\
    fraction p (Z.lxor (Z.lxor b c) d mod 2 ^ 23).
Proof. exact thread_rng_draws. Qed.
Print Assumptions C64_thread_rng.

(** C64: the first lane of the vector [thread_rng] is not random: each number is the fraction
    of four times the one before, but for the last two bits. *)
Theorem C64_first_lane : forall wide n, exists r l r',
  vthread_rng wide = Ok r /\ vgens wide n r = Ok (l, r') /\ length l = n /\
  forall j v v' p p', nth_error l j = Some v -> nth_error l (S j) = Some v' -> lane v 0 p -> lane v' 0 p' ->
  exists k k' e, fraction p k /\ fraction p' k' /\ k' = (4 * k) mod 2 ^ 23 + e /\ 0 <= e < 4.
Proof. exact vthread_first_lane. Qed.
Print Assumptions C64_first_lane.

(** Non-vacuity: numbers drawn with two seeds, by both generators. *)
Example C64_example :
  fst (gens 2 (from_seed 12345)) = [1059067472; 1046224280] /\
  fst (gens 2 (from_seed 0)) = [1056899232; 1065222468] /\
  (r <- vfrom_seed false [0; 12345; 1; 4294967295] ;; vgens false 2 r) =
    Ok ([[1056899232; 1059067472; 1056785568; 1054809888]; [1065222468; 1046224280; 1065288140; 1064955850]],
        ([0; 25675520; 0; 4032], [4009689250; 4009493282; 4009689250; 285277986],
         [0; 1073758436; 1073774597; 4294705159], [0; 3781166965; 301989953; 1792])).
Proof. vm_compute. repeat split. Qed.
Example C64_example_alive : exists x a, obeys lfsr0 x /\ started_by lfsr0 x 12345 /\ number_at lfsr0 x 1 a /\ a <> 0.
Proof.
  exists (stream 31 6 12345), (nth_of lfsr0 M0 12345 1). split; [apply (stream_obeys lfsr0); cbn; lia|].
  split; [apply (stream_starts lfsr0)|]. split; [apply (nth_of_number lfsr0); [exact good0|now split]|].
  vm_compute. discriminate.
Qed.
