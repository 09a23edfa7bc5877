(** C83: after how many numbers the random number generators of the ambient occlusion example
    repeat. *)
From Coq Require Import ZArith List Bool Lia Reals.
From Verif.Model Require Import Base FloatLane Tables ExRandom.
From Verif.Spec Require Import Spec Floats Tausworthe Cycles.
From Verif.Proofs Require Import Lib ExRandomP ExRandomMainP CyclesP.
Import ListNotations.
Open Scope Z_scope.

(** C83: each of the four generators repeats after all its states that are not zero, and not
    earlier, or is constant. *)
Theorem C83_component : forall g x z, of_lfsr113 g -> obeys g x -> started_by g x z -> 0 <= z < 2 ^ 32 ->
  cycle (number_at g x) (if 2 ^ (32 - Z.of_nat (degree g)) <=? z then 2 ^ Z.of_nat (degree g) - 1 else 1).
Proof. exact component_cycle. Qed.
Print Assumptions C83_component.

(** C83: the floats drawn from the scalar generator in any state repeat after the product of
    these numbers, and not earlier. *)
Theorem C83_state : forall z0 z1 z2 z3,
  0 <= z0 < 2 ^ 32 -> 0 <= z1 < 2 ^ 32 -> 0 <= z2 < 2 ^ 32 -> 0 <= z3 < 2 ^ 32 ->
  cycle (fun j p => exists n, nth_error (fst (gens n (z0, z1, z2, z3))) j = Some p) (lfsr113_states z0 z1 z2 z3).
Proof. intros z0 z1 z2 z3 H0 H1 H2 H3. exact (state_cycle z0 z1 z2 z3 (conj H0 (conj H1 (conj H2 H3)))). Qed.
Print Assumptions C83_state.

(** C83: the same from a seed. *)
Theorem C83_seed : forall x z0 z1 z2 z3, 0 <= x < 2 ^ 32 -> seeds x z0 z1 z2 z3 ->
  cycle (fun j p => exists n, nth_error (fst (gens n (from_seed x))) j = Some p) (lfsr113_states z0 z1 z2 z3).
Proof. exact seed_cycle. Qed.
Print Assumptions C83_seed.

(** C83: the scalar [thread_rng] repeats after about 2^82 numbers, not 2^113. *)
Theorem C83_thread_rng :
  cycle (fun j p => exists n, nth_error (fst (gens n thread_rng)) j = Some p) ((2 ^ 29 - 1) * (2 ^ 28 - 1) * (2 ^ 25 - 1)).
Proof. exact thread_cycle. Qed.
Print Assumptions C83_thread_rng.

(** C83: the first lane of the vector [thread_rng] repeats after 2^29 - 1 numbers, the second
    like the scalar one, all others after about 2^113. *)
Theorem C83_lanes : forall wide i s, lane (incr01 wide) i s ->
  cycle (fun j p => exists n r l r' v, vthread_rng wide = Ok r /\ vgens wide n r = Ok (l, r') /\
           nth_error l j = Some v /\ lane v i p)
        (match i with
         | 0%nat => 2 ^ 29 - 1
         | 1%nat => (2 ^ 29 - 1) * (2 ^ 28 - 1) * (2 ^ 25 - 1)
         | _ => (2 ^ 31 - 1) * (2 ^ 29 - 1) * (2 ^ 28 - 1) * (2 ^ 25 - 1)
         end).
Proof. exact lane_cycle. Qed.
Print Assumptions C83_lanes.

(** C83: LFSR113 needs seeds of at least 2, 8, 16 and 128 for its full cycle; not every seed
    of the example leads to such. *)
Theorem C83_full : forall x z0 z1 z2 z3, 0 <= x < 2 ^ 32 -> seeds x z0 z1 z2 z3 ->
  2 <= z0 -> 8 <= z1 -> 16 <= z2 -> 128 <= z3 ->
  cycle (fun j p => exists n, nth_error (fst (gens n (from_seed x))) j = Some p)
    ((2 ^ 31 - 1) * (2 ^ 29 - 1) * (2 ^ 28 - 1) * (2 ^ 25 - 1)).
Proof. exact full_cycle. Qed.
Print Assumptions C83_full.

Theorem C83_any_seed_refuted : exists x, 0 <= x < 2 ^ 32 /\
  forall j p q, (exists n, nth_error (fst (gens n (from_seed x))) j = Some p) ->
    (exists n, nth_error (fst (gens n (from_seed x))) (j + Z.to_nat (2 ^ 29 - 1)) = Some q) -> p = q.
Proof. exact short_seed. Qed.
Print Assumptions C83_any_seed_refuted.

(** Non-vacuity: a seed and its four states; the first draws of the first lane are not all
    equal. *)
Example C83_example :
  seeds 12345 12345 3203383348 809041920 959447040 /\
  lfsr113_states 12345 3203383348 809041920 959447040 = (2 ^ 31 - 1) * (2 ^ 29 - 1) * (2 ^ 28 - 1) * (2 ^ 25 - 1) /\
  fst (gens 2 (from_seed 0)) = [1056899232; 1065222468].
Proof.
  split; [|split; [vm_compute; reflexivity|vm_compute; reflexivity]].
  pose proof (from_seed_seeds 12345 ltac:(split; [discriminate|reflexivity])) as H.
  assert (E : from_seed 12345 = (12345, 3203383348, 809041920, 959447040)) by (vm_compute; reflexivity).
  rewrite E in H. exact (proj2 H).
Qed.
