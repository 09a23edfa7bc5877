(** C67, C68, C69: the ambient occlusion of the example aobench. *)
From Coq Require Import ZArith List Bool Lia Reals Lra.
From Verif.Model Require Import Base FloatLane Tables MathTables Math ExStencil ExRandom ExGeometry ExIntersect ExOcclusion.
From Verif.Spec Require Import Spec Floats MathSpec Stencil Rays Occlusion.
From Verif.Proofs Require Import Lib MathLlvmP ExPacketP ExIntersectP ExIntersectMainP ExIntersectTopP ExStencilMainP ExOcclusionP ExOcclusionPacketP ExSceneP ExSceneTopP.
From Verif.Props Require Import Tac Targets.
Import ListNotations.
Open Scope Z_scope.

(** C67: the system of coordinates of a direction. *)
Theorem C67_basis : forall n, is_v3 n ->
  basis_of left_to_right (point_of n) (points_of (ortho_basis n)) /\ is_m3 (ortho_basis n).
Proof. exact basis_scalar. Qed.
Print Assumptions C67_basis.

(** C67: the vector with given coordinates. *)
Theorem C67_turn : forall m v, is_m3 m -> is_v3 v ->
  turned left_to_right (points_of m) (point_of v) (point_of (m3_mul m v)) /\ is_v3 (m3_mul m v).
Proof. exact turn_scalar. Qed.
Print Assumptions C67_turn.

(** C67: packets do the same in every lane, with the dot products of packets. *)
Theorem C67_packet_basis : forall wide X S tg junk mad,
  works_lanewise X S -> follows_llvm S -> ~ uses_sleef tg -> mul_adde_is tg S mad -> is_vector (f32xN wide) junk ->
  forall n, is_v3s wide n -> exists m, ortho_bases wide X tg n = Ok m /\ is_m3s wide m /\
    forall k a, v3_lane n k a -> exists b, m3_lane m k b /\ basis_of (nested mad) (point_of a) (points_of b).
Proof. exact basis_packet. Qed.
Print Assumptions C67_packet_basis.

Theorem C67_packet_turn : forall wide X S tg junk mad,
  works_lanewise X S -> follows_llvm S -> ~ uses_sleef tg -> mul_adde_is tg S mad -> is_vector (f32xN wide) junk ->
  forall m v, is_m3s wide m -> is_v3s wide v -> exists r, m3s_mul wide X tg m v = Ok r /\ is_v3s wide r /\
    forall k a b, m3_lane m k a -> v3_lane v k b -> exists c, v3_lane r k c /\ turned (nested mad) (points_of a) (point_of b) (point_of c).
Proof. exact turn_packet. Qed.
Print Assumptions C67_packet_turn.

Theorem C67_packet_turn1 : forall wide X S tg junk mad,
  works_lanewise X S -> follows_llvm S -> ~ uses_sleef tg -> mul_adde_is tg S mad -> is_vector (f32xN wide) junk ->
  forall m v, is_m3 m -> is_v3s wide v -> exists r, m3_muls wide X tg m v = Ok r /\ is_v3s wide r /\
    forall k b, v3_lane v k b -> exists c, v3_lane r k c /\ turned (nested mad) (points_of m) (point_of b) (point_of c).
Proof. exact turn_packet1. Qed.
Print Assumptions C67_packet_turn1.

(** C68: [scalar] takes NAO_SAMPLES^2 samples, one for every two random numbers, and returns the share of those that
    no object stops; that lies between 0 and 1. *)
Theorem C68_scalar : forall cosf sinf cosine sine, computes cosf cosine -> computes sinf sine ->
  forall St (sc : scene St) i st l st', is_scene sc -> is_isect i ->
  draws (sc_rand sc) st l st' -> Forall is_f32 l -> length l = (2 * (nao sc * nao sc))%nat -> Z.of_nat (nao sc * nao sc) <= 2 ^ 24 ->
  exists r hs, ao_scalar cosf sinf sc i st = Ok (r, st') /\ is_f32 r /\
    Forall2 (fun p h => sampled left_to_right left_to_right rounded_twice cosine sine (objects sc) i (fst p) (snd p) h) (pairs l) hs /\
    free_share (nao sc * nao sc) hs (f32_datum r) /\
    ((0 < nao sc)%nat -> exists x, f32_datum r = Fin false x /\ (0 <= x <= 1)%R).
Proof.
  intros cosf sinf cosine sine HC HS St sc i st l st' H1 H2 H3 H4 H5 H6.
  destruct (ao_scalar_ok cosf sinf cosine sine HC HS sc i st l st' H1 H2 H3 H4 H5 H6) as (r & hs & E & P & S & V).
  exists r, hs. split; [exact E|]. split; [exact P|]. split; [exact S|]. split; [exact V|]. intros N.
  refine (share_samples _ _ _ _ _ S (pairs_length _ _ H5) _ V). now apply Nat.mul_pos_pos.
Qed.
Print Assumptions C68_scalar.

(** C68: [vector] does so for one point with packets of rays: NAO_SAMPLES times, NAO_SAMPLES / N rounded up, every
    lane of a packet of random numbers is a sample. *)
Theorem C68_vector : forall wide X S tg junk mad cosine sine,
  works_lanewise X S -> follows_llvm S -> ~ uses_sleef tg -> mul_adde_is tg S mad -> is_vector (f32xN wide) junk -> trig_is S cosine sine ->
  let N := vn (f32xN wide) in
  forall St (sc : scene St) i st ps st', is_scene sc -> is_isect i ->
  draws (sc_rands sc) st ps st' -> are_packets wide ps ->
  length ps = (nao sc * ((nao sc + N - 1) / N))%nat -> Z.of_nat (length ps * N) <= 2 ^ 24 ->
  exists r hs, ao_vector wide false X tg junk sc i st = Ok (r, st') /\ is_f32 r /\
    Forall2 (fun p h => sampled left_to_right (nested mad) mad cosine sine (objects sc) i (fst p) (snd p) h) (concat (map lane_pairs ps)) hs /\
    free_share (nao sc * nao sc) hs (f32_datum r).
Proof. intros wide X S tg junk mad cosine sine H1 H2 H3 H4 H5 H6 N St sc. exact (ao_vector_ok wide X S tg junk mad cosine sine H1 H2 H3 H4 H5 H6 sc). Qed.
Print Assumptions C68_vector.

(** C68: if NAO_SAMPLES is a multiple of N and packets of random numbers come from [rand], the samples are those of
    [scalar], in the same order, and the value lies between 0 and 1. *)
Theorem C68_same_samples : forall wide X S tg junk mad cosine sine,
  works_lanewise X S -> follows_llvm S -> ~ uses_sleef tg -> mul_adde_is tg S mad -> is_vector (f32xN wide) junk -> trig_is S cosine sine ->
  forall St (sc : scene St) i st l st', is_scene sc -> sc_rands sc = default_rands wide (sc_rand sc) -> is_isect i ->
  draws (sc_rand sc) st l st' -> Forall is_f32 l -> length l = (2 * (nao sc * nao sc))%nat ->
  (nao sc mod vn (f32xN wide) = 0)%nat -> Z.of_nat (nao sc * nao sc) <= 2 ^ 24 ->
  exists r hs, ao_vector wide false X tg junk sc i st = Ok (r, st') /\ is_f32 r /\
    Forall2 (fun p h => sampled left_to_right (nested mad) mad cosine sine (objects sc) i (fst p) (snd p) h) (pairs l) hs /\
    free_share (nao sc * nao sc) hs (f32_datum r) /\
    ((0 < nao sc)%nat -> exists x, f32_datum r = Fin false x /\ (0 <= x <= 1)%R).
Proof.
  intros wide X S tg junk mad cosine sine H1 H2 H3 H4 H5 H6 St sc i st l st' A1 A2 A3 A4 A5 A6 A7 A8.
  destruct (vector_same wide X S tg junk mad cosine sine H1 H2 H3 H4 H5 H6 sc i st l st' A1 A2 A3 A4 A5 A6 A7 A8) as (r & hs & E & P & F & V).
  exists r, hs. split; [exact E|]. split; [exact P|]. split; [exact F|]. split; [exact V|]. intros N.
  refine (share_samples _ _ _ _ _ F (pairs_length _ _ A6) _ V). now apply Nat.mul_pos_pos.
Qed.
Print Assumptions C68_same_samples.

(** C68: the test scene.  Both functions use its 128 numbers, beginning with the current one, and come back to it; so
    every point of the image sees the same numbers.  The value is exact. *)
Theorem C68_test_scalar : forall cosf sinf cosine sine, computes cosf cosine -> computes sinf sine ->
  forall wide rands step i, length rands = 128%nat -> Forall is_f32 rands -> (step < 128)%nat -> is_isect i ->
  exists r hs, ao_scalar cosf sinf (test_scene wide rands) i step = Ok (r, step) /\ is_f32 r /\
    Forall2 (fun p h => sampled left_to_right left_to_right rounded_twice cosine sine (objects (test_scene wide rands)) i (fst p) (snd p) h)
      (pairs (map (fun j => nth ((step + j) mod 128)%nat rands 0) (seq 0 128))) hs /\
    f32_datum r = Fin false (1 - INR (count hs) / 64).
Proof. exact test_scalar. Qed.
Print Assumptions C68_test_scalar.

Theorem C68_test_vector : forall wide X S tg junk mad cosine sine,
  works_lanewise X S -> follows_llvm S -> ~ uses_sleef tg -> mul_adde_is tg S mad -> is_vector (f32xN wide) junk -> trig_is S cosine sine ->
  forall rands step i, length rands = 128%nat -> Forall is_f32 rands -> (step < 128)%nat -> is_isect i ->
  exists r hs, ao_vector wide false X tg junk (test_scene wide rands) i step = Ok (r, step) /\ is_f32 r /\
    Forall2 (fun p h => sampled left_to_right (nested mad) mad cosine sine (objects (test_scene wide rands)) i (fst p) (snd p) h)
      (pairs (map (fun j => nth ((step + j) mod 128)%nat rands 0) (seq 0 128))) hs /\
    f32_datum r = Fin false (1 - INR (count hs) / 64).
Proof. exact test_vector. Qed.
Print Assumptions C68_test_vector.

(** C68: the random scene.  From every state of the generators there are 64 samples with numbers from 0 to 1, the
    generators go on from there, and the value is exact. *)
Theorem C68_random_scalar : forall cosf sinf cosine sine, computes cosf cosine -> computes sinf sine ->
  forall wide g vg i, is_state g -> is_isect i ->
  exists r l hs g', ao_scalar cosf sinf (random_scene wide) i (g, vg) = Ok (r, (g', vg)) /\ is_f32 r /\ is_state g' /\
    draws (sc_rand (random_scene wide)) (g, vg) l (g', vg) /\ length l = 128%nat /\ Forall below_one l /\
    Forall2 (fun p h => sampled left_to_right left_to_right rounded_twice cosine sine (objects (random_scene wide)) i (fst p) (snd p) h) (pairs l) hs /\
    f32_datum r = Fin false (1 - INR (count hs) / 64).
Proof. exact random_scalar_ok. Qed.
Print Assumptions C68_random_scalar.

Theorem C68_random_vector : forall wide X S tg junk mad cosine sine,
  works_lanewise X S -> follows_llvm S -> ~ uses_sleef tg -> mul_adde_is tg S mad -> is_vector (f32xN wide) junk -> trig_is S cosine sine ->
  forall g vg i, is_vstate wide vg -> is_isect i ->
  exists r ps hs vg', ao_vector wide false X tg junk (random_scene wide) i (g, vg) = Ok (r, (g, vg')) /\ is_f32 r /\ is_vstate wide vg' /\
    draws (sc_rands (random_scene wide)) (g, vg) ps (g, vg') /\ (length ps * vn (f32xN wide) = 64)%nat /\
    Forall (fun p => Forall below_one (fst p) /\ Forall below_one (snd p)) ps /\
    Forall2 (fun p h => sampled left_to_right (nested mad) mad cosine sine (objects (random_scene wide)) i (fst p) (snd p) h) (concat (map lane_pairs ps)) hs /\
    f32_datum r = Fin false (1 - INR (count hs) / 64).
Proof. exact random_vector_ok. Qed.
Print Assumptions C68_random_vector.

(** C68: a debug build that does not panic gives the result of the release build. *)
Theorem C68_debug : forall wide X tg junk St (sc : scene St) i st x,
  ao_vector wide true X tg junk sc i st = Ok x -> ao_vector wide false X tg junk sc i st = Ok x.
Proof. intros wide X tg junk St sc i st x. exact (ao_vector_release wide X tg junk sc i st x). Qed.
Print Assumptions C68_debug.

(** C68: that the value of [vector] lies between 0 and 1 for every NAO_SAMPLES is false.  A scene with NAO_SAMPLES = 1
    takes N samples but divides by 1: with a point just above the plane, looking down, the value is 1 - N. *)
Definition f32_m1 : Z := 0xbf800000.
Definition alone : scene unit :=
  Scene 1 default_plane [] (fun st => Ok (0, st)) (fun st => Ok ([0; 0; 0; 0], [0; 0; 0; 0], st)).
Definition alone_wide : scene unit :=
  Scene 1 default_plane [] (fun st => Ok (0, st)) (fun st => Ok (repeat 0 8, repeat 0 8, st)).
Definition downwards : isect := Isect f32_1 (V3 0 0 0) (V3 0 f32_m1 0) true.

Lemma ref_trig : trig_is ref_lanes (fun a c => c = a) (fun a s => s = a).
Proof.
  intros f _ B. split; intros E p P; cbn [ref_lanes l1]; rewrite E; unfold in_lane; rewrite B; now rewrite Z.mod_small.
Qed.

Theorem C68_range_refuted : forall wide, exists X S tg junk mad cosine sine (sc : scene unit) i r,
  works_lanewise X S /\ follows_llvm S /\ ~ uses_sleef tg /\ mul_adde_is tg S mad /\ is_vector (f32xN wide) junk /\ trig_is S cosine sine /\
  is_scene sc /\ is_isect i /\
  ao_vector wide false X tg junk sc i tt = Ok (r, tt) /\ f32_datum r = Fin true (if wide then -7 else -3)%R.
Proof.
  intros wide. exists ref_externals, ref_lanes, s390x, (repeat 0 (vn (f32xN wide))), rounded_twice, (fun a c => c = a), (fun a s => s = a),
    (if wide then alone_wide else alone), downwards, (if wide then 0xc0e00000 else 0xc0400000).
  split; [exact ref_works|]. split; [exact ref_follows|]. split; [intros (_ & H & _); discriminate H|].
  split; [split; [intros H; now contradiction H|reflexivity]|].
  split; [destruct wide; split; try reflexivity; repeat constructor; vm_compute; congruence|].
  split; [exact ref_trig|].
  split; [destruct wide; (split; [exact (proj1 default_ok)|constructor])|].
  split; [vm_compute; intuition congruence|].
  split; [destruct wide; vm_compute; reflexivity|].
  destruct wide; unfold f32_datum, datum_of, magnitude;
  [change (exp_field 4 0xc0e00000) with 129; change (sig_field 4 0xc0e00000) with 6291456; change (sign_field 4 0xc0e00000) with true|
   change (exp_field 4 0xc0400000) with 128; change (sig_field 4 0xc0400000) with 4194304; change (sign_field 4 0xc0400000) with true];
  change (2 ^ exp_width 4 - 1) with 255; cbn [Z.eqb Pos.eqb]; f_equal; vm_compute; lra.
Qed.
Print Assumptions C68_range_refuted.

(** C69: [vector_tiled] does so for N points at a time: lane k of the packets of random numbers belongs to point k. *)
Theorem C69_tiled : forall wide X S tg junk mad cosine sine,
  works_lanewise X S -> follows_llvm S -> ~ uses_sleef tg -> mul_adde_is tg S mad -> is_vector (f32xN wide) junk -> trig_is S cosine sine ->
  forall St (sc : scene St) i st ps st', is_scene sc -> is_isects wide i ->
  draws (sc_rands sc) st ps st' -> are_packets wide ps -> length ps = (nao sc * nao sc)%nat -> Z.of_nat (nao sc * nao sc) <= 2 ^ 24 ->
  exists v, ao_tiled wide false X tg junk sc i st = Ok (v, st') /\ is_vector (f32xN wide) v /\
    forall k b, isect_lane i k b -> exists r hs, lane v k r /\
      Forall2 (fun p h => sampled (nested mad) (nested mad) mad cosine sine (objects sc) b (nth k (fst p) 0) (nth k (snd p) 0) h) ps hs /\
      free_share (nao sc * nao sc) hs (f32_datum r) /\
      ((0 < nao sc)%nat -> exists x, f32_datum r = Fin false x /\ (0 <= x <= 1)%R).
Proof.
  intros wide X S tg junk mad cosine sine H1 H2 H3 H4 H5 H6 St sc i st ps st' A1 A2 A3 A4 A5 A6.
  destruct (ao_tiled_ok wide X S tg junk mad cosine sine H1 H2 H3 H4 H5 H6 sc i st ps st' A1 A2 A3 A4 A5 A6) as (v & E & V & H).
  exists v. split; [exact E|]. split; [exact V|]. intros k b L. destruct (H k b L) as (r & hs & LR & F & FS).
  exists r, hs. split; [exact LR|]. split; [exact F|]. split; [exact FS|]. intros N.
  refine (share_samples _ _ _ _ _ F A5 _ FS). now apply Nat.mul_pos_pos.
Qed.
Print Assumptions C69_tiled.

(** C69: on the test scene every point gets only 64 / N different samples, each of them N times. *)
Theorem C69_test : forall wide X S tg junk mad cosine sine,
  works_lanewise X S -> follows_llvm S -> ~ uses_sleef tg -> mul_adde_is tg S mad -> is_vector (f32xN wide) junk -> trig_is S cosine sine ->
  let N := vn (f32xN wide) in
  forall rands i, length rands = 128%nat -> Forall is_f32 rands -> is_isects wide i ->
  exists v, ao_tiled wide false X tg junk (test_scene wide rands) i 0%nat = Ok (v, 0%nat) /\ is_vector (f32xN wide) v /\
    forall k b, isect_lane i k b -> exists r hs, lane v k r /\
      Forall2 (fun p h => sampled (nested mad) (nested mad) mad cosine sine (objects (test_scene wide rands)) b (fst p) (snd p) h)
        (concat (repeat (map (fun j => (nth (2 * (N * j + k)) rands 0, nth (2 * (N * j + k) + 1) rands 0)) (seq 0 (64 / N))) N)) hs /\
      f32_datum r = Fin false (1 - INR (count hs) / 64).
Proof. exact test_tiled. Qed.
Print Assumptions C69_test.

Theorem C69_random : forall wide X S tg junk mad cosine sine,
  works_lanewise X S -> follows_llvm S -> ~ uses_sleef tg -> mul_adde_is tg S mad -> is_vector (f32xN wide) junk -> trig_is S cosine sine ->
  forall g vg i, is_vstate wide vg -> is_isects wide i ->
  exists v ps vg', ao_tiled wide false X tg junk (random_scene wide) i (g, vg) = Ok (v, (g, vg')) /\ is_vector (f32xN wide) v /\ is_vstate wide vg' /\
    draws (sc_rands (random_scene wide)) (g, vg) ps (g, vg') /\ length ps = 64%nat /\
    Forall (fun p => Forall below_one (fst p) /\ Forall below_one (snd p)) ps /\
    forall k b, isect_lane i k b -> exists r hs, lane v k r /\
      Forall2 (fun p h => sampled (nested mad) (nested mad) mad cosine sine (objects (random_scene wide)) b (nth k (fst p) 0) (nth k (snd p) 0) h) ps hs /\
      f32_datum r = Fin false (1 - INR (count hs) / 64).
Proof. exact random_tiled_ok. Qed.
Print Assumptions C69_random.

Theorem C69_debug : forall wide X tg junk St (sc : scene St) i st x,
  ao_tiled wide true X tg junk sc i st = Ok x -> ao_tiled wide false X tg junk sc i st = Ok x.
Proof. intros wide X tg junk St sc i st x. exact (ao_tiled_release wide X tg junk sc i st x). Qed.
Print Assumptions C69_debug.

(** The coordinates above the ground and, sideways, of the x axis. *)
Definition f32_m0 : Z := 0x80000000.
Example C67_example :
  is_v3 (V3 f32_0 f32_1 f32_0) /\
  ortho_basis (V3 f32_0 f32_1 f32_0) = (V3 f32_0 f32_0 f32_1, V3 f32_1 f32_0 f32_0, V3 f32_0 f32_1 f32_0) /\
  ortho_basis (V3 f32_1 f32_0 f32_0) = (V3 f32_0 f32_0 f32_m1, V3 f32_m0 f32_1 f32_0, V3 f32_1 f32_0 f32_0) /\
  m3_mul (ortho_basis (V3 f32_1 f32_0 f32_0)) (V3 f32_0 f32_0 f32_1) = V3 f32_1 f32_0 f32_0.
Proof. split; [vm_compute; intuition congruence|]. vm_compute. auto. Qed.

(** The numbers a test scene draws from the seeds of the example, and 64 samples for a point on the ground behind
    the second sphere: with a cosine and a sine that are 1 and 0 everywhere. *)
Definition some_rng : rng := (129281, 362436069, 123456789, 88675123).
Definition ground : isect := Isect f32_1 (V3 (f32_neg f32_half) (f32_neg f32_half) 0xc0666666) (V3 f32_0 f32_1 f32_0) true.
Example C68_example :
  computes (fun _ => f32_1) (fun _ c => c = one) /\ computes (fun _ => f32_0) (fun _ s => s = zero) /\
  is_state some_rng /\ length (fst (test_rands some_rng)) = 128%nat /\ is_isect ground /\
  (exists r, ao_scalar (fun _ => f32_1) (fun _ => f32_0) (test_scene false (fst (test_rands some_rng))) ground 0%nat = Ok (r, 0%nat) /\
     fl_lt 4 f32_0 r = true /\ fl_lt 4 r f32_1 = true).
Proof.
  split; [intros p _; split; [vm_compute; intuition congruence|exact d_1]|].
  split; [intros p _; split; [vm_compute; intuition congruence|exact d_0]|].
  split; [vm_compute; intuition congruence|]. split; [reflexivity|]. split; [vm_compute; intuition congruence|].
  eexists. split; [vm_compute; reflexivity|]. split; vm_compute; reflexivity.
Qed.

(** Four points at once: that one, one above the spheres, one looking down at the ground, one in front. *)
Definition four : isects := isects_of (seq 0 4) (fun k => nth k
  [ground; Isect f32_1 (V3 f32_0 f32_1 f32_0) (V3 f32_0 f32_1 f32_0) true; downwards;
   Isect f32_1 (V3 f32_0 f32_0 f32_0) (V3 f32_0 f32_0 f32_1) true] isect_0).
Example C69_example :
  works_lanewise ref_externals ref_lanes /\ follows_llvm ref_lanes /\ ~ uses_sleef s390x /\
  mul_adde_is s390x ref_lanes rounded_twice /\ trig_is ref_lanes (fun a c => c = a) (fun a s => s = a) /\
  is_vstate true (repeat 1 8, repeat 2 8, repeat 3 8, repeat 4 8) /\ is_isects false four /\
  ao_tiled false false ref_externals s390x (repeat 0 4) (test_scene false (fst (test_rands some_rng))) four 0%nat =
    Ok ([0x3e800000; f32_1; f32_0; f32_0], 0%nat).
Proof.
  split; [exact ref_works|]. split; [exact ref_follows|]. split; [intros (_ & H & _); discriminate H|].
  split; [split; [intros H; now contradiction H|reflexivity]|]. split; [exact ref_trig|].
  split; [repeat split; repeat constructor; vm_compute; congruence|].
  split; [apply (of_isects false); intros k [<-|[<-|[<-|[<-|[]]]]]; vm_compute; intuition congruence|].
  vm_compute. reflexivity.
Qed.
