(** C75, C76: the n-body example. *)
From Coq Require Import ZArith List Bool Lia Reals Lra.
From Flocq Require Import Core.
From Verif.Model Require Import Base FloatLane Tables MathTables Math ExNbody.
From Verif.Spec Require Import Spec Floats MathSpec Rays Formulas Gravity.
From Verif.Proofs Require Import Lib FloatP MathLlvmP FormulaP ExNbodyP ExNbodyDataP ExNbodySimdP ExNbodyVectorP ExNbodyExactP.
From Verif.Props Require Import Tac Targets.
Import ListNotations.
Open Scope Z_scope.

(** C75: the scalar functions on any five bodies.  Advancing is a step in f64, the energy is the energy in f64, and
    the offset of the momentum gives the sun the total momentum backwards. *)
Theorem C75_scalar : forall bodies dt, five_bodies 3 bodies -> 0 <= dt < 2 ^ 64 ->
  (five_bodies 3 (scalar_advance bodies dt) /\
   step in_f64 scalar_version (datum_of 8 dt) (system_of bodies) (system_of (scalar_advance bodies dt))) /\
  energy in_f64 scalar_version (system_of bodies) (datum_of 8 (scalar_energy bodies)) /\
  (exists bodies', scalar_offset_momentum bodies = Ok bodies' /\
     five_bodies 3 bodies' /\ stopped_by_total in_f64 (system_of bodies) (system_of bodies')).
Proof.
  intros. split; [now apply scalar_step|]. split; [now apply scalar_energy_ok|now apply scalar_offset_ok].
Qed.
Print Assumptions C75_scalar.

(** C75: the vector functions on any five bodies with four coordinates never fail.  If the fourth coordinates are zero
    they do the same on the other three, with the operations of the vector version, and as long as the speeds are
    finite the fourth coordinates stay zero. *)
Theorem C75_vector : forall X S tg junk bodies dt,
  works_lanewise X S -> follows_llvm S -> ~ uses_sleef tg -> is_vector f64x2 junk ->
  five_bodies 4 bodies -> 0 <= dt < 2 ^ 64 ->
  (exists bodies', simd_advance X tg junk bodies dt = Ok bodies' /\ five_bodies 4 bodies' /\
     (flat bodies -> step in_f64 vector_version (datum_of 8 dt) (system_of bodies) (system_of bodies')) /\
     (flat bodies -> finite_speeds (system_of bodies') -> flat bodies')) /\
  (exists e, simd_energy tg bodies = Ok e /\ (flat bodies -> energy in_f64 vector_version (system_of bodies) (datum_of 8 e))) /\
  (exists bodies', simd_offset_momentum bodies = Ok bodies' /\ five_bodies 4 bodies' /\
     stopped_by_planets in_f64 (system_of bodies) (system_of bodies') /\
     (flat bodies -> finite_speeds (system_of bodies') -> flat bodies')).
Proof.
  intros X S tg junk bodies dt HW HF HS HJ F D. split; [|split; [|now apply simd_offset_ok]].
  - destruct (simd_step X S tg junk HW HF HS HJ bodies dt F D) as (b & E & A & B & C & _). exists b. auto.
  - destruct (simd_energy_ok tg bodies F) as (e & E & _ & A & _). exists e. auto.
Qed.
Print Assumptions C75_vector.

(** C75: the scalar program starts with the solar system, stops it, makes [n] steps and returns the energies before and
    after them. *)
Theorem C75_scalar_run : forall X tg junk n, exists s0 s1 s2 a b, nbody_run X tg junk n 0 = Ok (a, b) /\
  solar_system in_f64 s0 /\ stopped_by_total in_f64 s0 s1 /\ steps in_f64 scalar_version time_step n s1 s2 /\
  energy in_f64 scalar_version s1 (datum_of 8 a) /\ energy in_f64 scalar_version s2 (datum_of 8 b).
Proof.
  intros X tg junk n. destruct (scalar_run_ok n) as (s0 & s1 & s2 & a & b & E & _ & _ & H). exists s0, s1, s2, a, b. split; [exact E|exact H].
Qed.
Print Assumptions C75_scalar_run.

(** C75: the vector program never fails, and does the same in the vector version if the energy it returns is finite. *)
Theorem C75_vector_run : forall X S tg junk n, works_lanewise X S -> follows_llvm S -> ~ uses_sleef tg -> is_vector f64x2 junk ->
  exists s0 s1 s2 a b, nbody_run X tg junk n 1 = Ok (a, b) /\
    solar_system in_f64 s0 /\ stopped_by_planets in_f64 s0 s1 /\ energy in_f64 vector_version s1 (datum_of 8 a) /\
    (finite (datum_of 8 b) -> steps in_f64 vector_version time_step n s1 s2 /\ energy in_f64 vector_version s2 (datum_of 8 b)).
Proof.
  intros X S tg junk n HW HF HS HJ. destruct (simd_run_ok X S tg junk n HW HF HS HJ) as (s0 & s1 & s2 & a & b & E & _ & _ & H).
  exists s0, s1, s2, a, b. split; [exact E|exact H].
Qed.
Print Assumptions C75_vector_run.

(** C75: there is no other algorithm. *)
Theorem C75_unknown : forall X tg junk n alg, (2 <= alg)%nat -> nbody_run X tg junk n alg = Panic.
Proof. intros X tg junk n alg A. destruct alg as [|[|alg]]; [lia|lia|reflexivity]. Qed.
Print Assumptions C75_unknown.

(** C76: in exact arithmetic a step of either version accelerates every body by Newton's law and then moves it with its
    new speed, and the energy is the kinetic minus the potential energy. *)
Theorem C76_exact : forall how, how = scalar_version \/ how = vector_version ->
  (forall dt s s', step exactly how dt s s' <-> accelerated_and_moved dt s s') /\
  (forall s e, energy exactly how s e <-> e = total_energy s).
Proof.
  intros how W. assert (sound how) by (destruct W as [->| ->]; [exact scalar_sound|exact vector_sound]).
  split; [intros; now apply step_exact|intros; now apply energy_exact].
Qed.
Print Assumptions C76_exact.

(** C76: any number of steps keeps the momentum and the angular momentum, and the center of mass moves uniformly. *)
Theorem C76_conserved : forall how dt n s s', how = scalar_version \/ how = vector_version -> steps exactly how dt n s s' ->
  (forall i, (i < 5)%nat -> mass s' i = mass s i) /\
  (forall a, (a < 3)%nat -> momentum s' a = momentum s a) /\
  (forall a b, (a < 3)%nat -> (b < 3)%nat -> angular_momentum s' a b = angular_momentum s a b) /\
  (forall a, (a < 3)%nat -> weighted_places s' a = weighted_places s a + INR n * dt * momentum s a)%R.
Proof.
  intros how dt n s s' W. apply steps_keep. destruct W as [->| ->]; [exact scalar_sound|exact vector_sound].
Qed.
Print Assumptions C76_conserved.

(** C76: stopping leaves the momentum that the sun had before, backwards in the scalar version: the system only comes to
    rest if the sun does not move. *)
Theorem C76_stopped : forall s s' a, mass s sun = (4 * PI ^ 2)%R -> (a < 3)%nat ->
  (stopped_by_total exactly s s' -> momentum s' a = - (mass s sun * speed s sun a))%R /\
  (stopped_by_planets exactly s s' -> momentum s' a = mass s sun * speed s sun a)%R.
Proof.
  intros s s' a M A. split; intros H; [now apply total_stop|now apply planets_stop].
Qed.
Print Assumptions C76_stopped.

(** C76: both ways stop the solar system, with the same result, and then it keeps its momentum zero and its center of
    mass in place. *)
Theorem C76_solar_system : forall s0, solar_system exactly s0 ->
  (forall s1 s2, stopped_by_total exactly s0 s1 -> stopped_by_planets exactly s0 s2 ->
     forall i a, (i < 5)%nat -> (a < 3)%nat -> mass s1 i = mass s2 i /\ place s1 i a = place s2 i a /\ speed s1 i a = speed s2 i a) /\
  (forall s1 how dt n s2, stopped_by_total exactly s0 s1 \/ stopped_by_planets exactly s0 s1 ->
     how = scalar_version \/ how = vector_version -> steps exactly how dt n s1 s2 ->
     forall a, (a < 3)%nat -> momentum s2 a = 0%R /\ weighted_places s2 a = weighted_places s0 a).
Proof.
  intros s0 H. split; [intros; now apply (same_stop s0)|]. intros s1 how dt n s2 H1 W R a A.
  destruct (stopped_momentum s0 s1 H H1) as [(M & X & _) P].
  destruct (C76_conserved how dt n s1 s2 W R) as (_ & B & _ & C). rewrite (B a A), (C a A), (P a A). split; [reflexivity|].
  unfold weighted_places, over_bodies. rewrite !M, !X by lia. ring.
Qed.
Print Assumptions C76_solar_system.

(** ** Concrete cases *)

(** A fourth coordinate. *)
Definition pad (b : body) : body := {| b_x := b_x b ++ [f64_0]; b_v := b_v b ++ [f64_0]; b_mass := b_mass b |}.
(** The start, with all bodies at rest. *)
Definition at_rest : list body := map (fun b => {| b_x := b_x b; b_v := repeat f64_0 3; b_mass := b_mass b |}) scalar_BODIES.
Lemma at_rest_five : five_bodies 3 at_rest.
Proof.
  destruct (bodies_five [] (Forall_nil _)) as [L F]. split; [reflexivity|]. unfold at_rest. rewrite Forall_map. revert F.
  apply Forall_impl. intros b (M & LX & X & _). cbn [b_mass b_x b_v]. split; [exact M|]. split; [exact LX|]. split; [exact X|].
  split; [reflexivity|]. repeat (apply Forall_cons; [exact q_zero|]). apply Forall_nil.
Qed.

(** C75: that the two versions give the same bits is false, because they multiply in different orders. *)
Theorem C75_same_bits_refuted :
  ~ (forall X S tg junk bodies dt, works_lanewise X S -> follows_llvm S -> ~ uses_sleef tg -> is_vector f64x2 junk ->
     five_bodies 3 bodies -> 0 <= dt < 2 ^ 64 ->
     simd_advance X tg junk (map pad bodies) dt = Ok (map pad (scalar_advance bodies dt))).
Proof.
  intros H.
  specialize (H _ _ x86_64_avx2 [0; 0] at_rest f64_step ref_works ref_follows ltac:(intros (_ & U & _); discriminate U)).
  specialize (H ltac:(split; [reflexivity|repeat constructor; vm_compute; congruence]) at_rest_five ltac:(vm_compute; split; congruence)).
  vm_compute in H. discriminate H.
Qed.
Print Assumptions C75_same_bits_refuted.

(** Steps in both versions, from the energy -0.16907516382852447, and a run whose energy is finite.  Two bodies at the same
    place: the fourth coordinate does not stay zero. *)
Definition collided : list body := map (fun b => {| b_x := [f64_0; f64_0; f64_0; f64_0]; b_v := b_v b; b_mass := b_mass b |}) simd_BODIES.
Example C75_example :
  works_lanewise ref_externals ref_lanes /\ follows_llvm ref_lanes /\ ~ uses_sleef x86_64_avx2 /\ is_vector f64x2 [0; 0] /\
  five_bodies 3 scalar_BODIES /\ five_bodies 4 simd_BODIES /\ flat simd_BODIES /\
  nbody_run ref_externals x86_64_avx2 [0; 0] 1 0 = Ok (13818631631903837219, 13818631624344871052) /\
  nbody_run ref_externals x86_64_avx2 [0; 0] 1 1 = Ok (13818631631903837219, 13818631624344871052) /\
  nbody_run ref_externals x86_64_avx2 [0; 0] 7 0 = Ok (13818631631903837219, 13818631578243888237) /\
  nbody_run ref_externals x86_64_avx2 [0; 0] 7 1 = Ok (13818631631903837219, 13818631578243888237) /\
  finite (datum_of 8 13818631578243888237) /\
  match simd_advance ref_externals x86_64_avx2 [0; 0] collided f64_step with
  | Ok (b :: _) => nth 3 (b_v b) 0 = 9221120237041090560   (* NaN *)
  | _ => False
  end.
Proof.
  split; [exact ref_works|]. split; [exact ref_follows|]. split; [intros (_ & U & _); discriminate U|].
  split; [split; [reflexivity|repeat constructor; vm_compute; congruence]|].
  split; [exact (bodies_five [] (Forall_nil _))|]. split; [exact simd_bodies_five|].
  split; [intros b B; repeat (destruct B as [<-|B]; [split; exact zero_datum|]); destruct B|].
  split; [vm_compute; reflexivity|]. split; [vm_compute; reflexivity|].
  split; [vm_compute; reflexivity|]. split; [vm_compute; reflexivity|]. split; [|vm_compute; reflexivity].
  unfold datum_of. change (exp_field 8 13818631578243888237) with 1020. change (2 ^ exp_width 8 - 1) with 2047.
  cbn [Z.eqb Pos.eqb]. now do 2 eexists.
Qed.

(** The solar system in exact arithmetic, stopped and run. *)
Example C76_example : exists s0 s1 s2, solar_system exactly s0 /\ stopped_by_total exactly s0 s1 /\ stopped_by_planets exactly s0 s1 /\
  steps exactly scalar_version (1 / 100)%R 1000 s1 s2 /\ mass s0 sun = (4 * PI ^ 2)%R.
Proof.
  destruct exact_start as (s0 & H0). destruct (exact_total s0) as (s1 & H1). destruct (exact_planets s0) as (s1' & H1').
  destruct (exact_run scalar_version (1 / 100)%R 1000 s1 scalar_sound) as (s2 & H2).
  exists s0, s1, s2. split; [exact H0|]. split; [exact H1|]. split; [|split; [exact H2|rewrite (proj1 (proj1 H0)); apply solar_exact]].
  pose proof (same_stop s0 s1 s1' H0 H1 H1') as E. destruct H1' as [(A & B & C) D]. split; [exact (proj1 H1)|].
  intros a L. destruct (D a L) as (p & P0 & P1 & P2). exists p. split; [exact P0|]. split; [exact P1|].
  rewrite <- P2. apply E; unfold sun; lia.
Qed.
