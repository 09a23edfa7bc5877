(** The n-body example in exact arithmetic. *)
From Coq Require Import ZArith List Bool Lia Reals Lra.
From Flocq Require Import Core.
From Verif.Model Require Import Base ExNbody.
From Verif.Spec Require Import Spec Floats Rays Formulas Gravity.
Import ListNotations.
Open Scope R_scope.

Ltac case5 i := destruct i as [|[|[|[|[|i]]]]]; try (exfalso; lia).

(** A version with the usual pull and kinetic energy. *)
Definition sound (how : version) : Prop :=
  (forall env d mg m, exact_value env (pull how d mg m) = exact_value env d * exact_value env mg * exact_value env m) /\
  (forall env m s, exact_value env (kinetic how m s) = / 2 * exact_value env m * exact_value env s).
Lemma scalar_sound : sound scalar_version.
Proof. split; intros; cbn; lra. Qed.
Lemma vector_sound : sound vector_version.
Proof. split; intros; cbn; lra. Qed.

Definition gap (s : system R) (i j a : nat) : R := place s i a - place s j a.
Definition quad (s : system R) (i j : nat) : R := gap s i j 0 ^ 2 + gap s i j 1 ^ 2 + gap s i j 2 ^ 2.
Lemma quad_pos s i j : 0 <= quad s i j.
Proof. unfold quad. pose proof (pow2_ge_0 (gap s i j 0)). pose proof (pow2_ge_0 (gap s i j 1)). pose proof (pow2_ge_0 (gap s i j 2)). lra. Qed.
Lemma distance_quad s i j : distance s i j = R_sqrt.sqrt (quad s i j).
Proof. reflexivity. Qed.
Lemma quad_sym s i j : quad s i j = quad s j i.
Proof. unfold quad, gap. ring. Qed.
Lemma cube_quad s i j : quad s i j * R_sqrt.sqrt (quad s i j) = distance s i j ^ 3.
Proof. rewrite distance_quad. rewrite <- (sqrt_sqrt (quad s i j)) at 1 by apply quad_pos. ring. Qed.

(** The magnitude. *)
Definition strength (dt : R) (s : system R) (i j : nat) : R := dt / distance s i j ^ 3.
Lemma strength_sym dt s i j : strength dt s i j = strength dt s j i.
Proof. unfold strength. now rewrite !distance_quad, quad_sym. Qed.

Definition speeding (dt : R) (s : system R) (i a : nat) : nat -> R :=
  fix go n := match n with
  | O => speed s i a
  | S j => if (j =? i)%nat then go j else go j + (place s j a - place s i a) * strength dt s i j * mass s j
  end.
Lemma speeding_all dt s i a : (i < 5)%nat -> speeding dt s i a 5 = speed s i a + dt * acceleration s i a.
Proof.
  intros I. unfold acceleration, over_bodies. case5 i; cbn [speeding Nat.eqb]; unfold strength; unfold Rdiv; ring.
Qed.

Lemma step_exact how dt s s' : sound how -> step exactly how dt s s' <-> accelerated_and_moved dt s s'.
Proof.
  intros [HP _]. unfold exactly. split.
  - intros (d & mag & D & G & W & Pl & Ms). split; [exact Ms|].
    assert (D' : forall i j a, (i < j < 5)%nat -> (a < 3)%nat -> d i j a = gap s i j a) by (intros i j a I A; rewrite (D i j a I A); reflexivity).
    assert (G' : forall i j, (i < j < 5)%nat -> mag i j = strength dt s i j).
    { intros i j I. destruct (G i j I) as (q & Q & ->). unfold strength. rewrite <- cube_quad. cbn [exact_value nth magnitude_formula].
      assert (E : q = quad s i j).
      { rewrite Q. cbn [exact_value nth squares square]. rewrite !D' by lia. unfold quad. ring. }
      now rewrite E. }
    split.
    + intros i a I A. rewrite <- speeding_all by exact I. destruct (W i a I A) as (w & W0 & W1 & W2 & W3 & ->).
      assert (K : forall n, (n <= 5)%nat -> w n = speeding dt s i a n).
      { induction n as [|n IH]; intros N; [exact W0|]. cbn [speeding]. rewrite <- IH by lia.
        destruct (Nat.lt_total n i) as [L|[L|L]].
        - rewrite (proj2 (Nat.eqb_neq n i)) by lia. rewrite (W1 n L). cbn [exact_value]. rewrite HP. cbn [exact_value nth].
          rewrite D', G', strength_sym by lia. unfold gap. ring.
        - subst n. now rewrite Nat.eqb_refl.
        - rewrite (proj2 (Nat.eqb_neq n i)) by lia. rewrite (W3 n) by lia. cbn [exact_value]. rewrite HP. cbn [exact_value nth].
          rewrite D', G' by lia. unfold gap. ring. }
      now apply K.
    + intros i a I A. rewrite (Pl i a I A). reflexivity.
  - intros (Ms & Sp & Pl). exists (gap s), (strength dt s). split; [reflexivity|]. split; [|split; [|split; [|exact Ms]]].
    + intros i j I. exists (quad s i j). split; [cbn; unfold quad; ring|]. unfold strength. rewrite <- cube_quad. reflexivity.
    + intros i a I A. exists (speeding dt s i a). split; [reflexivity|]. split; [|split; [|split]].
      * intros j J. cbn [exact_value]. rewrite HP. cbn [exact_value nth speeding]. rewrite (proj2 (Nat.eqb_neq j i)) by lia.
        rewrite (strength_sym dt s j i). unfold gap. ring.
      * cbn [speeding]. now rewrite Nat.eqb_refl.
      * intros j J. cbn [exact_value]. rewrite HP. cbn [exact_value nth speeding]. rewrite (proj2 (Nat.eqb_neq j i)) by lia. unfold gap. ring.
      * rewrite speeding_all by exact I. now apply Sp.
    + intros i a I A. rewrite (Pl i a I A). reflexivity.
Qed.

Lemma step_exists dt s : exists s', accelerated_and_moved dt s s'.
Proof.
  exists (System (mass s) (fun i a => place s i a + dt * (speed s i a + dt * acceleration s i a)) (fun i a => speed s i a + dt * acceleration s i a)).
  repeat split.
Qed.

(** *** Conservation *)
Definition force (s : system R) (i j a : nat) : R := mass s i * mass s j * (place s j a - place s i a) * / distance s i j ^ 3.
Lemma dist_sym s i j : distance s i j = distance s j i.
Proof. now rewrite !distance_quad, quad_sym. Qed.
Ltac laws s :=
  unfold over_bodies, acceleration, over_bodies; cbn [Nat.eqb]; unfold Rdiv;
  rewrite ?(dist_sym s 1 0), ?(dist_sym s 2 0), ?(dist_sym s 3 0), ?(dist_sym s 4 0), ?(dist_sym s 2 1), ?(dist_sym s 3 1), ?(dist_sym s 4 1),
    ?(dist_sym s 3 2), ?(dist_sym s 4 2), ?(dist_sym s 4 3).
Section Conserve.
  Variables (dt : R) (s s' : system R).
  Hypothesis H : accelerated_and_moved dt s s'.
  Lemma momentum_kept a : (a < 3)%nat -> momentum s' a = momentum s a.
  Proof.
    intros A. destruct H as (M & V & X). unfold momentum, over_bodies. rewrite !M, !V by lia. laws s. ring.
  Qed.
  Lemma places_moved a : (a < 3)%nat -> weighted_places s' a = weighted_places s a + dt * momentum s a.
  Proof.
    intros A. rewrite <- (momentum_kept a A). destruct H as (M & V & X). unfold weighted_places, momentum, over_bodies.
    rewrite !M, !X by lia. ring.
  Qed.
  Lemma angular_kept a b : (a < 3)%nat -> (b < 3)%nat -> angular_momentum s' a b = angular_momentum s a b.
  Proof.
    intros A B. destruct H as (M & V & X). unfold angular_momentum, over_bodies. rewrite !M, !X, !V by lia. laws s. ring.
  Qed.
End Conserve.

Lemma steps_keep how dt n : sound how -> forall s s', steps exactly how dt n s s' ->
  (forall i, (i < 5)%nat -> mass s' i = mass s i) /\
  (forall a, (a < 3)%nat -> momentum s' a = momentum s a) /\
  (forall a b, (a < 3)%nat -> (b < 3)%nat -> angular_momentum s' a b = angular_momentum s a b) /\
  (forall a, (a < 3)%nat -> weighted_places s' a = weighted_places s a + INR n * dt * momentum s a).
Proof.
  intros W s s' (st & <- & <- & R).
  assert (E : forall k, (k <= n)%nat -> (forall i, (i < 5)%nat -> mass (st k) i = mass (st 0%nat) i) /\
    (forall a, (a < 3)%nat -> momentum (st k) a = momentum (st 0%nat) a) /\
    (forall a b, (a < 3)%nat -> (b < 3)%nat -> angular_momentum (st k) a b = angular_momentum (st 0%nat) a b) /\
    (forall a, (a < 3)%nat -> weighted_places (st k) a = weighted_places (st 0%nat) a + INR k * dt * momentum (st 0%nat) a)).
  { induction k as [|k IH]; intros K.
    - split; [auto|]. split; [auto|]. split; [auto|]. intros a A. cbn [INR]. ring.
    - destruct (IH ltac:(lia)) as (A1 & A2 & A3 & A4). pose proof (R k ltac:(lia)) as S. apply (step_exact how dt _ _ W) in S.
      split; [intros i I; rewrite (proj1 S) by exact I; now apply A1|].
      split; [intros a A; rewrite (momentum_kept dt _ _ S) by exact A; now apply A2|].
      split; [intros a b A B; rewrite (angular_kept dt _ _ S) by assumption; now apply A3|].
      intros a A. rewrite (places_moved dt _ _ S), A4, A2 by exact A. rewrite S_INR. ring. }
  now apply E.
Qed.

(** *** Energy *)
Section Energy.
  Variables (how : version) (s : system R).
  Hypothesis HK : sound how.
  Let kin (i : nat) : R := / 2 * mass s i * (speed s i 0%nat ^ 2 + speed s i 1%nat ^ 2 + speed s i 2%nat ^ 2).
  Let pot (i j : nat) : R := mass s i * mass s j / distance s i j.
  Lemma exact_squares i j :
    exact_value [place s i 0%nat; place s i 1%nat; place s i 2%nat; place s j 0%nat; place s j 1%nat; place s j 2%nat]
       (squares (Minus (Arg 0) (Arg 3)) (Minus (Arg 1) (Arg 4)) (Minus (Arg 2) (Arg 5))) = quad s i j.
  Proof. cbn. unfold quad, gap. ring. Qed.
  Lemma energy_total e : energy exactly how s e -> e = total_energy s.
  Proof.
    unfold exactly. intros (w & W0 & W1 & W2 & W3 & ->).
    assert (K : forall i, (i < 5)%nat -> w i (S i) = w i i + kin i).
    { intros i I. rewrite (W1 i I). cbn [exact_value]. rewrite (proj2 HK). cbn [exact_value nth squares square]. unfold kin. ring. }
    assert (P : forall i j, (i < j < 5)%nat -> w i (S j) = w i j - pot i j).
    { intros i j I. destruct (W2 i j I) as (q & E & ->). rewrite exact_squares in E. subst q. cbn [exact_value nth]. reflexivity. }
    rewrite !W3 by lia.
    rewrite K, W3 by lia. rewrite (P 3%nat 4%nat), K, W3 by lia. rewrite (P 2%nat 4%nat), (P 2%nat 3%nat), K, W3 by lia.
    rewrite (P 1%nat 4%nat), (P 1%nat 3%nat), (P 1%nat 2%nat), K, W3 by lia.
    rewrite (P 0%nat 4%nat), (P 0%nat 3%nat), (P 0%nat 2%nat), (P 0%nat 1%nat), K, W0 by lia. cbn [exact_value].
    unfold total_energy, over_bodies. cbn [Nat.ltb Nat.leb]. fold (kin 0%nat) (kin 1%nat) (kin 2%nat) (kin 3%nat) (kin 4%nat).
    unfold pot. ring.
  Qed.
  Let etr (e : R) (i : nat) : nat -> R := fix go n := match n with O => e + kin i | S n => go n - pot i (i + 1 + n) end.
  Let ebf : nat -> R := fix go i := match i with O => 0 | S i => etr (go i) i (4 - i) end.
  Lemma energy_exists : exists e, energy exactly how s e.
  Proof.
    exists (ebf 5%nat), (fun i j => if (j <=? i)%nat then ebf i else etr (ebf i) i (j - i - 1)). unfold exactly.
    split; [reflexivity|]. split; [|split; [|split; [|reflexivity]]].
    - intros i I. rewrite Nat.leb_refl, (proj2 (Nat.leb_gt (S i) i)) by lia. replace (S i - i - 1)%nat with 0%nat by lia.
      cbn [exact_value]. rewrite (proj2 HK). cbn [exact_value nth squares square etr]. unfold kin. ring.
    - intros i j I. exists (quad s i j). split; [symmetry; apply exact_squares|].
      rewrite (proj2 (Nat.leb_gt j i)), (proj2 (Nat.leb_gt (S j) i)) by lia. replace (S j - i - 1)%nat with (S (j - i - 1)) by lia.
      cbn [etr exact_value nth]. fold (etr (ebf i) i (j - i - 1)%nat). now replace (i + 1 + (j - i - 1))%nat with j by lia.
    - intros i I. rewrite Nat.leb_refl, (proj2 (Nat.leb_gt 5 i)) by lia. replace (5 - i - 1)%nat with (4 - i)%nat by lia. reflexivity.
  Qed.
  Lemma energy_exact e : energy exactly how s e <-> e = total_energy s.
  Proof.
    split; [apply energy_total|]. intros ->. destruct energy_exists as (e & H). now rewrite <- (energy_total e H).
  Qed.
End Energy.

(** *** Stopping *)
Lemma solar_exact env : exact_value env solar_mass = 4 * PI ^ 2.
Proof. cbn. ring. Qed.
Lemma solar_pos : 4 * PI ^ 2 <> 0.
Proof. pose proof PI_RGT_0. nra. Qed.

Lemma total_stop s s' : stopped_by_total exactly s s' -> mass s sun = 4 * PI ^ 2 ->
  forall a, (a < 3)%nat -> speed s' sun a = - momentum s a / (4 * PI ^ 2) /\ momentum s' a = - (mass s sun * speed s sun a).
Proof.
  unfold exactly. intros ((M & X & V) & P) SM a A. destruct (P a A) as (p & P0 & P1 & P2).
  assert (E : p 5%nat = momentum s a).
  { rewrite !P1 by lia. rewrite P0. unfold momentum, over_bodies. cbn [exact_value nth]. ring. }
  assert (S : speed s' sun a = - momentum s a / (4 * PI ^ 2)).
  { rewrite P2. change (exact_value [p 5%nat] (Over (Opposite (Arg 0)) solar_mass)) with (- p 5%nat / exact_value [p 5%nat] solar_mass).
    now rewrite solar_exact, E. }
  split; [exact S|]. unfold momentum at 1, over_bodies. rewrite !M, (V 1%nat), (V 2%nat), (V 3%nat), (V 4%nat) by lia. unfold sun in *. rewrite S, SM.
  unfold momentum, over_bodies. rewrite SM. pose proof solar_pos as K. clear - K. set (k := 4 * PI ^ 2) in *. clearbody k. field. exact K.
Qed.
Lemma planets_stop s s' : stopped_by_planets exactly s s' -> mass s sun = 4 * PI ^ 2 ->
  forall a, (a < 3)%nat -> momentum s' a = mass s sun * speed s sun a.
Proof.
  unfold exactly. intros ((M & X & V) & P) SM a A. destruct (P a A) as (p & P0 & P1 & P2).
  assert (E : forall i, (0 < i < 5)%nat -> p (S i) = p i - speed s i a * (mass s i / (4 * PI ^ 2))).
  { intros i I. rewrite (P1 i I). rewrite <- (solar_exact [p i; speed s i a; mass s i]). reflexivity. }
  unfold momentum at 1, over_bodies. rewrite !M, (V 1%nat), (V 2%nat), (V 3%nat), (V 4%nat) by lia. unfold sun in *. rewrite P2, !E, P0 by lia. rewrite SM.
  pose proof solar_pos as K. clear - K. set (k := 4 * PI ^ 2) in *. clearbody k. field. exact K.
Qed.

(** Both ways stop the solar system, and they agree. *)
Lemma stopped_momentum s s1 : solar_system exactly s -> stopped_by_total exactly s s1 \/ stopped_by_planets exactly s s1 ->
  only_sun_changed s s1 /\ forall a, (a < 3)%nat -> momentum s1 a = 0.
Proof.
  intros [[SM SS] _] H. unfold exactly in SM. rewrite solar_exact in SM.
  assert (V0 : forall a, (a < 3)%nat -> speed s sun a = 0) by (intros a A; rewrite (proj2 (SS a A)); reflexivity).
  destruct H as [H|H]; (split; [exact (proj1 H)|]); intros a A.
  - rewrite (proj2 (total_stop _ _ H SM a A)), V0 by exact A. ring.
  - rewrite (planets_stop _ _ H SM a A), V0 by exact A. ring.
Qed.
Lemma same_stop s s1 s2 : solar_system exactly s -> stopped_by_total exactly s s1 -> stopped_by_planets exactly s s2 ->
  forall i a, (i < 5)%nat -> (a < 3)%nat -> mass s1 i = mass s2 i /\ place s1 i a = place s2 i a /\ speed s1 i a = speed s2 i a.
Proof.
  intros H H1 H2 i a I A. destruct (stopped_momentum s s1 H (or_introl H1)) as [(M1 & X1 & V1) P1].
  destruct (stopped_momentum s s2 H (or_intror H2)) as [(M2 & X2 & V2) P2].
  split; [now rewrite M1, M2|]. split; [now rewrite X1, X2|].
  destruct (Nat.eq_dec i 0) as [->|N]; [|rewrite V1, V2 by lia; reflexivity].
  specialize (P1 a A). specialize (P2 a A). unfold momentum, over_bodies in P1, P2.
  rewrite !M1, (V1 1%nat), (V1 2%nat), (V1 3%nat), (V1 4%nat) in P1 by lia. rewrite !M2, (V2 1%nat), (V2 2%nat), (V2 3%nat), (V2 4%nat) in P2 by lia.
  destruct H as [[SM _] _]. unfold exactly, sun in SM. rewrite solar_exact in SM. rewrite SM in P1, P2.
  apply (Rmult_eq_reg_l (4 * PI ^ 2)); [lra|exact solar_pos].
Qed.

(** There are such systems. *)
Lemma planets_len i : (i < 4)%nat -> exists x v m, nth_error planets i = Some (x, v, m).
Proof. intros I. destruct i as [|[|[|[|i]]]]; [| | | |lia]; cbn; eauto. Qed.
Lemma exact_start : exists s, solar_system exactly s.
Proof.
  set (b := fun i => nth i planets ([], [], 0)).
  exists (System (fun i => match i with O => exact_value [] solar_mass | S i => snd (b i) * exact_value [] solar_mass end)
    (fun i a => match i with O => 0 | S i => nth a (fst (fst (b i))) 0 end)
    (fun i a => match i with O => 0 | S i => nth a (snd (fst (b i))) 0 * (36524 / 100) end)).
  split; [split; [reflexivity|split; reflexivity]|].
  intros i x v m E. unfold exactly. cbn [mass place speed]. assert (B : b i = (x, v, m)) by (unfold b; now apply nth_error_nth).
  rewrite B. split; [reflexivity|]. intros a A. split; reflexivity.
Qed.
Lemma exact_total s : exists s', stopped_by_total exactly s s'.
Proof.
  set (p := fun a => fix go n := match n with O => 0 | S n => go n + speed s n a * mass s n end).
  exists (System (mass s) (place s) (fun i a => if (i =? 0)%nat then - p a 5%nat / exact_value [] solar_mass else speed s i a)).
  split; [split; [reflexivity|]; split; [reflexivity|]; intros i a I A; cbn [speed]; now rewrite (proj2 (Nat.eqb_neq i 0)) by lia|].
  intros a A. exists (p a). unfold exactly. split; [reflexivity|]. split; [reflexivity|]. cbn [speed sun Nat.eqb exact_value nth]. reflexivity.
Qed.
Lemma exact_planets s : exists s', stopped_by_planets exactly s s'.
Proof.
  set (p := fun a => fix go n := match n with O => speed s sun a | S n => go n - speed s (S n) a * (mass s (S n) / exact_value [] solar_mass) end).
  exists (System (mass s) (place s) (fun i a => if (i =? 0)%nat then p a 4%nat else speed s i a)).
  split; [split; [reflexivity|]; split; [reflexivity|]; intros i a I A; cbn [speed]; now rewrite (proj2 (Nat.eqb_neq i 0)) by lia|].
  intros a A. exists (fun n => p a (n - 1)%nat). unfold exactly. split; [reflexivity|]. split; [|reflexivity].
  intros i I. destruct i as [|i]; [lia|]. replace (S (S i) - 1)%nat with (S i) by lia. replace (S i - 1)%nat with i by lia. reflexivity.
Qed.
Lemma exact_run how dt n s : sound how -> exists s', steps exactly how dt n s s'.
Proof.
  intros W. induction n as [|n (s' & st & S0 & Sn & R)].
  - exists s, (fun _ => s). split; [reflexivity|]. split; [reflexivity|]. intros k K. lia.
  - destruct (step_exists dt s') as (t & T). exists t, (fun k => if (k <=? n)%nat then st k else t). split; [exact S0|].
    split; [now rewrite (proj2 (Nat.leb_gt (S n) n)) by lia|]. intros k K.
    rewrite (proj2 (Nat.leb_le k n)) by lia. destruct (Nat.eq_dec k n) as [->|N].
    + rewrite (proj2 (Nat.leb_gt (S n) n)) by lia. rewrite Sn. now apply step_exact.
    + rewrite (proj2 (Nat.leb_le (S k) n)) by lia. apply R. lia.
Qed.
