(** Vocabulary for the n-body example: five bodies that attract each other. *)
From Coq Require Import ZArith List Bool Reals.
From Flocq Require Import Core.
From Verif.Model Require Import Base ExNbody.
From Verif.Spec Require Import Spec Floats Rays Formulas.
Import ListNotations.
Open Scope Z_scope.

(** ** Systems *)

(** Five bodies, numbered from 0 (the sun); the axes are 0, 1 and 2.  The numbers are floats or reals. *)
Record system (D : Type) := System { mass : nat -> D; place : nat -> nat -> D; speed : nat -> nat -> D }.
Arguments System {D}. Arguments mass {D}. Arguments place {D}. Arguments speed {D}.
Definition sun : nat := 0.

(** An array of five bodies, each with [n] coordinates that are f64. *)
Definition five_bodies (n : nat) (bodies : list body) : Prop :=
  length bodies = 5%nat /\
  Forall (fun b => 0 <= b_mass b < 2 ^ 64 /\
                   length (b_x b) = n /\ Forall (fun p => 0 <= p < 2 ^ 64) (b_x b) /\
                   length (b_v b) = n /\ Forall (fun p => 0 <= p < 2 ^ 64) (b_v b)) bodies.
(** The system it stands for. *)
Definition nobody : body := {| b_x := []; b_v := []; b_mass := 0 |}.
Definition system_of (bodies : list body) : system datum :=
  let b i := nth i bodies nobody in
  System (fun i => datum_of 8 (b_mass (b i))) (fun i a => datum_of 8 (nth a (b_x (b i)) 0)) (fun i a => datum_of 8 (nth a (b_v (b i)) 0)).
(** The vector version has a fourth coordinate, which should be zero. *)
Definition flat (bodies : list body) : Prop :=
  forall b, In b bodies -> datum_of 8 (nth 3 (b_x b) 0) = zero /\ datum_of 8 (nth 3 (b_v b) 0) = zero.

Definition finite (d : datum) : Prop := exists s x, d = Fin s x.
Definition finite_speeds (s : system datum) : Prop := forall i a, (i < 5)%nat -> (a < 3)%nat -> finite (speed s i a).

(** ** Formulas *)

(** The sum of the squares of three numbers, added up from zero. *)
Definition squares (a b c : formula) : formula := Plus (Plus (Plus (Num 0) (square a)) (square b)) (square c).
(** dt / (d2 sqrt d2). *)
Definition magnitude_formula : formula := Over (Arg 0) (Times (Arg 1) (Root (Arg 1))).
(** The mass of the sun is 4 pi^2. *)
Definition solar_mass : formula := Times (Times (Num 4) (Num PI)) (Num PI).
Definition days_per_year : formula := Num (36524 / 100).

(** What the two versions do in different ways, though it is the same in exact arithmetic. *)
Record version := {
  (** The pull of a body along an axis: distance, magnitude, mass. *)
  pull : formula -> formula -> formula -> formula;
  (** The kinetic energy of a body: mass, square of the speed. *)
  kinetic : formula -> formula -> formula }.
Definition scalar_version : version := {|
  pull d mag m := Times d (Times m mag);
  kinetic m s := Over (Times s m) (Num 2) |}.
Definition vector_version : version := {|
  pull d mag m := Times (Times d mag) m;
  kinetic m s := Times (Times m s) (Num (1 / 2)) |}.

Section Laws.
  (** How formulas are evaluated. *)
  Context {D : Type} (ev : list D -> formula -> D -> Prop).
  Variable how : version.

  (** One step of time [dt].  [d i j] is the distance from body j to body i, for i < j, and [mag i j] is
      dt / |d i j|^3.  The bodies j pull at body i one after the other, and [w j] is the speed of body i when those
      before j have done so.  Then body i moves by dt times its new speed. *)
  Definition step (dt : D) (s s' : system D) : Prop :=
    exists (d : nat -> nat -> nat -> D) (mag : nat -> nat -> D),
      (forall i j a, (i < j < 5)%nat -> (a < 3)%nat -> ev [place s i a; place s j a] (Minus (Arg 0) (Arg 1)) (d i j a)) /\
      (forall i j, (i < j < 5)%nat -> exists q,
         ev [d i j 0; d i j 1; d i j 2]%nat (squares (Arg 0) (Arg 1) (Arg 2)) q /\ ev [dt; q] magnitude_formula (mag i j)) /\
      (forall i a, (i < 5)%nat -> (a < 3)%nat -> exists w : nat -> D,
         w 0%nat = speed s i a /\
         (forall j, (j < i)%nat -> ev [w j; d j i a; mag j i; mass s j] (Plus (Arg 0) (pull how (Arg 1) (Arg 2) (Arg 3))) (w (S j))) /\
         w (S i) = w i /\
         (forall j, (i < j < 5)%nat -> ev [w j; d i j a; mag i j; mass s j] (Minus (Arg 0) (pull how (Arg 1) (Arg 2) (Arg 3))) (w (S j))) /\
         speed s' i a = w 5%nat) /\
      (forall i a, (i < 5)%nat -> (a < 3)%nat ->
         ev [place s i a; dt; speed s' i a] (Plus (Arg 0) (Times (Arg 1) (Arg 2))) (place s' i a)) /\
      (forall i, (i < 5)%nat -> mass s' i = mass s i).

  (** The energy: body after body, its kinetic energy is added, and its potential energies with the later bodies are
      subtracted.  [w i i] is what there is before body i, [w i (S i)] with its kinetic energy, and [w i (S j)] when the
      potential energy with body j is subtracted. *)
  Definition energy (s : system D) (e : D) : Prop :=
    exists w : nat -> nat -> D,
      ev [] (Num 0) (w 0 0)%nat /\
      (forall i, (i < 5)%nat ->
         ev [w i i; mass s i; speed s i 0; speed s i 1; speed s i 2]%nat
            (Plus (Arg 0) (kinetic how (Arg 1) (squares (Arg 2) (Arg 3) (Arg 4)))) (w i (S i))) /\
      (forall i j, (i < j < 5)%nat -> exists q,
         ev [place s i 0; place s i 1; place s i 2; place s j 0; place s j 1; place s j 2]%nat
            (squares (Minus (Arg 0) (Arg 3)) (Minus (Arg 1) (Arg 4)) (Minus (Arg 2) (Arg 5))) q /\
         ev [w i j; mass s i; mass s j; q] (Minus (Arg 0) (Over (Times (Arg 1) (Arg 2)) (Root (Arg 3)))) (w i (S j))) /\
      (forall i, (i < 5)%nat -> w (S i) (S i) = w i 5%nat) /\
      e = w 5%nat 5%nat.

  (** Everything but the speed of the sun is the same. *)
  Definition only_sun_changed (s s' : system D) : Prop :=
    (forall i, (i < 5)%nat -> mass s' i = mass s i) /\
    (forall i a, (i < 5)%nat -> (a < 3)%nat -> place s' i a = place s i a) /\
    (forall i a, (0 < i < 5)%nat -> (a < 3)%nat -> speed s' i a = speed s i a).
  (** The scalar way to stop the system: the sun gets the total momentum, by its mass, backwards. *)
  Definition stopped_by_total (s s' : system D) : Prop :=
    only_sun_changed s s' /\
    forall a, (a < 3)%nat -> exists p : nat -> D,
      ev [] (Num 0) (p 0%nat) /\
      (forall i, (i < 5)%nat -> ev [p i; speed s i a; mass s i] (Plus (Arg 0) (Times (Arg 1) (Arg 2))) (p (S i))) /\
      ev [p 5%nat] (Over (Opposite (Arg 0)) solar_mass) (speed s' sun a).
  (** The vector way: it gets the momentum of one planet after the other. *)
  Definition stopped_by_planets (s s' : system D) : Prop :=
    only_sun_changed s s' /\
    forall a, (a < 3)%nat -> exists p : nat -> D,
      p 1%nat = speed s sun a /\
      (forall i, (0 < i < 5)%nat -> ev [p i; speed s i a; mass s i] (Minus (Arg 0) (Times (Arg 1) (Over (Arg 2) solar_mass))) (p (S i))) /\
      speed s' sun a = p 5%nat.
End Laws.

(** Evaluation in f64 and in exact arithmetic. *)
Definition in_f64 : list datum -> formula -> datum -> Prop := computed 8.
Definition exactly : list R -> formula -> R -> Prop := fun env e r => r = exact_value env e.

(** ** The solar system *)

(** Place in astronomical units, speed in these per day, mass in solar masses: Jupiter, Saturn, Uranus, Neptune. *)
Definition planets : list (list R * list R * R) :=
  [([484143144246472090 / 10 ^ 17; - 116032004402742839 / 10 ^ 17; - 103622044471123109 / 10 ^ 18],
    [166007664274403694 / 10 ^ 20; 769901118419740425 / 10 ^ 20; - 690460016972063023 / 10 ^ 22], 954791938424326609 / 10 ^ 21);
   ([834336671824457987 / 10 ^ 17; 412479856412430479 / 10 ^ 17; - 403523417114321381 / 10 ^ 18],
    [- 276742510726862411 / 10 ^ 20; 499852801234917238 / 10 ^ 20; 230417297573763929 / 10 ^ 22], 285885980666130812 / 10 ^ 21);
   ([128943695621391310 / 10 ^ 16; - 151111514016986312 / 10 ^ 16; - 223307578892655734 / 10 ^ 18],
    [296460137564761618 / 10 ^ 20; 237847173959480950 / 10 ^ 20; - 296589568540237556 / 10 ^ 22], 436624404335156298 / 10 ^ 22);
   ([153796971148509165 / 10 ^ 16; - 259193146099879641 / 10 ^ 16; 179258772950371181 / 10 ^ 18],
    [268067772490389322 / 10 ^ 20; 162824170038242295 / 10 ^ 20; - 951592254519715870 / 10 ^ 22], 515138902046611451 / 10 ^ 22)]%R.
Definition solar_system {D} (ev : list D -> formula -> D -> Prop) (s : system D) : Prop :=
  (ev [] solar_mass (mass s sun) /\
   forall a, (a < 3)%nat -> ev [] (Num 0) (place s sun a) /\ ev [] (Num 0) (speed s sun a)) /\
  forall i x v m, nth_error planets i = Some (x, v, m) ->
    ev [] (Times (Num m) solar_mass) (mass s (S i)) /\
    forall a, (a < 3)%nat ->
      ev [] (Num (nth a x 0%R)) (place s (S i) a) /\ ev [] (Times (Num (nth a v 0%R)) days_per_year) (speed s (S i) a).
(** The time of a step, 0.01 years. *)
Definition time_step : datum := Fin false (rounded 8 (1 / 100)).

(** ** Conserved quantities *)

(** The sum over the five bodies. *)
Definition over_bodies (f : nat -> R) : R := (f 0%nat + f 1%nat + f 2%nat + f 3%nat + f 4%nat)%R.
(** Momentum, the sum of the places weighted with the masses, and angular momentum in the plane of the axes a and b. *)
Definition momentum (s : system R) (a : nat) : R := over_bodies (fun i => mass s i * speed s i a)%R.
Definition weighted_places (s : system R) (a : nat) : R := over_bodies (fun i => mass s i * place s i a)%R.
Definition angular_momentum (s : system R) (a b : nat) : R :=
  over_bodies (fun i => mass s i * (place s i a * speed s i b - place s i b * speed s i a))%R.
(** Kinetic and potential energy. *)
Definition distance (s : system R) (i j : nat) : R :=
  (let sq a := (place s i a - place s j a) ^ 2 in R_sqrt.sqrt (sq 0%nat + sq 1%nat + sq 2%nat))%R.
(** Newton's law of gravity, with the gravitational constant 1: the acceleration of body i along an axis. *)
Definition acceleration (s : system R) (i a : nat) : R :=
  over_bodies (fun j => if (j =? i)%nat then 0 else mass s j * (place s j a - place s i a) / distance s i j ^ 3)%R.
(** Accelerated for the time [dt], and then moved with the new speeds. *)
Definition accelerated_and_moved (dt : R) (s s' : system R) : Prop :=
  (forall i, (i < 5)%nat -> mass s' i = mass s i) /\
  (forall i a, (i < 5)%nat -> (a < 3)%nat -> speed s' i a = speed s i a + dt * acceleration s i a)%R /\
  (forall i a, (i < 5)%nat -> (a < 3)%nat -> place s' i a = place s i a + dt * speed s' i a)%R.
Definition total_energy (s : system R) : R :=
  (over_bodies (fun i => / 2 * mass s i * (speed s i 0%nat ^ 2 + speed s i 1%nat ^ 2 + speed s i 2%nat ^ 2)) -
   over_bodies (fun j => over_bodies (fun i => if (i <? j)%nat then mass s i * mass s j / distance s i j else 0)))%R.

(** A run of [n] steps. *)
Definition steps {D} (ev : list D -> formula -> D -> Prop) (how : version) (dt : D) (n : nat) (s s' : system D) : Prop :=
  exists st : nat -> system D, st 0%nat = s /\ st n = s' /\ forall k, (k < n)%nat -> step ev how dt (st k) (st (S k)).
