(** The n-body example: energy, start and runs of the vector version. *)
From Coq Require Import ZArith List Bool Lia Reals Lra.
From Flocq Require Import Core.
From Verif.Model Require Import Base FloatLane Llvm Tables MathTables Math Minimal Ops Reduce ExStencil ExOptions ExNbody.
From Verif.Spec Require Import Spec Floats MathSpec Rays Formulas Gravity.
From Verif.Proofs Require Import Lib FloatP FloatOpsP FloatVecP FloatApiP MathApiP MathLlvmP FormulaP ExNbodyP ExNbodyDataP ExNbodySimdP.
Import ListNotations.
Open Scope Z_scope.
Local Notation pat := (pattern 8).
Local Notation dat := (datum_of 8).
Local Opaque fl_add fl_sub fl_mul fl_div fl_sqrt.

Definition simd_K (m s : Z) : Z := fl_mul 8 (fl_mul 8 m s) f64_half.
Definition four_squares (tg : target) (v : nat -> Z) : Z :=
  sum4 tg (fl_mul 8 (v 0%nat) (v 0%nat)) (fl_mul 8 (v 1%nat) (v 1%nat)) (fl_mul 8 (v 2%nat) (v 2%nat)) (fl_mul 8 (v 3%nat) (v 3%nat)).
Lemma simd_energy_eq tg X V M : simd_energy tg (bodies4 X V M) =
  Ok (efull simd_K (fun i => four_squares tg (V i)) (fun i j => four_squares tg (diff X i j)) M).
Proof. unfold four_squares, sum4, simd_energy, fsum. destruct (on_aarch64 tg); reflexivity. Qed.
Lemma p_four tg v : (forall a, (a < 4)%nat -> pat (v a)) -> pat (four_squares tg v).
Proof. intros P. apply p_sum4; apply q_mul; apply P; lia. Qed.

Section Track.
  Variables (K : Z -> Z -> Z) (Q : nat -> Z) (R : nat -> nat -> Z) (M : nat -> Z).
  Hypothesis PM : forall i, (i < 5)%nat -> pat (M i).
  Hypothesis PK : forall i, (i < 5)%nat -> pat (K (M i) (Q i)).
  Hypothesis PR : forall i j, (i < j < 5)%nat -> pat (R i j).
  Lemma p_etrack' e i n : (i < 5)%nat -> (i + n < 5)%nat -> pat e -> pat (etrack K Q R M e i n).
  Proof.
    intros I N E. induction n as [|n IH]; cbn [etrack]; [apply q_add; auto|].
    apply q_sub; [apply IH; lia|]. unfold pot. qq; [apply PM; lia|apply PM; lia|apply PR; lia].
  Qed.
  Lemma p_ebefore' i : (i <= 5)%nat -> pat (ebefore K Q R M i).
  Proof. induction i as [|i IH]; intros I; cbn [ebefore]; [apply q_zero|]. apply p_etrack'; [lia|lia|apply IH; lia]. Qed.
  Lemma fin_etrack e i n : (i < 5)%nat -> (i + n < 5)%nat -> pat e -> fin (etrack K Q R M e i n) -> fin e /\ fin (K (M i) (Q i)).
  Proof.
    intros I N E. induction n as [|n IH]; intros H; cbn [etrack] in H; [apply fin_add in H; auto|].
    apply fin_sub in H as [H _]; [|apply p_etrack'; auto; lia|unfold pot; qq; [apply PM; lia|apply PM; lia|apply PR; lia]].
    apply IH; [lia|exact H].
  Qed.
  Lemma fin_ebefore n : (n <= 5)%nat -> fin (ebefore K Q R M n) -> forall i, (i < n)%nat -> fin (K (M i) (Q i)).
  Proof.
    induction n as [|n IH]; intros N H i I; [lia|]. cbn [ebefore] in H. apply fin_etrack in H as [H1 H2]; [|lia|lia|apply p_ebefore'; lia].
    destruct (Nat.eq_dec i n) as [->|E]; [exact H2|]. apply IH; auto; lia.
  Qed.
End Track.
Lemma fin_four tg v : (forall a, (a < 4)%nat -> pat (v a)) -> fin (four_squares tg v) -> forall a, (a < 4)%nat -> fin (v a).
Proof.
  intros P H. assert (PQ : forall a, (a < 4)%nat -> pat (fl_mul 8 (v a) (v a))) by (intros; apply q_mul; auto).
  pose proof (PQ 0%nat ltac:(lia)) as Q0. pose proof (PQ 1%nat ltac:(lia)) as Q1. pose proof (PQ 2%nat ltac:(lia)) as Q2. pose proof (PQ 3%nat ltac:(lia)) as Q3. pose proof q_zero as Qz.
  assert (G : forall a, (a < 4)%nat -> fin (fl_mul 8 (v a) (v a))).
  { unfold four_squares, sum4 in H. destruct (on_aarch64 tg).
    - apply fin_add in H as [H H3]; auto with pats. apply fin_add in H as [H H2]; auto with pats. apply fin_add in H as [H' H1]; auto with pats.
      intros a L. case4 a; assumption.
    - apply fin_add in H as [H H3]; auto with pats. apply fin_add in H as [H H2]; auto with pats. apply fin_add in H as [H H1]; auto with pats.
      apply fin_add in H as [_ H']; auto. intros a L. case4 a; assumption. }
  intros a L. apply (fin_mul (v a) (v a)); auto.
Qed.

Lemma simd_energy_ok tg bodies : five_bodies 4 bodies -> exists e, simd_energy tg bodies = Ok e /\ pat e /\
  (flat bodies -> energy in_f64 vector_version (system_of bodies) (dat e)) /\ (finite (dat e) -> finite_speeds (system_of bodies)).
Proof.
  intros F. destruct (five_coords 4 bodies F) as (PM & PX & PV). rewrite (bodies4_eq bodies F).
  set (X := Xc bodies) in *. set (V := Vc bodies) in *. set (M := Mc bodies) in *. rewrite simd_energy_eq.
  destruct (system_bodies4 X V M) as (A & B & C). cbn [mass place speed] in A, B, C. clearbody X V M.
  assert (PK : forall i, (i < 5)%nat -> pat (simd_K (M i) (four_squares tg (V i)))).
  { intros i I. unfold simd_K. assert (pat (four_squares tg (V i))) by (apply p_four; intros a L; now apply PV). assert (PM' := PM i I). auto with pats. }
  assert (PR : forall i j, (i < j < 5)%nat -> pat (four_squares tg (diff X i j))).
  { intros i j I. apply p_four. intros a L. apply q_sub; apply PX; lia. }
  eexists. split; [reflexivity|]. split; [now apply p_ebefore'|]. split.
  2: { intros H i a I L. pose proof (fin_ebefore _ _ _ M PM PK PR 5 ltac:(lia) H i I) as G. rewrite <- C by lia. unfold simd_K in G.
    assert (P4 : pat (four_squares tg (V i))) by (apply p_four; intros b' B'; now apply PV). assert (PM' := PM i I).
    apply fin_mul in G as [G _]; auto with pats. apply fin_mul in G as [_ G]; auto. apply (fin_four tg (V i)); [intros; now apply PV|exact G|lia]. }
  intros FL. rewrite flat_bodies4 in FL.
  apply energy_intro.
  - intros i I. split; [now apply PM|symmetry; now apply A].
  - intros w i I. rewrite <- !C by lia. unfold simd_K.
    assert (H : pat (four_squares tg (V i))) by (apply p_four; intros a L; now apply PV).
    assert (PM' := PM i I). split; [auto with pats|]. cbn [kinetic vector_version]. form; auto with pats.
    + apply sum4_squares; try (apply PV; lia); try now apply e_arg. now apply FL.
    + apply e_num. exact half_num.
  - intros i j I. rewrite <- !B by lia.
    assert (P : forall a, (a < 4)%nat -> pat (diff X i j a)) by (intros a L; apply q_sub; apply PX; lia).
    split; [now apply p_four|]. apply sum4_squares; try (apply P; lia); unfold diff; form; try (apply PX; lia).
    apply zero_sub; [apply PX; lia|apply PX; lia|apply FL; lia|apply zero_null, FL; lia].
Qed.

(** *** Momentum *)
Definition sub_p (V : nat -> nat -> Z) (M : nat -> Z) (a : nat) : nat -> Z :=
  fix go n := match n with O => V 0%nat a | S n => fl_sub 8 (go n) (fl_mul 8 (V (S n) a) (fl_div 8 (M (S n)) SOLAR_MASS)) end.
Lemma simd_offset_eq X V M : simd_offset_momentum (bodies4 X V M) =
  Ok (bodies4 X (fun i a => if (i =? 0)%nat then sub_p V M a 4 else V i a) M).
Proof. reflexivity. Qed.
Lemma simd_offset_ok bodies : five_bodies 4 bodies -> exists bodies', simd_offset_momentum bodies = Ok bodies' /\
  five_bodies 4 bodies' /\ stopped_by_planets in_f64 (system_of bodies) (system_of bodies') /\
  (flat bodies -> finite_speeds (system_of bodies') -> flat bodies').
Proof.
  intros F. destruct (five_coords 4 bodies F) as (PM & PX & PV). rewrite (bodies4_eq bodies F).
  set (X := Xc bodies) in *. set (V := Vc bodies) in *. set (M := Mc bodies) in *. rewrite simd_offset_eq.
  set (V' := fun i a => if (i =? 0)%nat then sub_p V M a 4 else V i a).
  destruct (system_bodies4 X V M) as (A & B & C). destruct (system_bodies4 X V' M) as (A' & B' & C').
  cbn [mass place speed] in A, B, C, A', B', C'. clearbody X V M.
  assert (PR : forall n, (n < 5)%nat -> pat (fl_div 8 (M n) SOLAR_MASS)) by (intros n N; apply q_div; [now apply PM|apply q_solar]).
  assert (PS : forall a n, (a < 4)%nat -> (n <= 4)%nat -> pat (sub_p V M a n)).
  { intros a n L. induction n as [|n IH]; intros N; cbn [sub_p]; [apply PV; lia|].
    apply q_sub; [apply IH; lia|]. apply q_mul; [apply PV; lia|apply PR; lia]. }
  assert (PV' : forall i a, (i < 5)%nat -> (a < 4)%nat -> pat (V' i a)).
  { intros i a I L. unfold V'. destruct (Nat.eqb_spec i 0); [now apply PS|now apply PV]. }
  eexists. split; [reflexivity|]. split; [now apply five_bodies4|]. split.
  - split.
    + split; [intros i I; now rewrite <- A, <- A'|]. split; [intros i a I L; now rewrite <- B, <- B'|].
      intros i a I L. rewrite <- C, <- C' by lia. unfold V'. now rewrite (proj2 (Nat.eqb_neq i 0)) by lia.
    + intros a L. exists (fun n => dat (sub_p V M a (n - 1))). split; [|split].
      * unfold sun. rewrite <- C by lia. reflexivity.
      * intros i I. rewrite <- C, <- A by lia. destruct i as [|i]; [lia|]. replace (S (S i) - 1)%nat with (S i) by lia.
        replace (S i - 1)%nat with i by lia. cbn [sub_p]. unfold in_f64.
        assert (pat (sub_p V M a i)) by (apply PS; lia). assert (pat (V (S i) a)) by (apply PV; lia). assert (pat (M (S i))) by (apply PM; lia).
        form; auto with pats. apply solar_ok.
      * unfold sun. rewrite <- C' by lia. reflexivity.
  - intros FL FS. rewrite flat_bodies4 in *.
    assert (G : forall n, (n <= 4)%nat -> fin (sub_p V M 0 n) -> forall k, (k < n)%nat -> fin (fl_div 8 (M (S k)) SOLAR_MASS)).
    { induction n as [|n IH]; intros N H k K; [lia|]. cbn [sub_p] in H.
      apply fin_sub in H as [H1 H2]; [|apply PS; lia|apply q_mul; [apply PV; lia|apply PR; lia]].
      apply fin_mul in H2 as [_ H2]; [|apply PV; lia|apply PR; lia].
      destruct (Nat.eq_dec k n) as [->|E]; [exact H2|]. apply IH; auto; lia. }
    assert (F4 : fin (sub_p V M 0 4)).
    { specialize (FS 0%nat 0%nat ltac:(lia) ltac:(lia)). rewrite <- C' in FS by lia. exact FS. }
    assert (Z : forall n, (n <= 4)%nat -> dat (sub_p V M 3 n) = zero).
    { induction n as [|n IH]; intros N; cbn [sub_p]; [apply FL; lia|].
      apply zero_sub; [apply PS; lia|apply q_mul; [apply PV; lia|apply PR; lia]|apply IH; lia|].
      apply null_mul; [apply PV; lia|apply PR; lia|apply zero_null, FL; lia|]. apply (G 4%nat); auto; lia. }
    intros i I. split; [now apply FL|]. unfold V'. destruct (Nat.eqb_spec i 0); [now apply Z|now apply FL].
Qed.

(** *** Runs *)
Lemma foreach_chain {S} (Inv : S -> Prop) (R : S -> S -> Prop) (f : S -> outcome S) : (forall x, Inv x -> exists y, f x = Ok y /\ Inv y /\ R x y) ->
  forall n k x, Inv x -> exists st : nat -> S, st 0%nat = x /\ foreach (seq k n) x (fun _ y => f y) = Ok (st n) /\
    (forall j, (j <= n)%nat -> Inv (st j)) /\ (forall j, (j < n)%nat -> R (st j) (st (j + 1)%nat)).
Proof.
  intros H. induction n as [|n IH]; intros k x I.
  - exists (fun _ => x). cbn [seq foreach]. repeat split; auto. intros j J. lia.
  - destruct (H x I) as (y & E0 & I' & Rx). destruct (IH (1 + k)%nat y I') as (st & S0 & E & Is & Rs).
    exists (fun j => match j with O => x | S j => st j end). cbn [seq foreach bind]. rewrite E0. split; [reflexivity|]. split; [exact E|]. split.
    + intros [|j] J; [exact I|apply Is; lia].
    + intros [|j] J; cbn [Nat.add]; [now rewrite S0|apply Rs; lia].
Qed.

Lemma simd_bodies_five : five_bodies 4 simd_BODIES.
Proof. exact (bodies_five [f64_0] (Forall_cons _ q_zero (Forall_nil _))). Qed.
Lemma start_flat : exists l, simd_offset_momentum simd_BODIES = Ok l /\ flat l.
Proof.
  assert (E : match simd_offset_momentum simd_BODIES with
              | Ok l => forallb (fun b => (nth 3 (b_x b) 0 =? f64_0) && (nth 3 (b_v b) 0 =? f64_0))%bool l = true
              | _ => False end) by (vm_compute; reflexivity).
  destruct (simd_offset_momentum simd_BODIES) as [l| |]; [|destruct E|destruct E]. exists l. split; [reflexivity|].
  intros b B. rewrite forallb_forall in E. specialize (E b B). apply andb_true_iff in E as [E1 E2]. apply Z.eqb_eq in E1, E2.
  rewrite E1, E2. split; exact zero_datum.
Qed.

Lemma simd_run_ok X0 Sx tg junk n : works_lanewise X0 Sx -> follows_llvm Sx -> ~ uses_sleef tg -> is_vector f64x2 junk ->
  exists s0 s1 s2 a b, simd_run X0 tg junk n = Ok (a, b) /\ pat a /\ pat b /\
    solar_system in_f64 s0 /\ stopped_by_planets in_f64 s0 s1 /\ energy in_f64 vector_version s1 (dat a) /\
    (finite (dat b) -> steps in_f64 vector_version time_step n s1 s2 /\ energy in_f64 vector_version s2 (dat b)).
Proof.
  intros HW HF HS HJ.
  destruct (simd_offset_ok simd_BODIES simd_bodies_five) as (l1 & E1 & F1 & O & _).
  destruct start_flat as (l & E & FL). rewrite E1 in E. injection E as <-.
  destruct (foreach_chain (five_bodies 4) (fun x y =>
      (flat x -> step in_f64 vector_version time_step (system_of x) (system_of y)) /\
      (flat x -> finite_speeds (system_of y) -> flat y) /\ (finite_speeds (system_of y) -> finite_speeds (system_of x)))
    (fun x => simd_advance X0 tg junk x f64_step)) with (n := n) (k := 0%nat) (x := l1) as (st & S0 & E2 & Is & Rs); [|exact F1|].
  { intros x I. rewrite <- time_datum. destruct (simd_step X0 Sx tg junk HW HF HS HJ x f64_step I q_step) as (y & Ey & A & B & C & D).
    exists y. auto. }
  destruct (simd_energy_ok tg l1 F1) as (a & Ea & Pa & A1 & _). destruct (simd_energy_ok tg (st n) (Is n (le_n n))) as (b & Eb & Pb & A2 & B2).
  exists (system_of simd_BODIES), (system_of l1), (system_of (st n)), a, b.
  split; [unfold simd_run; rewrite E1; cbn [bind]; rewrite Ea; cbn [bind]; rewrite E2; cbn [bind]; rewrite Eb; reflexivity|].
  split; [exact Pa|]. split; [exact Pb|]. split; [apply bodies_start|]. split; [exact O|]. split; [now apply A1|].
  intros FB. specialize (B2 FB).
  assert (FS : forall k, (k <= n)%nat -> finite_speeds (system_of (st (n - k)%nat))).
  { induction k as [|k IH]; intros K; [now rewrite Nat.sub_0_r|]. destruct (Rs (n - S k)%nat ltac:(lia)) as (_ & _ & R).
    apply R. replace (n - S k + 1)%nat with (n - k)%nat by lia. apply IH. lia. }
  assert (FF : forall k, (k <= n)%nat -> flat (st k)).
  { induction k as [|k IH]; intros K; [now rewrite S0|]. destruct (Rs k ltac:(lia)) as (_ & R & _). rewrite <- (Nat.add_1_r k).
    apply R; [apply IH; lia|]. specialize (FS (n - (k + 1))%nat ltac:(lia)). now replace (n - (n - (k + 1)))%nat with (k + 1)%nat in FS by lia. }
  split; [|apply A2, FF; lia]. exists (fun k => system_of (st k)). split; [now rewrite S0|]. split; [reflexivity|]. intros k K.
  rewrite <- (Nat.add_1_r k). apply (Rs k K). apply FF. lia.
Qed.
