(** The n-body example: the scalar version. *)
From Coq Require Import ZArith List Bool Lia Reals Lra QArith.
From Flocq Require Import Core.
From Verif.Model Require Import Base FloatLane Tables ExStencil ExOptions ExNbody.
From Verif.Spec Require Import Spec Floats Rays Formulas Gravity.
From Verif.Proofs Require Import Lib FloatP FloatOpsP FloatVecP FloatApiP FloatConstsP FormulaP.
Import ListNotations.
Open Scope Z_scope.
Local Notation pat := (pattern 8).
Local Notation dat := (datum_of 8).
Local Opaque fl_add fl_sub fl_mul fl_div fl_sqrt.

Definition Xc (l : list body) (i a : nat) : Z := nth a (b_x (nth i l nobody)) 0.
Definition Vc (l : list body) (i a : nat) : Z := nth a (b_v (nth i l nobody)) 0.
Definition Mc (l : list body) (i : nat) : Z := b_mass (nth i l nobody).

Lemma five_coords n l : five_bodies n l ->
  (forall i, (i < 5)%nat -> pat (Mc l i)) /\
  (forall i a, (i < 5)%nat -> (a < n)%nat -> pat (Xc l i a)) /\ (forall i a, (i < 5)%nat -> (a < n)%nat -> pat (Vc l i a)).
Proof.
  intros [L F]. assert (B : forall i, (i < 5)%nat -> In (nth i l nobody) l) by (intros i I; apply nth_In; now rewrite L).
  rewrite Forall_forall in F. split; [|split].
  - intros i I. exact (proj1 (F _ (B i I))).
  - intros i a I A. destruct (F _ (B i I)) as (_ & LX & FX & _). rewrite Forall_forall in FX. apply FX. apply nth_In. now rewrite LX.
  - intros i a I A. destruct (F _ (B i I)) as (_ & _ & _ & LX & FX). rewrite Forall_forall in FX. apply FX. apply nth_In. now rewrite LX.
Qed.

Ltac qq := repeat match goal with
  | |- pattern 8 (fl_add 8 _ _) => apply q_add
  | |- pattern 8 (fl_sub 8 _ _) => apply q_sub
  | |- pattern 8 (fl_mul 8 _ _) => apply q_mul
  | |- pattern 8 (fl_div 8 _ _) => apply q_div
  | |- pattern 8 (fl_sqrt 8 _) => apply q_sqrt
  | |- pattern 8 (f64_neg _) => apply q_neg
  end.
Ltac form := repeat match goal with
  | |- computed _ _ (Plus _ _) _ => apply e_plus
  | |- computed _ _ (Minus _ _) _ => apply e_minus
  | |- computed _ _ (Times _ _) _ => apply e_times
  | |- computed _ _ (Over _ _) _ => apply e_over
  | |- computed _ _ (Opposite _) _ => apply e_opp
  | |- computed _ _ (Root _) (datum_of 8 (fl_sqrt 8 _)) => apply e_sqrt
  | |- computed _ _ (Arg _) _ => apply e_arg; reflexivity
  end.

(** *** Literals *)
Lemma pos_zero : dat f64_0 = Fin (Rlt_bool 0 0) (rounded 8 0).
Proof.
  assert (R0 : rounded 8 0 = 0%R) by (unfold rounded; apply round_0; apply valid_rnd_N).
  rewrite R0, Rlt_bool_false by lra. unfold datum_of, magnitude.
  change (exp_field 8 f64_0) with 0. change (sig_field 8 f64_0) with 0. change (sign_field 8 f64_0) with false. cbn [Z.eqb].
  change (2 ^ exp_width 8 - 1) with 2047. cbn [Z.eqb]. f_equal. lra.
Qed.
Lemma q_zero : pat f64_0.
Proof. apply q_lit. vm_compute. split; congruence. Qed.
Lemma zero_datum : dat f64_0 = zero.
Proof.
  rewrite pos_zero. unfold zero. f_equal; [apply Rlt_bool_false; lra|]. unfold rounded. apply round_0. apply valid_rnd_N.
Qed.

Section Generic.
  Variables (P : Z -> Z -> Z -> Z) (SQ : Z -> Z) (Q : nat -> nat -> Z) (how : version) (dt : Z).
  Variables (X V : nat -> nat -> Z) (M : nat -> Z).
  Definition diff (i j a : nat) : Z := fl_sub 8 (X i a) (X j a).
  Definition magn (i j : nat) : Z := fl_div 8 dt (fl_mul 8 (Q i j) (SQ (Q i j))).
  Fixpoint chain (i a j : nat) : Z :=
    match j with
    | O => V i a
    | S j =>
        if (j <? i)%nat then fl_add 8 (chain i a j) (P (diff j i a) (magn j i) (M j))
        else if (j =? i)%nat then chain i a j
        else fl_sub 8 (chain i a j) (P (diff i j a) (magn i j) (M j))
    end.

  Hypothesis PD : pat dt.
  Hypothesis PM : forall i, (i < 5)%nat -> pat (M i).
  Hypothesis PX : forall i a, (i < 5)%nat -> (a < 3)%nat -> pat (X i a).
  Hypothesis PV : forall i a, (i < 5)%nat -> (a < 3)%nat -> pat (V i a).
  Hypothesis HQ : forall i j, (i < j < 5)%nat -> pat (Q i j) /\
    computed 8 [dat (diff i j 0); dat (diff i j 1); dat (diff i j 2)] (squares (Arg 0) (Arg 1) (Arg 2)) (dat (Q i j)).
  Hypothesis HS : forall p, pat p -> pat (SQ p) /\ ieee_sqrt 8 (dat p) (dat (SQ p)).
  Hypothesis HP : forall w d mg m, pat d -> pat mg -> pat m -> pat (P d mg m) /\
    computed 8 [dat w; dat d; dat mg; dat m] (pull how (Arg 1) (Arg 2) (Arg 3)) (dat (P d mg m)).

  Lemma p_diff i j a : (i < 5)%nat -> (j < 5)%nat -> (a < 3)%nat -> pat (diff i j a).
  Proof. intros I J A. apply q_sub; auto. Qed.
  Lemma p_magn i j : (i < j < 5)%nat -> pat (magn i j).
  Proof. intros I. destruct (HQ i j I) as [A _]. apply q_div; [exact PD|]. apply q_mul; [exact A|]. now apply HS. Qed.
  Lemma p_chain i a : (i < 5)%nat -> (a < 3)%nat -> forall j, (j <= 5)%nat -> pat (chain i a j).
  Proof.
    intros I A. induction j as [|j IH]; intros J; cbn [chain]; [auto|].
    destruct (Nat.ltb_spec j i); [|destruct (Nat.eqb_spec j i)].
    - apply q_add; [apply IH; lia|]. apply (HP 0 (diff j i a)); [apply p_diff; lia|apply p_magn; lia|apply PM; lia].
    - apply IH; lia.
    - apply q_sub; [apply IH; lia|]. apply (HP 0 (diff i j a)); [apply p_diff; lia|apply p_magn; lia|apply PM; lia].
  Qed.

  Lemma step_intro (X' V' : nat -> nat -> Z) (M' : nat -> Z) :
    (forall i a, (i < 5)%nat -> (a < 3)%nat -> V' i a = chain i a 5) ->
    (forall i a, (i < 5)%nat -> (a < 3)%nat -> X' i a = fl_add 8 (X i a) (fl_mul 8 dt (V' i a))) ->
    (forall i, (i < 5)%nat -> M' i = M i) ->
    step in_f64 how (dat dt) (System (fun i => dat (M i)) (fun i a => dat (X i a)) (fun i a => dat (V i a)))
                             (System (fun i => dat (M' i)) (fun i a => dat (X' i a)) (fun i a => dat (V' i a))).
  Proof.
    intros EV EX EM. exists (fun i j a => dat (diff i j a)), (fun i j => dat (magn i j)).
    cbn [mass place speed]. unfold in_f64. split; [|split; [|split; [|split]]].
    - intros i j a I A. unfold diff. form; apply PX; lia.
    - intros i j I. exists (dat (Q i j)). destruct (HQ i j I) as [A B]. split; [exact B|]. destruct (HS _ A) as [S1 S2].
      unfold magn, magnitude_formula. form; auto using q_mul. apply (e_root _ _ (Q i j)); [now apply e_arg|exact S2].
    - intros i a I A. exists (fun j => dat (chain i a j)). split; [reflexivity|].
      assert (L : forall j, (j < 5)%nat -> chain i a (S j) = if (j <? i)%nat then fl_add 8 (chain i a j) (P (diff j i a) (magn j i) (M j))
        else if (j =? i)%nat then chain i a j else fl_sub 8 (chain i a j) (P (diff i j a) (magn i j) (M j))) by reflexivity.
      split; [|split; [|split]].
      + intros j J. rewrite L by lia. rewrite (proj2 (Nat.ltb_lt j i) J).
        destruct (HP (chain i a j) (diff j i a) (magn j i) (M j)) as [H1 H2]; [apply p_diff; lia|apply p_magn; lia|apply PM; lia|].
        apply e_plus; [apply p_chain; lia|exact H1|now apply e_arg|exact H2].
      + rewrite L by lia. now rewrite Nat.ltb_irrefl, Nat.eqb_refl.
      + intros j J. rewrite L by lia. rewrite (proj2 (Nat.ltb_ge j i)) by lia. rewrite (proj2 (Nat.eqb_neq j i)) by lia.
        destruct (HP (chain i a j) (diff i j a) (magn i j) (M j)) as [H1 H2]; [apply p_diff; lia|apply p_magn; lia|apply PM; lia|].
        apply e_minus; [apply p_chain; lia|exact H1|now apply e_arg|exact H2].
      + now rewrite EV.
    - intros i a I A. rewrite EX by auto. assert (PV' : pat (V' i a)) by (rewrite EV by auto; apply p_chain; lia).
      form; auto using q_mul.
    - intros i I. now rewrite EM.
  Qed.
End Generic.

(** *** Scalar version *)
Lemma five_list (l : list body) : length l = 5%nat -> exists b0 b1 b2 b3 b4, l = [b0; b1; b2; b3; b4].
Proof. destruct l as [|b0 [|b1 [|b2 [|b3 [|b4 [|]]]]]]; try discriminate. intros _. repeat eexists. Qed.
Lemma three_list (l : list Z) : length l = 3%nat -> l = [nth 0 l 0; nth 1 l 0; nth 2 l 0].
Proof. destruct l as [|b0 [|b1 [|b2 [|]]]]; try discriminate. intros _. reflexivity. Qed.
Lemma body_eta b : b = {| b_x := b_x b; b_v := b_v b; b_mass := b_mass b |}.
Proof. now destruct b. Qed.

Definition scalar_P (d mag m : Z) : Z := fl_mul 8 d (fl_mul 8 m mag).
Definition scalar_Q (X : nat -> nat -> Z) (i j : nat) : Z :=
  let d := diff X i j in
  fl_add 8 (fl_add 8 (fl_add 8 f64_0 (fl_mul 8 (d 0%nat) (d 0%nat))) (fl_mul 8 (d 1%nat) (d 1%nat))) (fl_mul 8 (d 2%nat) (d 2%nat)).

Ltac case5 i := destruct i as [|[|[|[|[|i]]]]]; try (exfalso; lia).
Ltac case3 a := destruct a as [|[|[|a]]]; try (exfalso; lia).

(** Three-dimensional bodies, written out. *)
Definition body3 (x v : nat -> Z) (m : Z) : body := {| b_x := [x 0%nat; x 1%nat; x 2%nat]; b_v := [v 0%nat; v 1%nat; v 2%nat]; b_mass := m |}.
Definition bodies3 (X V : nat -> nat -> Z) (M : nat -> Z) : list body := map (fun i => body3 (X i) (V i) (M i)) (seq 0 5).
Lemma bodies3_eq l : five_bodies 3 l -> l = bodies3 (Xc l) (Vc l) (Mc l).
Proof.
  intros [L F]. destruct (five_list l L) as (b0 & b1 & b2 & b3 & b4 & ->).
  unfold bodies3. cbn [map seq].
  assert (E : forall b, In b [b0; b1; b2; b3; b4] -> b = body3 (fun a => nth a (b_x b) 0) (fun a => nth a (b_v b) 0) (b_mass b)).
  { intros b B. rewrite Forall_forall in F. destruct (F b B) as (_ & A1 & _ & A2 & _).
    unfold body3. rewrite <- (three_list _ A1), <- (three_list _ A2). apply body_eta. }
  rewrite (E b0) at 1 by (cbn; tauto). rewrite (E b1) at 1 by (cbn; tauto). rewrite (E b2) at 1 by (cbn; tauto).
  rewrite (E b3) at 1 by (cbn; tauto). rewrite (E b4) at 1 by (cbn; tauto). reflexivity.
Qed.

Lemma scalar_advance_eq X V M dt :
  let V' i a := chain scalar_P (fl_sqrt 8) (scalar_Q X) dt X V M i a 5 in
  scalar_advance (bodies3 X V M) dt = bodies3 (fun i a => fl_add 8 (X i a) (fl_mul 8 dt (V' i a))) V' M.
Proof. reflexivity. Qed.

Lemma five_bodies3 X V M : (forall i, (i < 5)%nat -> pat (M i)) ->
  (forall i a, (i < 5)%nat -> (a < 3)%nat -> pat (X i a)) -> (forall i a, (i < 5)%nat -> (a < 3)%nat -> pat (V i a)) ->
  five_bodies 3 (bodies3 X V M).
Proof.
  intros PM PX PV. split; [reflexivity|]. unfold bodies3. rewrite Forall_map, Forall_forall. intros i I. apply in_seq in I.
  cbn [body3 b_mass b_x b_v length]. split; [apply PM; lia|]. split; [reflexivity|].
  split; [repeat constructor; apply PX; lia|]. split; [reflexivity|repeat constructor; apply PV; lia].
Qed.
Lemma system_bodies3 X V M : (forall i, (i < 5)%nat -> mass (system_of (bodies3 X V M)) i = dat (M i)) /\
  (forall i a, (i < 5)%nat -> (a < 3)%nat -> place (system_of (bodies3 X V M)) i a = dat (X i a)) /\
  (forall i a, (i < 5)%nat -> (a < 3)%nat -> speed (system_of (bodies3 X V M)) i a = dat (V i a)).
Proof.
  split; [|split]; [intros i I; case5 i; reflexivity|..]; intros i a I A; case5 i; case3 a; reflexivity.
Qed.

(** Only the five bodies and three axes of a system matter. *)
Definition same_system {D} (s t : system D) : Prop :=
  (forall i, (i < 5)%nat -> mass s i = mass t i) /\
  (forall i a, (i < 5)%nat -> (a < 3)%nat -> place s i a = place t i a) /\
  (forall i a, (i < 5)%nat -> (a < 3)%nat -> speed s i a = speed t i a).
Lemma step_ext {D} ev how (dt : D) s s' t t' : same_system s t -> same_system s' t' -> step ev how dt s s' -> step ev how dt t t'.
Proof.
  intros (M & X & V) (M' & X' & V') (d & mag & A & B & C & E & F). exists d, mag. split; [|split; [|split; [|split]]].
  - intros i j a I L. rewrite <- !X by lia. now apply A.
  - exact B.
  - intros i a I L. destruct (C i a I L) as (w & W0 & W1 & W2 & W3 & W4). exists w.
    split; [rewrite W0; apply V; lia|]. split; [intros j J; rewrite <- M by lia; now apply W1|]. split; [exact W2|].
    split; [intros j J; rewrite <- M by lia; now apply W3|]. rewrite <- V' by lia. exact W4.
  - intros i a I L. rewrite <- X, <- X', <- V' by lia. now apply E.
  - intros i I. rewrite <- M, <- M' by lia. now apply F.
Qed.

Lemma scalar_P_ok w d mg m : pat d -> pat mg -> pat m -> pat (scalar_P d mg m) /\
  computed 8 [dat w; dat d; dat mg; dat m] (pull scalar_version (Arg 1) (Arg 2) (Arg 3)) (dat (scalar_P d mg m)).
Proof. intros A B C. unfold scalar_P. split; [auto with pats|]. cbn [pull scalar_version]. form; auto with pats. Qed.
Lemma sqrt_ok p : pat p -> pat (fl_sqrt 8 p) /\ ieee_sqrt 8 (dat p) (dat (fl_sqrt 8 p)).
Proof. intros P. exact (sqrt_pattern 8 fs8' p P). Qed.
Lemma scalar_Q_ok X : (forall i a, (i < 5)%nat -> (a < 3)%nat -> pat (X i a)) -> forall i j, (i < j < 5)%nat -> pat (scalar_Q X i j) /\
  computed 8 [dat (diff X i j 0); dat (diff X i j 1); dat (diff X i j 2)] (squares (Arg 0) (Arg 1) (Arg 2)) (dat (scalar_Q X i j)).
Proof.
  intros PX i j I. assert (PD : forall a, (a < 3)%nat -> pat (diff X i j a)) by (intros a A; apply q_sub; apply PX; lia).
  pose proof (PD 0%nat ltac:(lia)). pose proof (PD 1%nat ltac:(lia)). pose proof (PD 2%nat ltac:(lia)). pose proof q_zero.
  unfold scalar_Q, squares, square. split; [auto 10 with pats|]. form; auto 10 with pats. apply e_num. apply pos_zero.
Qed.

Lemma scalar_step bodies dt : five_bodies 3 bodies -> pat dt ->
  five_bodies 3 (scalar_advance bodies dt) /\
  step in_f64 scalar_version (dat dt) (system_of bodies) (system_of (scalar_advance bodies dt)).
Proof.
  intros F PD. destruct (five_coords 3 bodies F) as (PM & PX & PV). rewrite (bodies3_eq bodies F).
  set (X := Xc bodies) in *. set (V := Vc bodies) in *. set (M := Mc bodies) in *. rewrite scalar_advance_eq.
  set (V' := fun i a => chain scalar_P (fl_sqrt 8) (scalar_Q X) dt X V M i a 5).
  assert (PV' : forall i a, (i < 5)%nat -> (a < 3)%nat -> pat (V' i a)).
  { intros i a I A. unfold V'. apply p_chain with (how := scalar_version);
      auto using scalar_P_ok, sqrt_ok; now apply scalar_Q_ok. }
  split; [apply five_bodies3; [exact PM| |exact PV']; intros i a I A; apply q_add; [now apply PX|]; apply q_mul; [exact PD|now apply PV']|].
  pose proof (step_intro scalar_P (fl_sqrt 8) (scalar_Q X) scalar_version dt X V M PD PM PX PV (scalar_Q_ok X PX) sqrt_ok scalar_P_ok
    (fun i a => fl_add 8 (X i a) (fl_mul 8 dt (V' i a))) V' M (fun _ _ _ _ => eq_refl) (fun _ _ _ _ => eq_refl) (fun _ _ => eq_refl)) as S.
  refine (step_ext _ _ _ _ _ _ _ _ _ S).
  - destruct (system_bodies3 X V M) as (A & B & C). split; [intros i I; symmetry; now apply A|split; intros i a I J; symmetry; [now apply B|now apply C]].
  - destruct (system_bodies3 (fun i a => fl_add 8 (X i a) (fl_mul 8 dt (V' i a))) V' M) as (A & B & C). split; [intros i I; symmetry; now apply A|split; intros i a I J; symmetry; [now apply B|now apply C]].
Qed.

(** *** Energy *)
Section Energy.
  Variables (how : version) (K : Z -> Z -> Z) (Q : nat -> Z) (R : nat -> nat -> Z) (M : nat -> Z).
  (** [K m s]: kinetic energy; [Q i]: square of the speed; [R i j]: square of the distance. *)
  Definition pot (i j : nat) : Z := fl_div 8 (fl_mul 8 (M i) (M j)) (fl_sqrt 8 (R i j)).
  (** Energy with the terms of body i up to body j. *)
  Fixpoint etrack (e : Z) (i n : nat) : Z :=
    match n with
    | O => fl_add 8 e (K (M i) (Q i))
    | S n => fl_sub 8 (etrack e i n) (pot i (i + 1 + n))
    end.
  Fixpoint ebefore (i : nat) : Z :=
    match i with
    | O => f64_0
    | S i => etrack (ebefore i) i (4 - i)
    end.
  Definition efull : Z := ebefore 5.

  Variable s : system datum.
  Hypothesis HM : forall i, (i < 5)%nat -> pat (M i) /\ mass s i = dat (M i).
  Hypothesis HK : forall w i, (i < 5)%nat -> pat (K (M i) (Q i)) /\
    computed 8 [dat w; dat (M i); speed s i 0%nat; speed s i 1%nat; speed s i 2%nat] (kinetic how (Arg 1) (squares (Arg 2) (Arg 3) (Arg 4))) (dat (K (M i) (Q i))).
  Hypothesis HR : forall i j, (i < j < 5)%nat -> pat (R i j) /\
    computed 8 [place s i 0%nat; place s i 1%nat; place s i 2%nat; place s j 0%nat; place s j 1%nat; place s j 2%nat]
      (squares (Minus (Arg 0) (Arg 3)) (Minus (Arg 1) (Arg 4)) (Minus (Arg 2) (Arg 5))) (dat (R i j)).

  Lemma p_pot i j : (i < j < 5)%nat -> pat (pot i j).
  Proof. clear HK. intros I. unfold pot. qq; [apply HM; lia|apply HM; lia|apply HR; lia]. Qed.
  Lemma p_etrack e i n : (i < 5)%nat -> (i + n < 5)%nat -> pat e -> pat (etrack e i n).
  Proof.
    intros I N E. induction n as [|n IH]; cbn [etrack].
    - apply q_add; [exact E|]. apply (HK 0 i I).
    - apply q_sub; [apply IH; lia|apply p_pot; lia].
  Qed.
  Lemma p_ebefore i : (i <= 5)%nat -> pat (ebefore i).
  Proof. induction i as [|i IH]; intros I; cbn [ebefore]; [apply q_zero|]. apply p_etrack; [lia|lia|apply IH; lia]. Qed.

  Lemma energy_intro : pat efull /\ energy in_f64 how s (dat efull).
  Proof.
    split; [apply p_ebefore; lia|].
    exists (fun i j => dat (if (j <=? i)%nat then ebefore i else etrack (ebefore i) i (j - i - 1))). unfold in_f64.
    split; [|split; [|split; [|split]]].
    - cbn [Nat.leb]. apply e_num. exact pos_zero.
    - intros i I. rewrite Nat.leb_refl. rewrite (proj2 (Nat.leb_gt (S i) i)) by lia. replace (S i - i - 1)%nat with 0%nat by lia.
      cbn [etrack]. destruct (HK (ebefore i) i I) as [A B]. rewrite (proj2 (HM i I)).
      apply e_plus; [apply p_ebefore; lia|exact A|now apply e_arg|exact B].
    - intros i j I. destruct (HR i j I) as [A B]. exists (dat (R i j)). split; [exact B|].
      rewrite (proj2 (Nat.leb_gt j i)) by lia. rewrite (proj2 (Nat.leb_gt (S j) i)) by lia.
      replace (S j - i - 1)%nat with (S (j - i - 1)) by lia. cbn [etrack]. replace (i + 1 + (j - i - 1))%nat with j by lia.
      destruct (HM i ltac:(lia)) as [M1 ->]. destruct (HM j ltac:(lia)) as [M2 ->]. unfold pot.
      assert (pat (etrack (ebefore i) i (j - i - 1))) by (apply p_etrack; [lia|lia|apply p_ebefore; lia]).
      form; auto with pats.
    - intros i I. rewrite Nat.leb_refl. rewrite (proj2 (Nat.leb_gt 5 i)) by lia. cbn [ebefore].
      replace (5 - i - 1)%nat with (4 - i)%nat by lia. reflexivity.
    - reflexivity.
  Qed.
End Energy.

Definition scalar_K (m s : Z) : Z := fl_div 8 (fl_mul 8 s m) f64_2.
Definition three_squares (a b c : Z) : Z := fl_add 8 (fl_add 8 (fl_add 8 f64_0 (fl_mul 8 a a)) (fl_mul 8 b b)) (fl_mul 8 c c).
Lemma p_three a b c : pat a -> pat b -> pat c -> pat (three_squares a b c).
Proof. intros A B C. pose proof q_zero. unfold three_squares. auto 10 with pats. Qed.
Lemma scalar_energy_eq X V M :
  scalar_energy (bodies3 X V M) =
  efull scalar_K (fun i => three_squares (V i 0%nat) (V i 1%nat) (V i 2%nat))
    (fun i j => three_squares (fl_sub 8 (X i 0%nat) (X j 0%nat)) (fl_sub 8 (X i 1%nat) (X j 1%nat)) (fl_sub 8 (X i 2%nat) (X j 2%nat))) M.
Proof. reflexivity. Qed.

(** *** Literals, continued *)
Ltac lit8 lo hi k := match goal with |- datum_of 8 ?c = Fin (Rlt_bool ?x 0) _ =>
  refine (num_datum (2 ^ 52 + sig_field 8 c) k c lo hi x _ _ _ _ _ _ _ _ _);
  [vm_compute; reflexivity|vm_compute; reflexivity|vm_compute; discriminate|vm_compute; discriminate|
   unfold datum_of, magnitude; let e := eval vm_compute in (exp_field 8 c) in change (exp_field 8 c) with e; cbn [Z.eqb Pos.eqb]; reflexivity|
   | |vm_compute; reflexivity|vm_compute; reflexivity] end.
Ltac dec8 n d k :=
  lit8 (n # d)%Q (n # d)%Q k; [lra|unfold Q2R; cbn [Qnum Qden]; let v := eval vm_compute in (Z.pos d) in change (Z.pos d) with v; lra].
Lemma pow2_num c m e x : (Rabs x < bpow radix2 1023)%R -> x = (IZR m * bpow radix2 e)%R -> (0 < m < 2 ^ 53) -> -1074 <= e -> dat c = Fin false x -> dat c = Fin (Rlt_bool x 0) (rounded 8 x).
Proof.
  intros _ E M L D.
  assert (R : rounded 8 x = x).
  { unfold rounded. apply round_generic; [apply valid_rnd_N|]. apply generic_format_FLT. exists (Float radix2 m e).
    - rewrite E. reflexivity.
    - cbn [Fnum]. change (sig_width 8 + 1) with 53. rewrite Z.abs_eq by lia. apply M.
    - cbn [Fexp]. exact L. }
  rewrite R, D. f_equal. symmetry. apply Rlt_bool_false. rewrite E. apply Rmult_le_pos; [apply IZR_le; lia|apply bpow_ge_0].
Qed.
Lemma two_num : dat f64_2 = Fin (Rlt_bool 2 0) (rounded 8 2).
Proof.
  apply (pow2_num f64_2 1 1); [rewrite Rabs_pos_eq by lra; apply Rlt_trans with (bpow radix2 2); [cbn; lra|apply bpow_lt; lia]|cbn; lra|lia|lia|].
  unfold datum_of, magnitude. change (exp_field 8 f64_2) with 1024. cbn [Z.eqb Pos.eqb]. change (2 ^ exp_width 8 - 1) with 2047. cbn [Z.eqb Pos.eqb].
  change (sign_field 8 f64_2) with false. cbv iota. f_equal. change (sig_field 8 f64_2) with 0.
  change (1024 - bias 8 - sig_width 8) with (Z.opp 51). rewrite (bpow_inv 51) by lia.
  change (2 ^ sig_width 8 + 0) with 4503599627370496. change (2 ^ 51) with 2251799813685248. lra.
Qed.
Lemma four_num : dat f64_4 = Fin (Rlt_bool 4 0) (rounded 8 4).
Proof.
  apply (pow2_num f64_4 1 2); [rewrite Rabs_pos_eq by lra; apply Rlt_trans with (bpow radix2 3); [cbn; lra|apply bpow_lt; lia]|cbn; lra|lia|lia|].
  unfold datum_of, magnitude. change (exp_field 8 f64_4) with 1025. cbn [Z.eqb Pos.eqb]. change (2 ^ exp_width 8 - 1) with 2047. cbn [Z.eqb Pos.eqb].
  change (sign_field 8 f64_4) with false. cbv iota. f_equal. change (sig_field 8 f64_4) with 0.
  change (1025 - bias 8 - sig_width 8) with (Z.opp 50). rewrite (bpow_inv 50) by lia.
  change (2 ^ sig_width 8 + 0) with 4503599627370496. change (2 ^ 50) with 1125899906842624. lra.
Qed.
Lemma half_num : dat f64_half = Fin (Rlt_bool (1 / 2) 0) (rounded 8 (1 / 2)).
Proof.
  apply (pow2_num f64_half 1 (-1)); [rewrite Rabs_pos_eq by lra; apply Rlt_trans with (bpow radix2 3); [cbn; lra|apply bpow_lt; lia]|cbn; lra|lia|lia|].
  unfold datum_of, magnitude. change (exp_field 8 f64_half) with 1022. cbn [Z.eqb Pos.eqb]. change (2 ^ exp_width 8 - 1) with 2047. cbn [Z.eqb Pos.eqb].
  change (sign_field 8 f64_half) with false. cbv iota. f_equal. change (sig_field 8 f64_half) with 0.
  change (1022 - bias 8 - sig_width 8) with (Z.opp 53). rewrite (bpow_inv 53) by lia.
  change (2 ^ sig_width 8 + 0) with 4503599627370496. change (2 ^ 53) with 9007199254740992. lra.
Qed.
Lemma pi_num : dat f64_pi = Fin (Rlt_bool PI 0) (rounded 8 PI).
Proof. lit8 lo_PI hi_PI 51; [exact PI_RGT_0|exact bounds_PI]. Qed.
Lemma days_num : dat DAYS_PER_YEAR = Fin (Rlt_bool (36524 / 100) 0) (rounded 8 (36524 / 100)).
Proof. dec8 36524 100%positive 44. Qed.
Lemma step_num : dat f64_step = Fin (Rlt_bool (1 / 100) 0) (rounded 8 (1 / 100)).
Proof. dec8 1 100%positive 59. Qed.

Lemma q_two : pat f64_2. Proof. apply q_lit. vm_compute. split; congruence. Qed.
Lemma q_four : pat f64_4. Proof. apply q_lit. vm_compute. split; congruence. Qed.
Lemma q_half : pat f64_half. Proof. apply q_lit. vm_compute. split; congruence. Qed.
Lemma q_pi : pat f64_pi. Proof. apply q_lit. vm_compute. split; congruence. Qed.
Lemma q_days : pat DAYS_PER_YEAR. Proof. apply q_lit. vm_compute. split; congruence. Qed.
Lemma q_step : pat f64_step. Proof. apply q_lit. vm_compute. split; congruence. Qed.
Lemma q_solar : pat SOLAR_MASS.
Proof. pose proof q_four. pose proof q_pi. unfold SOLAR_MASS. auto with pats. Qed.
Lemma solar_ok env : computed 8 env solar_mass (dat SOLAR_MASS).
Proof.
  pose proof q_four. pose proof q_pi. unfold SOLAR_MASS, solar_mass. form; auto with pats; apply e_num; [exact four_num|exact pi_num|exact pi_num].
Qed.
#[export] Hint Resolve q_zero q_two q_four q_half q_pi q_days q_step q_solar : pats.

(** *** Scalar energy and momentum *)
Lemma e_squares env a b c x y z : pat x -> pat y -> pat z -> computed 8 env a (dat x) -> computed 8 env b (dat y) -> computed 8 env c (dat z) ->
  computed 8 env (squares a b c) (dat (three_squares x y z)).
Proof.
  intros P1 P2 P3 A B C. unfold squares, three_squares, square. form; auto 10 with pats. apply e_num. exact pos_zero.
Qed.

Lemma scalar_energy_ok bodies : five_bodies 3 bodies ->
  pat (scalar_energy bodies) /\ energy in_f64 scalar_version (system_of bodies) (dat (scalar_energy bodies)).
Proof.
  intros F. destruct (five_coords 3 bodies F) as (PM & PX & PV). rewrite (bodies3_eq bodies F).
  set (X := Xc bodies) in *. set (V := Vc bodies) in *. set (M := Mc bodies) in *. rewrite scalar_energy_eq.
  destruct (system_bodies3 X V M) as (A & B & C). clearbody X V M.
  apply energy_intro.
  - intros i I. split; [now apply PM|now apply A].
  - intros w i I. rewrite !C by lia. unfold scalar_K.
    assert (H : pat (three_squares (V i 0%nat) (V i 1%nat) (V i 2%nat))) by (apply p_three; apply PV; lia).
    assert (PM' := PM i I). split; [auto with pats|]. cbn [kinetic scalar_version]. form; auto with pats.
    + apply e_squares; try (apply PV; lia); now apply e_arg.
    + apply e_num. exact two_num.
  - intros i j I. rewrite !B by lia. split; [apply p_three; apply q_sub; apply PX; lia|].
    apply e_squares; try (apply q_sub; apply PX; lia); form; apply PX; lia.
Qed.

Definition sum_p (X V : nat -> nat -> Z) (M : nat -> Z) (a : nat) : nat -> Z :=
  fix go n := match n with O => f64_0 | S n => fl_add 8 (go n) (fl_mul 8 (V n a) (M n)) end.
Lemma scalar_offset_eq X V M : scalar_offset_momentum (bodies3 X V M) =
  Ok (bodies3 X (fun i a => if (i =? 0)%nat then fl_div 8 (f64_neg (sum_p X V M a 5)) SOLAR_MASS else V i a) M).
Proof. reflexivity. Qed.
Lemma scalar_offset_ok bodies : five_bodies 3 bodies -> exists bodies', scalar_offset_momentum bodies = Ok bodies' /\
  five_bodies 3 bodies' /\ stopped_by_total in_f64 (system_of bodies) (system_of bodies').
Proof.
  intros F. destruct (five_coords 3 bodies F) as (PM & PX & PV). rewrite (bodies3_eq bodies F).
  set (X := Xc bodies) in *. set (V := Vc bodies) in *. set (M := Mc bodies) in *. rewrite scalar_offset_eq.
  set (V' := fun i a => if (i =? 0)%nat then fl_div 8 (f64_neg (sum_p X V M a 5)) SOLAR_MASS else V i a).
  destruct (system_bodies3 X V M) as (A & B & C). destruct (system_bodies3 X V' M) as (A' & B' & C'). clearbody X V M.
  assert (PS : forall a n, (a < 3)%nat -> (n <= 5)%nat -> pat (sum_p X V M a n)).
  { intros a n L. induction n as [|n IH]; intros N; cbn [sum_p]; [apply q_zero|].
    apply q_add; [apply IH; lia|]. apply q_mul; [apply PV; lia|apply PM; lia]. }
  assert (PN : forall a, (a < 3)%nat -> pat (f64_neg (sum_p X V M a 5))) by (intros a L; apply q_neg; apply PS; lia).
  eexists. split; [reflexivity|]. split.
  - apply five_bodies3; [exact PM|exact PX|]. intros i a I L. unfold V'. destruct (Nat.eqb_spec i 0); [|now apply PV].
    apply q_div; [now apply PN|apply q_solar].
  - split.
    + split; [intros i I; now rewrite A', A|]. split; [intros i a I L; now rewrite B', B|].
      intros i a I L. rewrite C', C by lia. unfold V'. now rewrite (proj2 (Nat.eqb_neq i 0)) by lia.
    + intros a L. exists (fun n => dat (sum_p X V M a n)). unfold in_f64. split; [apply e_num; exact pos_zero|]. split.
      * intros i I. rewrite C, A by lia. cbn [sum_p]. form; [apply PS; lia|apply q_mul; [apply PV; lia|apply PM; lia]|apply PV; lia|apply PM; lia].
      * rewrite C' by (unfold sun; lia). unfold V', sun. cbn [Nat.eqb].
        apply e_over; [now apply PN|apply q_solar| |apply solar_ok]. apply e_opp; [apply PS; lia|now apply e_arg].
Qed.
