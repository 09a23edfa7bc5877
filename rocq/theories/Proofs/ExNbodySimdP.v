(** The n-body example: the vector version. *)
From Coq Require Import ZArith List Bool Lia Reals Lra.
From Flocq Require Import Core.
From Verif.Model Require Import Base FloatLane Llvm Tables MathTables Math Minimal Ops Reduce ExStencil ExOptions ExNbody.
From Verif.Spec Require Import Spec Floats MathSpec Rays Formulas Gravity.
From Verif.Proofs Require Import Lib FloatP FloatOpsP FloatVecP FloatApiP MathApiP MathLlvmP ExSpectralP FormulaP ExNbodyP ExNbodyDataP.
Import ListNotations.
Open Scope Z_scope.
Local Notation pat := (pattern 8).
Local Notation dat := (datum_of 8).
Local Opaque fl_add fl_sub fl_mul fl_div fl_sqrt.

Definition sum4 (tg : target) (a b c d : Z) : Z :=
  if on_aarch64 tg then fl_add 8 (fl_add 8 (fl_add 8 a b) c) d
  else fl_add 8 (fl_add 8 (fl_add 8 (fl_add 8 f64_0 a) b) c) d.
Lemma fsum4 tg a b c d : fsum tg f64x4 [a; b; c; d] = Ok (sum4 tg a b c d).
Proof. unfold fsum, sum4. destruct (on_aarch64 tg); reflexivity. Qed.

Definition body4 (x v : nat -> Z) (m : Z) : body :=
  {| b_x := [x 0%nat; x 1%nat; x 2%nat; x 3%nat]; b_v := [v 0%nat; v 1%nat; v 2%nat; v 3%nat]; b_mass := m |}.
Definition bodies4 (X V : nat -> nat -> Z) (M : nat -> Z) : list body := map (fun i => body4 (X i) (V i) (M i)) (seq 0 5).

Definition vec4 (f : nat -> Z) : vec := [f 0%nat; f 1%nat; f 2%nat; f 3%nat].
Definition ten {A} (f : nat -> nat -> A) : list A :=
  [f 0 1; f 0 2; f 0 3; f 0 4; f 1 2; f 1 3; f 1 4; f 2 3; f 2 4; f 3 4]%nat.
Lemma distances_eq X V M : simd_distances (bodies4 X V M) = Ok (ten (fun i j => vec4 (diff X i j))).
Proof. reflexivity. Qed.

Definition simd_P (d mag m : Z) : Z := fl_mul 8 (fl_mul 8 d mag) m.
Definition simd_Q (tg : target) (X : nat -> nat -> Z) (i j : nat) : Z :=
  let d := diff X i j in
  sum4 tg (fl_mul 8 (d 0%nat) (d 0%nat)) (fl_mul 8 (d 1%nat) (d 1%nat)) (fl_mul 8 (d 2%nat) (d 2%nat)) (fl_mul 8 (d 3%nat) (d 3%nat)).
Lemma square4 tg X i j : fsum tg f64x4 (mul f64x4 (vec4 (diff X i j)) (vec4 (diff X i j))) = Ok (simd_Q tg X i j).
Proof. apply fsum4. Qed.

Lemma pulls_eq X V M (mg : nat -> nat -> Z) :
  simd_pulls (ten (fun i j => vec4 (diff X i j))) (ten mg) (bodies4 X V M) =
  Ok (bodies4 X (fun i a => (fix go j := match j with O => V i a | S j =>
     if (j <? i)%nat then fl_add 8 (go j) (simd_P (diff X j i a) (mg j i) (M j))
     else if (j =? i)%nat then go j
     else fl_sub 8 (go j) (simd_P (diff X i j a) (mg i j) (M j)) end) 5%nat) M).
Proof. reflexivity. Qed.

Section Simd.
  Variables (X0 : externals) (tg : target) (junk : vec) (SQ : Z -> Z).
  Hypothesis HSQ : forall a b, pat a -> pat b -> method (sqrte X0 tg junk f64x2 [a; b]) = Ok [SQ a; SQ b].

  Lemma mags_step fuel dt r i mag r0 r1 s0 s1 : (i < N)%nat -> (i + 2 <= length mag)%nat -> at_ r i = Ok r0 -> at_ r (i + 1) = Ok r1 ->
    fsum tg f64x4 (mul f64x4 r0 r0) = Ok s0 -> fsum tg f64x4 (mul f64x4 r1 r1) = Ok s1 -> pat s0 -> pat s1 ->
    simd_mags X0 tg junk (S fuel) dt r i mag =
    simd_mags X0 tg junk fuel dt r (i + 2) (firstn i mag ++ [fl_div 8 dt (fl_mul 8 s0 (SQ s0)); fl_div 8 dt (fl_mul 8 s1 (SQ s1))] ++ skipn (i + 2) mag).
  Proof.
    intros I L E0 E1 F0 F1 P0 P1. cbn [simd_mags]. rewrite (proj2 (Nat.ltb_lt i N) I), E0, E1. cbn [bind]. rewrite F0, F1. cbn [bind].
    rewrite (HSQ s0 s1 P0 P1). cbn [bind].
    change (div f64x2 (splat f64x2 dt) (mul f64x2 [s0; s1] [SQ s0; SQ s1])) with
      (Ok [fl_div 8 dt (fl_mul 8 s0 (SQ s0)); fl_div 8 dt (fl_mul 8 s1 (SQ s1))]). cbn [bind].
    unfold write_f64x2. change (lanes f64x2) with 2%nat. rewrite (proj2 (Nat.leb_le i (length mag))) by lia. cbn [assert bind].
    rewrite skipn_length, (proj2 (Nat.leb_le 2 (length mag - i))) by lia. reflexivity.
  Qed.
  Lemma mags_eq dt X : (forall i j, (i < j < 5)%nat -> pat (simd_Q tg X i j)) ->
    simd_mags X0 tg junk N dt (ten (fun i j => vec4 (diff X i j))) 0 (repeat f64_0 N) = Ok (ten (magn SQ (simd_Q tg X) dt)).
  Proof.
    intros PQ. change N with 10%nat at 1.
    Ltac mag_step X0 tg X PQ a b c d := match goal with |- simd_mags _ _ _ (S ?f) ?dt ?r ?i ?mag = _ =>
      rewrite (mags_step f dt r i mag (vec4 (diff X a b)) (vec4 (diff X c d)) (simd_Q tg X a b) (simd_Q tg X c d));
      [|unfold N; cbn; lia|cbn; lia|reflexivity|reflexivity|apply square4|apply square4|apply PQ; lia|apply PQ; lia] end.
    mag_step X0 tg X PQ 0%nat 1%nat 0%nat 2%nat. mag_step X0 tg X PQ 0%nat 3%nat 0%nat 4%nat. mag_step X0 tg X PQ 1%nat 2%nat 1%nat 3%nat.
    mag_step X0 tg X PQ 1%nat 4%nat 2%nat 3%nat. mag_step X0 tg X PQ 2%nat 4%nat 3%nat 4%nat.
    reflexivity.
  Qed.

  Lemma simd_advance_eq X V M dt : (forall i j, (i < j < 5)%nat -> pat (simd_Q tg X i j)) ->
    let V' i a := chain simd_P SQ (simd_Q tg X) dt X V M i a 5 in
    simd_advance X0 tg junk (bodies4 X V M) dt = Ok (bodies4 (fun i a => fl_add 8 (X i a) (fl_mul 8 dt (V' i a))) V' M).
  Proof.
    intros PQ V'. unfold simd_advance. rewrite distances_eq. cbn [bind]. rewrite mags_eq by exact PQ. cbn [bind]. rewrite pulls_eq. reflexivity.
  Qed.
End Simd.

(** *** The fourth coordinate *)
Lemma ieee_zero p r : pat p -> dat p <> Fin true 0 -> forall u v,
  (u = dat p /\ v = zero) \/ (u = zero /\ v = dat p) -> ieee_add 8 u v r -> r = dat p.
Proof.
  intros P N u v UV A.
  assert (A' : match dat p with NaN => r = NaN | Inf s => r = Inf s | Fin s u => rounds_to 8 u false r end).
  { destruct UV as [[-> ->]|[-> ->]]; unfold zero in A; destruct (dat p) as [|s|s w]; cbn in A; auto.
    - now rewrite Rplus_0_r, andb_false_r in A.
    - now rewrite Rplus_0_l in A. }
  clear A. destruct (dat p) as [|s|s w] eqn:D; [exact A'|exact A'|].
  destruct (finite_datum 8 fs8' p s w P D) as (E & B & Neg & Pos).
  apply (rounds_exact 8 w false s r E B); [|exact A'].
  split; [exact Neg|]. split; [exact Pos|]. intros ->. destruct s; [now elim N|reflexivity].
Qed.
Lemma add_zero_r p z : pat p -> dat p <> Fin true 0 -> pat z -> dat z = zero -> dat (fl_add 8 p z) = dat p.
Proof.
  intros P N PZ Z. destruct (add_pattern 8 fs8' p z P PZ) as [_ A]. apply (ieee_zero p _ P N (dat p) (dat z)); auto.
Qed.
Lemma add_zero_l p : pat p -> dat p <> Fin true 0 -> dat (fl_add 8 f64_0 p) = dat p.
Proof.
  intros P N. destruct (add_pattern 8 fs8' f64_0 p q_zero P) as [_ A]. apply (ieee_zero p _ P N (dat f64_0) (dat p)); auto using zero_datum.
Qed.
Lemma square_sign p : pat p -> dat (fl_mul 8 p p) <> Fin true 0.
Proof.
  intros P E. destruct (mul_pattern 8 fs8' p p P P) as [_ A]. rewrite E in A. destruct (dat p) as [|s|s u]; cbn in A; try discriminate.
  rewrite xorb_nilpotent in A. destruct A as (s' & (S1 & S2 & S3) & A). destruct (Rlt_bool _ _); [|discriminate]. injection A as A _. subst s'.
  assert (0 <= u * u)%R by (pose proof (Rle_0_sqr u) as H; exact H).
  destruct (Req_dec (u * u) 0) as [Z|Z]; [discriminate (S3 Z)|]. discriminate S2. lra.
Qed.

(** A zero of any sign. *)
Definition null (p : Z) : Prop := exists s, dat p = Fin s 0.
Definition fin (p : Z) : Prop := finite (dat p).
Lemma null_mul p q : pat p -> pat q -> null p -> fin q -> null (fl_mul 8 p q).
Proof.
  intros P Q (s & D) (s' & u & D'). destruct (mul_pattern 8 fs8' p q P Q) as [_ A]. rewrite D, D' in A. cbn in A.
  exists (xorb s s'). rewrite Rmult_0_l in A. apply (rounds_exact 8 0 (xorb s s')); [| | |exact A].
  - unfold rounded. apply round_0. apply valid_rnd_N.
  - rewrite Rabs_R0. apply bpow_gt_0.
  - split; [intros H; lra|]. split; [intros H; lra|reflexivity].
Qed.
Lemma null_mul' p q : pat p -> pat q -> fin p -> null q -> null (fl_mul 8 p q).
Proof.
  intros P Q (s' & u & D') (s & D). destruct (mul_pattern 8 fs8' p q P Q) as [_ A]. rewrite D, D' in A. cbn in A.
  exists (xorb s' s). rewrite Rmult_0_r in A. apply (rounds_exact 8 0 (xorb s' s)); [| | |exact A].
  - unfold rounded. apply round_0. apply valid_rnd_N.
  - rewrite Rabs_R0. apply bpow_gt_0.
  - split; [intros H; lra|]. split; [intros H; lra|reflexivity].
Qed.
Lemma zero_null p : dat p = zero -> null p.
Proof. intros E. now exists false. Qed.
Lemma null_fin p : null p -> fin p.
Proof. intros (s & E). now exists s, 0%R. Qed.
Lemma sum_zero r s : rounds_to 8 (0 + 0) (false && s) r -> r = zero.
Proof.
  rewrite Rplus_0_r. intros A. apply (rounds_exact 8 0 false); [| | |exact A].
  - unfold rounded. apply round_0. apply valid_rnd_N.
  - rewrite Rabs_R0. apply bpow_gt_0.
  - split; [intros H; lra|]. split; [intros H; lra|reflexivity].
Qed.
Lemma zero_add p q : pat p -> pat q -> dat p = zero -> null q -> dat (fl_add 8 p q) = zero.
Proof.
  intros P Q D (s & D'). destruct (add_pattern 8 fs8' p q P Q) as [_ A]. rewrite D, D' in A. cbn in A. now apply sum_zero in A.
Qed.
Lemma zero_sub p q : pat p -> pat q -> dat p = zero -> null q -> dat (fl_sub 8 p q) = zero.
Proof.
  intros P Q D (s & D'). destruct (sub_pattern 8 fs8' p q P Q) as [_ A]. rewrite D, D' in A. cbn in A. rewrite Ropp_0 in A. now apply sum_zero in A.
Qed.
Lemma zero_square p : pat p -> dat p = zero -> dat (fl_mul 8 p p) = zero.
Proof.
  intros P D. destruct (null_mul p p P P) as (s & E); [now apply zero_null|now apply null_fin, zero_null|].
  pose proof (square_sign p P) as N. rewrite E in *. destruct s; [now elim N|reflexivity].
Qed.

(** A finite result has finite operands. *)
Lemma ieee_fin_add x y r : ieee_add 8 x y r -> finite r -> finite x /\ finite y.
Proof.
  intros A (s & u & ->). destruct x as [|s1|s1 u1], y as [|s2|s2 u2]; cbn in A; try discriminate; [destruct (Bool.eqb _ _); discriminate|].
  split; [now exists s1, u1|now exists s2, u2].
Qed.
Lemma fin_add p q : pat p -> pat q -> fin (fl_add 8 p q) -> fin p /\ fin q.
Proof. intros P Q. apply ieee_fin_add. exact (proj2 (add_pattern 8 fs8' p q P Q)). Qed.
Lemma fin_sub p q : pat p -> pat q -> fin (fl_sub 8 p q) -> fin p /\ fin q.
Proof.
  intros P Q H. destruct (ieee_fin_add _ _ _ (proj2 (sub_pattern 8 fs8' p q P Q)) H) as [A (s & u & B)]. split; [exact A|].
  unfold fin. destruct (dat q) as [|s1|s1 u1]; try discriminate. now exists s1, u1.
Qed.
Lemma fin_mul p q : pat p -> pat q -> fin (fl_mul 8 p q) -> fin p /\ fin q.
Proof.
  intros P Q (s & u & E). pose proof (proj2 (mul_pattern 8 fs8' p q P Q)) as A. rewrite E in A. unfold fin.
  destruct (dat p) as [|s1|s1 u1], (dat q) as [|s2|s2 u2]; cbn in A; try discriminate; try (destruct (Req_bool _ _); discriminate).
  split; [now exists s1, u1|now exists s2, u2].
Qed.
Lemma fin_div p q : pat p -> pat q -> fin (fl_div 8 p q) -> fin p.
Proof.
  intros P Q (s & u & E). pose proof (proj2 (div_pattern 8 fs8' p q P Q)) as A. rewrite E in A. unfold fin.
  destruct (dat p) as [|s1|s1 u1], (dat q) as [|s2|s2 u2]; cbn in A; try discriminate; now exists s1, u1.
Qed.

(** *** Squares of vectors *)
Lemma p_sum4 tg a b c d : pat a -> pat b -> pat c -> pat d -> pat (sum4 tg a b c d).
Proof. intros A B C D. pose proof q_zero. unfold sum4. destruct (on_aarch64 tg); auto 10 with pats. Qed.
Lemma sum4_squares tg env A B C x y z t : pat x -> pat y -> pat z -> pat t -> dat t = zero ->
  computed 8 env A (dat x) -> computed 8 env B (dat y) -> computed 8 env C (dat z) ->
  computed 8 env (squares A B C) (dat (sum4 tg (fl_mul 8 x x) (fl_mul 8 y y) (fl_mul 8 z z) (fl_mul 8 t t))).
Proof.
  intros PX PY PZ PT Z CX CY CZ. pose proof q_zero as P0.
  set (a := fl_mul 8 x x). set (b := fl_mul 8 y y). set (c := fl_mul 8 z z). set (d := fl_mul 8 t t).
  assert (Pa : pat a) by now apply q_mul. assert (Pb : pat b) by now apply q_mul. assert (Pc : pat c) by now apply q_mul. assert (Pd : pat d) by now apply q_mul.
  assert (Na : dat a <> Fin true 0) by now apply square_sign. assert (Zd : dat d = zero) by now apply zero_square.
  assert (Ea : computed 8 env (Plus (Num 0) (square A)) (dat a)).
  { rewrite <- (add_zero_l a Pa Na). unfold a, square. form; auto with pats. apply e_num. exact pos_zero. }
  assert (E3 : forall e, pat e -> dat e <> Fin true 0 -> computed 8 env (Plus (Num 0) (square A)) (dat e) ->
     computed 8 env (squares A B C) (dat (fl_add 8 (fl_add 8 (fl_add 8 e b) c) d))).
  { intros e Pe Ne Ee. rewrite add_zero_r; auto with pats.
    - unfold squares, square at 2 3, b, c. apply e_plus; auto with pats; [|form; auto]. apply e_plus; auto with pats. form; auto.
    - apply (add_not_minus_zero 8); auto using fs8' with pats. apply (add_not_minus_zero 8); auto using fs8'. }
  unfold sum4. destruct (on_aarch64 tg).
  - apply E3; auto.
  - apply E3; [auto with pats| |].
    + rewrite add_zero_l; auto.
    + rewrite add_zero_l; auto.
Qed.

(** *** Four-dimensional bodies, written out *)
Ltac case4 a := destruct a as [|[|[|[|a]]]]; try (exfalso; lia).
Lemma four_list (l : list Z) : length l = 4%nat -> l = [nth 0 l 0; nth 1 l 0; nth 2 l 0; nth 3 l 0].
Proof. destruct l as [|b0 [|b1 [|b2 [|b3 [|]]]]]; try discriminate. intros _. reflexivity. Qed.
Lemma bodies4_eq l : five_bodies 4 l -> l = bodies4 (Xc l) (Vc l) (Mc l).
Proof.
  intros [L F]. destruct (five_list l L) as (b0 & b1 & b2 & b3 & b4 & ->).
  unfold bodies4. cbn [map seq].
  assert (E : forall b, In b [b0; b1; b2; b3; b4] -> b = body4 (fun a => nth a (b_x b) 0) (fun a => nth a (b_v b) 0) (b_mass b)).
  { intros b B. rewrite Forall_forall in F. destruct (F b B) as (_ & A1 & _ & A2 & _).
    unfold body4. rewrite <- (four_list _ A1), <- (four_list _ A2). apply body_eta. }
  rewrite (E b0) at 1 by (cbn; tauto). rewrite (E b1) at 1 by (cbn; tauto). rewrite (E b2) at 1 by (cbn; tauto).
  rewrite (E b3) at 1 by (cbn; tauto). rewrite (E b4) at 1 by (cbn; tauto). reflexivity.
Qed.
Lemma five_bodies4 X V M : (forall i, (i < 5)%nat -> pat (M i)) ->
  (forall i a, (i < 5)%nat -> (a < 4)%nat -> pat (X i a)) -> (forall i a, (i < 5)%nat -> (a < 4)%nat -> pat (V i a)) ->
  five_bodies 4 (bodies4 X V M).
Proof.
  intros PM PX PV. split; [reflexivity|]. unfold bodies4. rewrite Forall_map, Forall_forall. intros i I. apply in_seq in I.
  cbn [body4 b_mass b_x b_v length]. split; [apply PM; lia|]. split; [reflexivity|].
  split; [repeat constructor; apply PX; lia|]. split; [reflexivity|repeat constructor; apply PV; lia].
Qed.
Lemma system_bodies4 X V M : same_system (System (fun i => dat (M i)) (fun i a => dat (X i a)) (fun i a => dat (V i a))) (system_of (bodies4 X V M)).
Proof.
  split; [|split]; [intros i I; case5 i; reflexivity|..]; intros i a I A; case5 i; case3 a; reflexivity.
Qed.
Lemma flat_bodies4 X V M : flat (bodies4 X V M) <-> forall i, (i < 5)%nat -> dat (X i 3%nat) = zero /\ dat (V i 3%nat) = zero.
Proof.
  split.
  - intros F i I. apply (F (body4 (X i) (V i) (M i))). unfold bodies4. apply (in_map (fun i => body4 (X i) (V i) (M i))). apply in_seq. lia.
  - intros H b B. unfold bodies4 in B. apply in_map_iff in B as (i & <- & I). apply in_seq in I. apply H. lia.
Qed.

(** *** One step *)
Section Step.
  Variables (tg : target) (SQ : Z -> Z) (dt : Z) (X V : nat -> nat -> Z) (M : nat -> Z).
  Hypothesis HSQ : forall p, pat p -> pat (SQ p) /\ ieee_sqrt 8 (dat p) (dat (SQ p)).
  Hypothesis PD : pat dt.
  Hypothesis PM : forall i, (i < 5)%nat -> pat (M i).
  Hypothesis PX : forall i a, (i < 5)%nat -> (a < 4)%nat -> pat (X i a).
  Hypothesis PV : forall i a, (i < 5)%nat -> (a < 4)%nat -> pat (V i a).
  Local Notation mag := (magn SQ (simd_Q tg X) dt).
  Local Notation chn := (chain simd_P SQ (simd_Q tg X) dt X V M).

  Lemma p_diff4 i j a : (i < 5)%nat -> (j < 5)%nat -> (a < 4)%nat -> pat (diff X i j a).
  Proof. clear - PX. intros I J A. apply q_sub; auto. Qed.
  Lemma p_Q i j : (i < j < 5)%nat -> pat (simd_Q tg X i j).
  Proof. clear - PX. intros I. apply p_sum4; apply q_mul; apply p_diff4; lia. Qed.
  Lemma p_mag4 i j : (i < j < 5)%nat -> pat (mag i j).
  Proof. intros I. apply q_div; [exact PD|]. apply q_mul; [now apply p_Q|]. apply HSQ. now apply p_Q. Qed.
  Lemma p_pull d mg m : pat d -> pat mg -> pat m -> pat (simd_P d mg m).
  Proof. clear. intros A B C. apply q_mul; [now apply q_mul|exact C]. Qed.
  Lemma p_chain4 i a : (i < 5)%nat -> (a < 4)%nat -> forall j, (j <= 5)%nat -> pat (chn i a j).
  Proof.
    intros I A. induction j as [|j IH]; intros J; cbn [chain]; [auto|].
    destruct (Nat.ltb_spec j i); [|destruct (Nat.eqb_spec j i)].
    - apply q_add; [apply IH; lia|]. apply p_pull; [apply p_diff4; lia|apply p_mag4; lia|apply PM; lia].
    - apply IH; lia.
    - apply q_sub; [apply IH; lia|]. apply p_pull; [apply p_diff4; lia|apply p_mag4; lia|apply PM; lia].
  Qed.

  Lemma simd_P_ok w d mg m : pat d -> pat mg -> pat m -> pat (simd_P d mg m) /\
    computed 8 [dat w; dat d; dat mg; dat m] (pull vector_version (Arg 1) (Arg 2) (Arg 3)) (dat (simd_P d mg m)).
  Proof. clear. intros A B C. unfold simd_P. split; [auto with pats|]. cbn [pull vector_version]. form; auto with pats. Qed.
  Lemma simd_Q_ok : (forall i, (i < 5)%nat -> dat (X i 3%nat) = zero) -> forall i j, (i < j < 5)%nat -> pat (simd_Q tg X i j) /\
    computed 8 [dat (diff X i j 0); dat (diff X i j 1); dat (diff X i j 2)] (squares (Arg 0) (Arg 1) (Arg 2)) (dat (simd_Q tg X i j)).
  Proof.
    clear - PX. intros Z i j I. split; [now apply p_Q|]. Transparent simd_Q. unfold simd_Q. apply sum4_squares; try (apply p_diff4; lia); try now apply e_arg.
    unfold diff. apply zero_sub; [apply PX; lia|apply PX; lia|apply Z; lia|apply zero_null, Z; lia].
  Qed.
  Opaque simd_Q.

  (** Finite speeds come from finite magnitudes and masses. *)
  Lemma fin_pull d mg m : pat d -> pat mg -> pat m -> fin (simd_P d mg m) -> fin mg /\ fin m.
  Proof.
    clear. intros A B C H. unfold simd_P in H. apply fin_mul in H as [H1 H2]; [|now apply q_mul|exact C].
    apply fin_mul in H1 as [_ H1]; auto.
  Qed.
  Lemma chain_fin i a : (i < 5)%nat -> (a < 4)%nat -> forall n, (n <= 5)%nat -> fin (chn i a n) ->
    forall j, (j < n)%nat -> ((j < i)%nat -> fin (mag j i) /\ fin (M j)) /\ ((i < j)%nat -> fin (mag i j) /\ fin (M j)).
  Proof.
    intros I A. induction n as [|n IH]; intros N H j J; [lia|]. cbn [chain] in H.
    destruct (Nat.ltb_spec n i); [|destruct (Nat.eqb_spec n i)].
    - apply fin_add in H as [H1 H2]; [|apply p_chain4; lia|apply p_pull; [apply p_diff4; lia|apply p_mag4; lia|apply PM; lia]].
      apply fin_pull in H2; [|apply p_diff4; lia|apply p_mag4; lia|apply PM; lia].
      destruct (Nat.eq_dec j n) as [->|E]; [|apply IH; auto; lia]. split; [auto|lia].
    - destruct (Nat.eq_dec j n) as [->|E]; [lia|]. apply IH; auto; lia.
    - apply fin_sub in H as [H1 H2]; [|apply p_chain4; lia|apply p_pull; [apply p_diff4; lia|apply p_mag4; lia|apply PM; lia]].
      apply fin_pull in H2; [|apply p_diff4; lia|apply p_mag4; lia|apply PM; lia].
      destruct (Nat.eq_dec j n) as [->|E]; [|apply IH; auto; lia]. split; [lia|auto].
  Qed.

  Lemma chain_start i a : (i < 5)%nat -> (a < 4)%nat -> forall n, (n <= 5)%nat -> fin (chn i a n) -> fin (V i a).
  Proof.
    intros I A. induction n as [|n IH]; intros N H; [exact H|]. cbn [chain] in H.
    destruct (Nat.ltb_spec n i); [|destruct (Nat.eqb_spec n i)].
    - apply fin_add in H as [H1 H2]; [|apply p_chain4; lia|apply p_pull; [apply p_diff4; lia|apply p_mag4; lia|apply PM; lia]].
      apply IH; [lia|exact H1].
    - apply IH; [lia|exact H].
    - apply fin_sub in H as [H1 H2]; [|apply p_chain4; lia|apply p_pull; [apply p_diff4; lia|apply p_mag4; lia|apply PM; lia]].
      apply IH; [lia|exact H1].
  Qed.

  Hypothesis FL : forall i, (i < 5)%nat -> dat (X i 3%nat) = zero /\ dat (V i 3%nat) = zero.
  Hypothesis FS : forall i, (i < 5)%nat -> fin (chn i 0%nat 5).
  Lemma zero_pull i j : (i < j < 5)%nat -> forall m, (m = i \/ m = j) -> null (simd_P (diff X i j 3) (mag i j) (M m)).
  Proof.
    intros I m E.
    destruct (chain_fin i 0 ltac:(lia) ltac:(lia) 5 ltac:(lia) (FS i ltac:(lia)) j ltac:(lia)) as [_ H1].
    destruct (chain_fin j 0 ltac:(lia) ltac:(lia) 5 ltac:(lia) (FS j ltac:(lia)) i ltac:(lia)) as [H2 _].
    destruct (H1 ltac:(lia)) as [G1 G2]. destruct (H2 ltac:(lia)) as [_ G3].
    assert (pat (diff X i j 3)) by (apply p_diff4; lia). assert (pat (mag i j)) by (apply p_mag4; lia).
    assert (pat (M m)) by (apply PM; lia).
    assert (Zd : null (diff X i j 3)).
    { apply zero_null. unfold diff. apply zero_sub; [apply PX; lia|apply PX; lia|apply FL; lia|apply zero_null, FL; lia]. }
    unfold simd_P. apply null_mul; [now apply q_mul|assumption|now apply null_mul|]. destruct E as [->| ->]; assumption.
  Qed.
  Lemma chain_zero i : (i < 5)%nat -> forall n, (n <= 5)%nat -> dat (chn i 3%nat n) = zero.
  Proof.
    intros I. induction n as [|n IH]; intros N; cbn [chain]; [now apply FL|].
    destruct (Nat.ltb_spec n i); [|destruct (Nat.eqb_spec n i)].
    - apply zero_add; [apply p_chain4; lia|apply p_pull; [apply p_diff4; lia|apply p_mag4; lia|apply PM; lia]|apply IH; lia|apply zero_pull; auto; lia].
    - apply IH; lia.
    - apply zero_sub; [apply p_chain4; lia|apply p_pull; [apply p_diff4; lia|apply p_mag4; lia|apply PM; lia]|apply IH; lia|apply zero_pull; auto; lia].
  Qed.
  Lemma dt_fin : fin dt.
  Proof.
    destruct (chain_fin 0 0 ltac:(lia) ltac:(lia) 5 ltac:(lia) (FS 0%nat ltac:(lia)) 1 ltac:(lia)) as [_ H].
    destruct (H ltac:(lia)) as [H1 _]. apply fin_div in H1; [exact H1|exact PD|].
    apply q_mul; [apply p_Q; lia|]. apply HSQ. apply p_Q. lia.
  Qed.
End Step.

Section Advance.
  Variables (X0 : externals) (Sx : lane_functions) (tg : target) (junk : vec).
  Hypothesis HW : works_lanewise X0 Sx.
  Hypothesis HF : follows_llvm Sx.
  Hypothesis HS : ~ uses_sleef tg.
  Hypothesis HJ : is_vector f64x2 junk.

  Lemma find_sqrt : exists SQ, (forall a b, pat a -> pat b -> method (sqrte X0 tg junk f64x2 [a; b]) = Ok [SQ a; SQ b]) /\
    (forall p, pat p -> pat (SQ p) /\ ieee_sqrt 8 (dat p) (dat (SQ p))).
  Proof.
    assert (I : In f64x2 math_types) by (cbn; tauto).
    destruct (unary_methods tg f64x2 I) as (_ & U & _). destruct (U HS) as (_ & _ & _ & _ & (f & E1 & E2 & E3 & H) & _).
    specialize (H X0 Sx HW). exists (l1 Sx f).
    assert (A : forall a b, pat a -> pat b -> method (sqrte X0 tg junk f64x2 [a; b]) = Ok [l1 Sx f a; l1 Sx f b] /\ pat (l1 Sx f a)).
    { intros a b A B. destruct (H [a; b] junk) as (r & E & [VR R]); [|exact HJ|].
      - split; [reflexivity|]. exact (Forall_cons _ A (Forall_cons _ B (Forall_nil _))).
      - rewrite E. cbn [method]. destruct (R 0%nat a eq_refl) as (c & C & ->). destruct (R 1%nat b eq_refl) as (d & D & ->).
        destruct VR as [L FR]. change (lanes f64x2) with 2%nat in L. destruct r as [|u [|v [|]]]; try discriminate.
        cbn in C, D. injection C as ->. injection D as ->. split; [reflexivity|]. now inversion FR. }
    split; [intros a b Pa Pb; now apply A|]. intros p P. split; [now apply (A p p)|].
    destruct (HF f E3) as (_ & G & _); [now right|]. rewrite E2 in G. apply G; [exact E1|]. unfold lane_pattern. rewrite E2. exact P.
  Qed.

  Lemma simd_step bodies dt : five_bodies 4 bodies -> pat dt -> exists bodies', simd_advance X0 tg junk bodies dt = Ok bodies' /\
    five_bodies 4 bodies' /\
    (flat bodies -> step in_f64 vector_version (dat dt) (system_of bodies) (system_of bodies')) /\
    (flat bodies -> finite_speeds (system_of bodies') -> flat bodies') /\
    (finite_speeds (system_of bodies') -> finite_speeds (system_of bodies)).
  Proof.
    intros F PD. destruct find_sqrt as (SQ & HSQ & HQ). destruct (five_coords 4 bodies F) as (PM & PX & PV). rewrite (bodies4_eq bodies F).
    set (X := Xc bodies) in *. set (V := Vc bodies) in *. set (M := Mc bodies) in *. clearbody X V M. clear F bodies.
    pose proof (simd_advance_eq X0 tg junk SQ HSQ X V M dt (p_Q tg X PX)) as E.
    set (V' := fun i a => chain simd_P SQ (simd_Q tg X) dt X V M i a 5) in *. cbv zeta in E.
    set (X' := fun i a => fl_add 8 (X i a) (fl_mul 8 dt (V' i a))) in *.
    assert (PV' : forall i a, (i < 5)%nat -> (a < 4)%nat -> pat (V' i a)) by (intros i a I A; now apply p_chain4).
    assert (PX' : forall i a, (i < 5)%nat -> (a < 4)%nat -> pat (X' i a)).
    { intros i a I A. apply q_add; [now apply PX|]. apply q_mul; [exact PD|now apply PV']. }
    exists (bodies4 X' V' M). split; [exact E|]. split; [now apply five_bodies4|]. split; [|split].
    - intros FL. rewrite flat_bodies4 in FL.
      assert (PX3 : forall i a, (i < 5)%nat -> (a < 3)%nat -> pat (X i a)) by (intros; apply PX; lia).
      assert (PV3 : forall i a, (i < 5)%nat -> (a < 3)%nat -> pat (V i a)) by (intros; apply PV; lia).
      refine (step_ext _ _ _ _ _ _ _ (system_bodies4 X V M) (system_bodies4 X' V' M) _).
      refine (step_intro simd_P SQ (simd_Q tg X) vector_version dt X V M PD PM PX3 PV3 _ HQ simd_P_ok X' V' M
        (fun _ _ _ _ => eq_refl) (fun _ _ _ _ => eq_refl) (fun _ _ => eq_refl)).
      apply simd_Q_ok; [exact PX|]. intros i I. now apply FL.
    - intros FL FS. rewrite flat_bodies4 in *.
      assert (FS' : forall i, (i < 5)%nat -> fin (chain simd_P SQ (simd_Q tg X) dt X V M i 0 5)).
      { intros i I. specialize (FS i 0%nat I ltac:(lia)). destruct (system_bodies4 X' V' M) as (_ & _ & S). rewrite <- S in FS by lia. exact FS. }
      assert (Z : forall i, (i < 5)%nat -> dat (V' i 3%nat) = zero) by (intros i I; unfold V'; now apply chain_zero).
      intros i I. split; [|now apply Z]. unfold X'.
      assert (fin dt) by (now apply (dt_fin tg SQ dt X V M)).
      apply zero_add; [apply PX; lia|apply q_mul; [exact PD|apply PV'; lia]|now apply FL|]. apply null_mul'; [exact PD|apply PV'; lia|assumption|].
      apply zero_null. now apply Z.
    - intros FS i a I A. specialize (FS i a I A). destruct (system_bodies4 X' V' M) as (_ & _ & S'). rewrite <- S' in FS by lia.
      destruct (system_bodies4 X V M) as (_ & _ & S). rewrite <- S by lia. cbn [speed] in *.
      apply (chain_start tg SQ dt X V M HQ PD PM PX PV i a I ltac:(lia) 5 ltac:(lia) FS).
  Qed.
End Advance.
