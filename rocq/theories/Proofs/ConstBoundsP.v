(** Rational bounds on the real constants, from the alternating series of arctangent and
    of the exponential function, evaluated in rational arithmetic. *)
From Coq Require Import ZArith QArith Qreals Reals Machin Lra Lia.
Open Scope R_scope.

Fixpoint qpow (x : Q) (n : nat) : Q :=
  match n with O => 1%Q | S m => Qred (x * qpow x m) end.
Fixpoint qsum (f : nat -> Q) (n : nat) : Q :=
  match n with O => f O | S m => Qred (qsum f m + f (S m)) end.

Lemma Q2R_red q : Q2R (Qred q) = Q2R q.
Proof. apply Qeq_eqR. apply Qred_correct. Qed.
Lemma Q2R_int z : Q2R (inject_Z z) = IZR z.
Proof. unfold Q2R, inject_Z; cbn [Qnum Qden]. rewrite Rinv_1. ring. Qed.
Lemma Q2R_pow x n : Q2R (qpow x n) = Q2R x ^ n.
Proof. induction n as [|n IH]; cbn [qpow pow]; [apply Q2R_int with (z := 1%Z)|]. now rewrite Q2R_red, Q2R_mult, IH. Qed.
Lemma Q2R_sum f g n : (forall i, Q2R (f i) = g i) -> Q2R (qsum f n) = sum_f_R0 g n.
Proof. intros H. induction n as [|n IH]; cbn [qsum sum_f_R0]; [apply H|]. now rewrite Q2R_red, Q2R_plus, IH, H. Qed.

(** [Qle_bool] as a comparison of reals. *)
Lemma Qle_R x y : Qle_bool x y = true -> Q2R x <= Q2R y.
Proof. intros H. apply Qle_Rle. now apply Qle_bool_iff. Qed.
Lemma frac_R p q : Q2R (p # q) = IZR p / IZR (Zpos q).
Proof. reflexivity. Qed.

(** Archimedes' constant. *)
Definition q_pi (i : nat) : Q :=
  let o := inject_Z (Z.of_nat (2 * i + 1)) in
  (qpow (-1) i * (2 * (qpow (1 # 3) (2 * i + 1) / o) + qpow (1 # 7) (2 * i + 1) / o))%Q.
Lemma q_pi_R i : Q2R (q_pi i) = tg_alt PI_2_3_7_tg i.
Proof.
  assert (E1 : Q2R (-1) = -1) by (unfold Q2R; cbn; lra).
  assert (E2 : Q2R 2 = 2) by (unfold Q2R; cbn; lra).
  assert (E3 : Q2R (1 # 3) = / 3) by (unfold Q2R; cbn; lra).
  assert (E7 : Q2R (1 # 7) = / 7) by (unfold Q2R; cbn; lra).
  assert (N : ~ (inject_Z (Z.of_nat (2 * i + 1)) == 0)%Q).
  { intros H. unfold Qeq, inject_Z in H. cbn [Qnum Qden] in H. lia. }
  unfold q_pi, tg_alt, PI_2_3_7_tg, Ratan_seq.
  rewrite Q2R_mult, Q2R_plus, Q2R_mult, !Q2R_div by exact N.
  rewrite !Q2R_pow, Q2R_int, E1, E2, E3, E7, <- INR_IZR_INZ. reflexivity.
Qed.
Definition qlo_pi : Q := (3141592653589793238462643 # 1000000000000000000000000)%Q.
Definition qhi_pi : Q := (3141592653589793238462644 # 1000000000000000000000000)%Q.
Lemma pi_bounds : Q2R qlo_pi <= PI <= Q2R qhi_pi.
Proof.
  destruct (PI_2_3_7_ineq 14) as [L _]. destruct (PI_2_3_7_ineq 14) as [_ U].
  rewrite <- (Q2R_sum _ _ _ q_pi_R) in L. rewrite <- (Q2R_sum _ _ _ q_pi_R) in U.
  assert (L2 : Q2R (qlo_pi * (1 # 4)) <= Q2R (qsum q_pi (S (2 * 14)))) by (apply Qle_R; vm_compute; reflexivity).
  assert (U2 : Q2R (qsum q_pi (2 * 14)) <= Q2R (qhi_pi * (1 # 4))) by (apply Qle_R; vm_compute; reflexivity).
  rewrite Q2R_mult in L2, U2. assert (E4 : Q2R (1 # 4) = / 4) by (unfold Q2R; cbn; lra). rewrite E4 in L2, U2.
  split; lra.
Qed.

(** The exponential function at a negative argument. *)
(** The partial sum of x^i * k! / (k + i)! with alternating signs, in Horner's form. *)
Fixpoint q_exp (x : Q) (k n : nat) : Q :=
  match n with O => 1%Q | S m => (1 - x * (1 # Pos.of_succ_nat k) * q_exp x (S k) m)%Q end.
Lemma Ropp_eq_mult r : - r = -1 * r.
Proof. ring. Qed.
Lemma q_exp_R x n : forall k,
  Q2R (q_exp x k n) = sum_f_R0 (fun i => (-1) ^ i * (Q2R x ^ i * INR (fact k) / INR (fact (k + i)))) n.
Proof.
  induction n as [|n IH]; intros k.
  - cbn [q_exp sum_f_R0 pow]. rewrite RMicromega.Q2R_1, Nat.add_0_r. field. apply INR_fact_neq_0.
  - rewrite decomp_sum by lia. cbn [q_exp Nat.pred]. rewrite Q2R_minus, !Q2R_mult, IH, RMicromega.Q2R_1.
    assert (Ek : Q2R (1 # Pos.of_succ_nat k) = / INR (S k)).
    { unfold Q2R; cbn [Qnum Qden]. rewrite Rmult_1_l, INR_IZR_INZ. f_equal. }
    rewrite Ek. cbn [pow]. rewrite Nat.add_0_r.
    replace (1 * (1 * INR (fact k) / INR (fact k))) with 1 by (field; apply INR_fact_neq_0).
    unfold Rminus. f_equal. rewrite scal_sum, (Ropp_eq_mult (sum_f_R0 _ n)), scal_sum.
    apply sum_eq. intros i _. replace (k + S i)%nat with (S k + i)%nat by lia.
    rewrite (fact_simpl k), mult_INR. field. split; [apply INR_fact_neq_0|apply not_0_INR; lia].
Qed.
Lemma q_exp_sum x n : Q2R (q_exp x 0 n) = sum_f_R0 (tg_alt (fun n => Q2R x ^ n / INR (fact n))) n.
Proof.
  rewrite q_exp_R. apply sum_eq. intros i _. unfold tg_alt. cbn [Nat.add]. rewrite (INR_IZR_INZ (fact 0)). cbn. unfold Rdiv. ring.
Qed.
Lemma exp_neg_series x : 0 <= x <= 1 -> forall N,
  sum_f_R0 (tg_alt (fun n => x ^ n / INR (fact n))) (S (2 * N)) <= exp (- x) <=
  sum_f_R0 (tg_alt (fun n => x ^ n / INR (fact n))) (2 * N).
Proof.
  intros Hx N. apply alternated_series_ineq.
  - intros n. cbn [pow]. rewrite fact_simpl, mult_INR.
    assert (F := INR_fact_lt_0 n). assert (S0 : 1 <= INR (S n)) by (rewrite S_INR; generalize (pos_INR n); lra).
    assert (P : 0 <= x ^ n) by (apply pow_le; lra).
    unfold Rdiv. rewrite Rinv_mult.
    replace (x * x ^ n * (/ INR (S n) * / INR (fact n))) with ((x * / INR (S n)) * (x ^ n * / INR (fact n))) by ring.
    rewrite <- (Rmult_1_l (x ^ n * / INR (fact n))) at 2. apply Rmult_le_compat_r.
    + apply Rmult_le_pos; [exact P|]. left. now apply Rinv_0_lt_compat.
    + apply Rle_trans with (1 * 1); [|lra]. apply Rmult_le_compat; [lra| | lra |].
      * left. apply Rinv_0_lt_compat. lra.
      * rewrite <- Rinv_1. apply Rinv_le_contravar; lra.
  - apply cv_speed_pow_fact.
  - assert (H := proj2_sig (exist_exp (- x))). change (proj1_sig (exist_exp (- x))) with (exp (- x)) in H.
    intros eps He. destruct (H eps He) as (M & HM). exists M. intros n Hn. specialize (HM n Hn).
    replace (sum_f_R0 (tg_alt (fun n0 => x ^ n0 / INR (fact n0))) n) with (sum_f_R0 (fun i => / INR (fact i) * (- x) ^ i) n).
    { exact HM. }
    apply sum_eq. intros i _. unfold tg_alt. replace (- x) with ((-1) * x) by ring. rewrite Rpow_mult_distr. unfold Rdiv. ring.
Qed.
(** Twenty-three terms. *)
Lemma exp_neg_bounds x : Qle_bool 0 x = true -> Qle_bool x 1 = true ->
  Q2R (q_exp x 0 23) <= exp (- Q2R x) <= Q2R (q_exp x 0 22).
Proof.
  intros H0 H1. apply Qle_R in H0, H1. rewrite RMicromega.Q2R_0 in H0. rewrite RMicromega.Q2R_1 in H1.
  destruct (exp_neg_series (Q2R x) (conj H0 H1) 11) as [L U].
  rewrite !q_exp_sum. split; [exact L|exact U].
Qed.

Definition qlo_e : Q := (2718281828459045235360 # 1000000000000000000000)%Q.
Definition qhi_e : Q := (2718281828459045235361 # 1000000000000000000000)%Q.
Lemma e_bounds : Q2R qlo_e <= exp 1 <= Q2R qhi_e.
Proof.
  destruct (exp_neg_bounds 1 eq_refl eq_refl) as [L U]. rewrite RMicromega.Q2R_1 in L, U.
  assert (E : exp (-1) = / exp 1) by (replace (-1) with (- (1)) by ring; apply exp_Ropp).
  replace (- (1)) with (-1) in L, U by ring. rewrite E in L, U. clear E.
  assert (P := exp_pos 1).
  assert (L2 : Q2R (/ qhi_e) <= Q2R (q_exp 1 0 23)) by (apply Qle_R; vm_compute; reflexivity).
  assert (U2 : Q2R (q_exp 1 0 22) <= Q2R (/ qlo_e)) by (apply Qle_R; vm_compute; reflexivity).
  assert (Nl : ~ (qlo_e == 0)%Q) by (intros H; discriminate H).
  assert (Nh : ~ (qhi_e == 0)%Q) by (intros H; discriminate H).
  rewrite Q2R_inv in L2, U2 by assumption.
  assert (Pl : 0 < Q2R qlo_e) by (unfold Q2R, qlo_e; cbn [Qnum Qden]; lra).
  assert (Ph : 0 < Q2R qhi_e) by (unfold Q2R, qhi_e; cbn [Qnum Qden]; lra).
  split.
  - rewrite <- (Rinv_inv (exp 1)), <- (Rinv_inv (Q2R qlo_e)). apply Rinv_le_contravar; [now apply Rinv_0_lt_compat|].
    exact (Rle_trans _ _ _ U U2).
  - rewrite <- (Rinv_inv (exp 1)), <- (Rinv_inv (Q2R qhi_e)). apply Rinv_le_contravar; [now apply Rinv_0_lt_compat|].
    exact (Rle_trans _ _ _ L2 L).
Qed.

(** Natural logarithms: [exp (- a)] is compared with [1 / y] through the fourth power of
    [exp (- a / 4)]. *)
Lemma exp_fourth x : exp (- x) = exp (- (x / 4)) ^ 4.
Proof.
  replace (- x) with (- (x / 4) + (- (x / 4) + (- (x / 4) + - (x / 4)))) by field. rewrite !exp_plus. ring.
Qed.
Lemma ln_above a y : 0 < y -> / y <= exp (- a) -> a <= ln y.
Proof.
  intros Hy H. rewrite <- (ln_exp a).
  assert (P := exp_pos a).
  assert (L : exp a <= y).
  { rewrite exp_Ropp in H. rewrite <- (Rinv_inv (exp a)), <- (Rinv_inv y). apply Rinv_le_contravar; [now apply Rinv_0_lt_compat|exact H]. }
  destruct (Rle_lt_or_eq_dec _ _ L) as [G|E]; [left; now apply ln_increasing|]. rewrite E. lra.
Qed.
Lemma ln_below a y : 0 < y -> exp (- a) <= / y -> ln y <= a.
Proof.
  intros Hy H. rewrite <- (ln_exp a).
  assert (P := exp_pos a).
  assert (L : y <= exp a).
  { rewrite exp_Ropp in H. rewrite <- (Rinv_inv (exp a)), <- (Rinv_inv y). apply Rinv_le_contravar; [apply Rinv_0_lt_compat; exact P|exact H]. }
  destruct (Rle_lt_or_eq_dec _ _ L) as [G|E]; [left; now apply ln_increasing|]. rewrite <- E. lra.
Qed.
Lemma ln_q_above a c y : Qle_bool 0 (a * (1 # 4)) = true -> Qle_bool (a * (1 # 4)) 1 = true -> (0 < y)%R ->
  Qle_bool 0 c = true -> Qle_bool c (q_exp (a * (1 # 4)) 0 23) = true -> / y <= Q2R (qpow c 4) -> Q2R a <= ln y.
Proof.
  intros H0 H1 Hy Hp Hc H. apply ln_above; [exact Hy|]. rewrite exp_fourth.
  destruct (exp_neg_bounds _ H0 H1) as [L _].
  assert (E4 : Q2R (1 # 4) = / 4) by (unfold Q2R; cbn; lra).
  rewrite Q2R_mult, E4 in L. change (Q2R a * / 4) with (Q2R a / 4) in L.
  apply Qle_R in Hp, Hc. rewrite RMicromega.Q2R_0 in Hp.
  eapply Rle_trans; [exact H|]. rewrite Q2R_pow. apply pow_incr. split; [exact Hp|exact (Rle_trans _ _ _ Hc L)].
Qed.
Lemma ln_q_below a c y : Qle_bool 0 (a * (1 # 4)) = true -> Qle_bool (a * (1 # 4)) 1 = true -> (0 < y)%R ->
  Qle_bool (q_exp (a * (1 # 4)) 0 22) c = true -> Q2R (qpow c 4) <= / y -> ln y <= Q2R a.
Proof.
  intros H0 H1 Hy Hc H. apply ln_below; [exact Hy|]. rewrite exp_fourth.
  destruct (exp_neg_bounds _ H0 H1) as [_ U].
  assert (E4 : Q2R (1 # 4) = / 4) by (unfold Q2R; cbn; lra).
  rewrite Q2R_mult, E4 in U. change (Q2R a * / 4) with (Q2R a / 4) in U.
  apply Qle_R in Hc.
  eapply Rle_trans; [|exact H]. rewrite Q2R_pow. apply pow_incr. split; [left; apply exp_pos|exact (Rle_trans _ _ _ U Hc)].
Qed.
Definition qlo_ln2 : Q := (693147180559945309417 # 1000000000000000000000)%Q.
Definition qhi_ln2 : Q := (693147180559945309418 # 1000000000000000000000)%Q.
Definition qlo_ln10 : Q := (2302585092994045684017 # 1000000000000000000000)%Q.
Definition qhi_ln10 : Q := (2302585092994045684018 # 1000000000000000000000)%Q.
Lemma ln2_bounds : Q2R qlo_ln2 <= ln 2 <= Q2R qhi_ln2.
Proof.
  assert (E : / 2 = Q2R (1 # 2)) by (unfold Q2R; cbn; lra).
  split.
  - apply (ln_q_above _ (84089641525371454303113 # 100000000000000000000000)); [vm_compute; reflexivity|vm_compute; reflexivity|lra|vm_compute; reflexivity|vm_compute; reflexivity|].
    rewrite E. apply Qle_R. vm_compute. reflexivity.
  - apply (ln_q_below _ (84089641525371454303112 # 100000000000000000000000)); [vm_compute; reflexivity|vm_compute; reflexivity|lra|vm_compute; reflexivity|].
    rewrite E. apply Qle_R. vm_compute. reflexivity.
Qed.
Lemma ln10_bounds : Q2R qlo_ln10 <= ln 10 <= Q2R qhi_ln10.
Proof.
  assert (E : / 10 = Q2R (1 # 10)) by (unfold Q2R; cbn; lra).
  split.
  - apply (ln_q_above _ (56234132519034908039496 # 100000000000000000000000)); [vm_compute; reflexivity|vm_compute; reflexivity|lra|vm_compute; reflexivity|vm_compute; reflexivity|].
    rewrite E. apply Qle_R. vm_compute. reflexivity.
  - apply (ln_q_below _ (56234132519034908039495 # 100000000000000000000000)); [vm_compute; reflexivity|vm_compute; reflexivity|lra|vm_compute; reflexivity|].
    rewrite E. apply Qle_R. vm_compute. reflexivity.
Qed.
