(** Accuracy of sums of arbitrary finite numbers. *)
From Coq Require Import ZArith List Bool Lia Reals Lra.
From Flocq Require Import Core Plus_error Relative.
From Verif.Model Require Import Base FloatLane Llvm Bytes Tables Minimal Ops Reduce Slice ExSum.
From Verif.Spec Require Import Spec Memory Floats Examples Accuracy.
From Verif.Proofs Require Import Lib MinimalP OpsP OpsP2 BytesP SliceP GatherP FloatP FloatVecP FloatOpsP FloatApiP FloatApi2P ReduceP ExactP ExSumP.
Import ListNotations.
Open Scope R_scope.

(** An estimate: the exact value, the magnitudes that went into it, and these with errors
    made before. *)
Record est := { ex : R; mag : R; bud : R }.
Definition esum (a c : est) : est := {| ex := ex a + ex c; mag := mag a + mag c; bud := bud a + bud c |}.
Definition ezero : est := {| ex := 0; mag := 0; bud := 0 |}.
Definition etot (l : list est) : est := fold_right esum ezero l.
Definition fits (a : est) : Prop := Rabs (ex a) <= mag a /\ mag a <= bud a.
Lemma est_eq a c : ex a = ex c -> mag a = mag c -> bud a = bud c -> a = c.
Proof. destruct a, c; cbn. congruence. Qed.
Lemma esum_assoc a c d : esum (esum a c) d = esum a (esum c d).
Proof. apply est_eq; cbn; ring. Qed.
Lemma esum_comm a c : esum a c = esum c a.
Proof. apply est_eq; cbn; ring. Qed.
Lemma esum_0 a : esum ezero a = a.
Proof. apply est_eq; cbn; ring. Qed.
Lemma esum_0r a : esum a ezero = a.
Proof. apply est_eq; cbn; ring. Qed.
Lemma etot_app l r : etot (l ++ r) = esum (etot l) (etot r).
Proof. induction l as [|a l IH]; cbn [app]; [now rewrite esum_0|]. cbn [etot fold_right]. fold (etot (l ++ r)) (etot l). now rewrite IH, esum_assoc. Qed.
Lemma etot_cons a l : etot (a :: l) = esum a (etot l).
Proof. reflexivity. Qed.
Lemma etot_map2 : forall l r, length l = length r -> etot (map2 esum l r) = esum (etot l) (etot r).
Proof.
  induction l as [|a l IH]; intros [|c r] L; try discriminate; cbn [map2].
  - now rewrite esum_0.
  - rewrite !etot_cons, IH by (cbn in L; lia). apply est_eq; cbn; ring.
Qed.
Lemma etot_zeros n : etot (repeat ezero n) = ezero.
Proof. induction n; cbn [repeat]; [reflexivity|]. rewrite etot_cons, IHn. apply esum_0. Qed.
Lemma fits_bud a : fits a -> 0 <= bud a.
Proof. intros [A B]. pose proof (Rabs_pos (ex a)). lra. Qed.
Lemma fits_sum a c : fits a -> fits c -> fits (esum a c).
Proof. intros [A B] [C D]. split; cbn; [|lra]. pose proof (Rabs_triang (ex a) (ex c)). lra. Qed.
Lemma fits_zero : fits ezero.
Proof. split; cbn; [rewrite Rabs_R0|]; lra. Qed.
Lemma fits_tot l : Forall fits l -> fits (etot l).
Proof. induction 1; [apply fits_zero|]. rewrite etot_cons. now apply fits_sum. Qed.

Section Near.
Variable b : nat.
Hypothesis F : fsize b.
Notation u := (roundoff b).
Notation g k := ((1 + roundoff b) ^ k).
Variables (Kmax : nat) (Bmax : R).
Hypothesis Top : g Kmax * Bmax < bpow radix2 (bias b + 1).
Notation fmt := (generic_format radix2 (FLT_exp (1 - bias b - sig_width b) (sig_width b + 1))).

Lemma u_pos : 0 < u.
Proof. apply bpow_gt_0. Qed.
Lemma g_ge1 k : 1 <= g k.
Proof. apply pow_R1_Rle. pose proof u_pos. lra. Qed.
Lemma g_mono k k' : (k <= k')%nat -> g k <= g k'.
Proof. clear. intros H. apply Rle_pow; [pose proof u_pos; lra|exact H]. Qed.

Lemma datum_format p s x : pattern b p -> datum_of b p = Fin s x -> fmt x.
Proof.
  intros P D. rewrite datum_fl in D by auto.
  destruct (BinarySingleNaN.is_finite (fl b p)) eqn:E.
  - rewrite b_datum_finite in D by exact E. injection D as _ <-.
    destruct F as [-> | ->]; apply BinarySingleNaN.generic_format_B2R.
  - destruct (fl b p); discriminate.
Qed.

Lemma rounded_sum x y : fmt x -> fmt y -> exists eps, Rabs eps <= u /\ rounded b (x + y) = (x + y) * (1 + eps).
Proof.
  intros X Y. assert (HP : Prec_gt_0 (sig_width b + 1)) by (destruct F as [-> | ->]; reflexivity).
  destruct (FLT_plus_error_N_ex radix2 (1 - bias b - sig_width b) (sig_width b + 1) (fun x => negb (Z.even x)) x y X Y) as (e & E1 & E2).
  exists e. split; [|exact E2]. eapply Rle_trans; [exact E1|].
  assert (Q : u_ro radix2 (sig_width b + 1) = u).
  { unfold u_ro, roundoff. replace (- (sig_width b + 1) + 1)%Z with (1 + - (sig_width b + 1))%Z by ring. rewrite bpow_plus. change (bpow radix2 1) with 2. field. }
  rewrite Q. pose proof u_pos. apply Rmult_le_reg_r with (1 + u); [lra|]. unfold Rdiv. rewrite Rmult_assoc, Rinv_l by lra.
  assert (0 <= u * u) by (apply Rle_0_sqr). lra.
Qed.

Definition near (k : nat) (p : Z) (a : est) : Prop :=
  pattern b p /\ fits a /\ exists s z, datum_of b p = Fin s z /\ Rabs (z - ex a) <= g k * bud a - mag a.

Lemma near_weaken k k' p a : (k <= k')%nat -> near k p a -> near k' p a.
Proof.
  clear. intros H (P & Q & s & z & D & E). split; [exact P|]. split; [exact Q|]. exists s, z. split; [exact D|].
  pose proof (g_mono k k' H). pose proof (fits_bud a Q).
  assert (g k * bud a <= g k' * bud a) by (apply Rmult_le_compat_r; lra). lra.
Qed.
Lemma near_fits k p a : near k p a -> fits a.
Proof. intros (_ & Q & _). exact Q. Qed.

Lemma near_bound k p a : near k p a -> forall s z, datum_of b p = Fin s z -> Rabs z <= g k * bud a.
Proof.
  intros (_ & [Q Q'] & s & z & D & E) s' z' D'. rewrite D in D'. injection D' as <- <-.
  replace z with ((z - ex a) + ex a) by ring. pose proof (Rabs_triang (z - ex a) (ex a)). lra.
Qed.

Lemma near_add k p q a c : near k p a -> near k q c -> (S k <= Kmax)%nat -> bud (esum a c) <= Bmax ->
  near (S k) (fl_add b p q) (esum a c).
Proof.
  intros (P & Qa & s & z & D & E) (P' & Qc & s' & z' & D' & E') K B.
  destruct (add_pattern b F p q P P') as [P'' A]. split; [exact P''|].
  pose proof (fits_sum a c Qa Qc) as Qs. split; [exact Qs|].
  rewrite D, D' in A. cbn [ieee_add] in A. destruct A as (s'' & _ & A).
  destruct (rounded_sum z z' (datum_format p s z P D) (datum_format q s' z' P' D')) as (eps & E1 & E2).
  set (t := ex a + ex c). set (m := mag a + mag c). set (d := bud a + bud c).
  assert (Et : Rabs (z + z' - t) <= g k * d - m).
  { unfold t, m, d. replace (z + z' - (ex a + ex c)) with ((z - ex a) + (z' - ex c)) by ring.
    eapply Rle_trans; [apply Rabs_triang|]. lra. }
  assert (Em : Rabs t <= m) by (exact (proj1 Qs)).
  pose proof u_pos as U.
  assert (Err : Rabs (rounded b (z + z') - t) <= g (S k) * d - m).
  { rewrite E2. replace ((z + z') * (1 + eps) - t) with ((z + z' - t) + eps * (z + z')) by ring.
    eapply Rle_trans; [apply Rabs_triang|]. rewrite Rabs_mult.
    assert (Z : Rabs (z + z') <= g k * d).
    { replace (z + z') with ((z + z' - t) + t) by ring. eapply Rle_trans; [apply Rabs_triang|]. lra. }
    assert (Rabs eps * Rabs (z + z') <= u * (g k * d)).
    { apply Rmult_le_compat; auto using Rabs_pos. }
    cbn [pow]. lra. }
  assert (Big : Rabs (rounded b (z + z')) <= g (S k) * d).
  { replace (rounded b (z + z')) with ((rounded b (z + z') - t) + t) by ring. eapply Rle_trans; [apply Rabs_triang|]. lra. }
  assert (Lt : Rabs (rounded b (z + z')) < bpow radix2 (bias b + 1)).
  { eapply Rle_lt_trans; [exact Big|]. eapply Rle_lt_trans; [|exact Top].
    pose proof (fits_bud _ Qs) as B0. cbn [bud esum] in B0, B. fold d in B0, B. pose proof (g_ge1 (S k)).
    apply Rmult_le_compat; [lra|exact B0|now apply g_mono|exact B]. }
  rewrite Rlt_bool_true in A by exact Lt. exists s'', (rounded b (z + z')). split; [exact A|exact Err].
Qed.

(** Zero: the sum of nothing. *)
Lemma near_zero k p a : near k p a -> a = ezero -> exists s, datum_of b p = Fin s 0.
Proof.
  intros (P & _ & s & z & D & E) ->. cbn [ex mag bud ezero] in E. exists s.
  assert (z = 0) as <-; [|exact D]. revert E. rewrite Rmult_0_r, !Rminus_0_r. intros E.
  destruct (Req_dec z 0) as [->|N]; [reflexivity|]. pose proof (Rabs_pos_lt z N). lra.
Qed.
Lemma format_small x s p : pattern b p -> datum_of b p = Fin s x -> rounded b x = x.
Proof. intros P D. apply round_generic; [apply valid_rnd_N|]. exact (datum_format p s x P D). Qed.

Lemma near_add_zero_l k p q c : near 0 p ezero -> near k q c -> (k <= Kmax)%nat -> bud c <= Bmax -> near k (fl_add b p q) c.
Proof.
  intros N (P' & Qc & s' & z' & D' & E') K B. destruct (near_zero 0 p _ N eq_refl) as (s & D). destruct N as (P & _).
  destruct (add_pattern b F p q P P') as [P'' A]. split; [exact P''|]. split; [exact Qc|].
  rewrite D, D' in A. cbn [ieee_add] in A. rewrite Rplus_0_l in A. destruct A as (s'' & _ & A).
  rewrite (format_small z' s' q P' D') in A. rewrite Rlt_bool_true in A; [eauto|].
  assert (Z : Rabs z' <= g k * bud c).
  { replace z' with ((z' - ex c) + ex c) by ring. pose proof (Rabs_triang (z' - ex c) (ex c)). destruct Qc. lra. }
  eapply Rle_lt_trans; [exact Z|]. eapply Rle_lt_trans; [|exact Top]. pose proof (g_ge1 k).
  apply Rmult_le_compat; [lra|now apply fits_bud|now apply g_mono|exact B].
Qed.

Lemma near_add_zero_r k p q c : near 0 q ezero -> near k p c -> (k <= Kmax)%nat -> bud c <= Bmax -> near k (fl_add b p q) c.
Proof.
  intros N (P' & Qc & s' & z' & D' & E') K B. destruct (near_zero 0 q _ N eq_refl) as (s & D). destruct N as (P & _).
  destruct (add_pattern b F p q P' P) as [P'' A]. split; [exact P''|]. split; [exact Qc|].
  rewrite D, D' in A. cbn [ieee_add] in A. rewrite Rplus_0_r in A. destruct A as (s'' & _ & A).
  rewrite (format_small z' s' p P' D') in A. rewrite Rlt_bool_true in A; [eauto|].
  assert (Z : Rabs z' <= g k * bud c).
  { replace z' with ((z' - ex c) + ex c) by ring. pose proof (Rabs_triang (z' - ex c) (ex c)). destruct Qc. lra. }
  eapply Rle_lt_trans; [exact Z|]. eapply Rle_lt_trans; [|exact Top]. pose proof (g_ge1 k).
  apply Rmult_le_compat; [lra|now apply fits_bud|now apply g_mono|exact B].
Qed.

Lemma zero_near : near 0 (fl_of_int b 0) ezero.
Proof.
  clear Top Bmax Kmax. destruct (zero_units b (1 - bias b - sig_width b) F) as [P (s & D)].
  split; [exact P|]. split; [apply fits_zero|]. exists s, 0. rewrite Rmult_0_l in D. split; [exact D|].
  cbn [ex mag bud ezero pow]. rewrite Rminus_0_r, Rabs_R0. lra.
Qed.

(** A sum from left to right, from a number and from zero. *)
Lemma fold_near : forall ps es p a k j, near (k + j) p a -> Forall2 (near k) ps es ->
  (k + j + length ps <= Kmax)%nat -> bud (esum a (etot es)) <= Bmax ->
  near (k + j + length ps) (fold_left (fl_add b) ps p) (esum a (etot es)).
Proof.
  induction ps as [|q ps IH]; intros es p a k j P N K B; inversion N as [|? c ? es' Q N']; subst; cbn [fold_left length].
  - cbn [etot fold_right]. rewrite esum_0r, Nat.add_0_r. exact P.
  - rewrite etot_cons, <- esum_assoc in *. cbn [length] in K.
    replace (k + j + S (length ps))%nat with (k + S j + length ps)%nat by lia.
    assert (F' : fits (etot es')).
    { apply fits_tot. clear - N'. induction N'; constructor; auto. eapply near_fits; eauto. }
    pose proof (fits_bud _ F') as B'. cbn [bud esum] in B.
    apply IH; [|exact N'|lia|exact B].
    replace (k + S j)%nat with (S (k + j)) by lia. apply near_add; [exact P|apply (near_weaken k); [lia|exact Q]|lia|].
    cbn [bud esum]. lra.
Qed.
Lemma fold_zero_near ps es k z : near 0 z ezero -> Forall2 (near k) ps es ->
  (k + (length ps - 1) <= Kmax)%nat -> bud (etot es) <= Bmax ->
  near (k + (length ps - 1)) (fold_left (fl_add b) ps z) (etot es).
Proof.
  intros Z N K B. destruct N as [|q c ps es Q N]; cbn [fold_left length] in *.
  - apply (near_weaken 0); [lia|]. exact Z.
  - rewrite etot_cons in *. replace (k + (S (length ps) - 1))%nat with (k + 0 + length ps)%nat in * by lia.
    assert (F' : fits (etot es)).
    { apply fits_tot. clear - N. induction N; constructor; auto. eapply near_fits; eauto. }
    pose proof (fits_bud _ F') as B'.
    apply fold_near; auto. rewrite Nat.add_0_r. apply near_add_zero_l; auto; [lia|]. cbn [bud esum] in B. lra.
Qed.

Lemma near_all_fits k ps es : Forall2 (near k) ps es -> Forall fits es.
Proof. clear. induction 1; constructor; auto. eapply near_fits; eauto. Qed.
Lemma near_all_weaken k k' ps es : (k <= k')%nat -> Forall2 (near k) ps es -> Forall2 (near k') ps es.
Proof. clear. intros H. induction 1; constructor; auto. eapply near_weaken; eauto. Qed.
End Near.

(** The groups of a list of estimates. *)
Fixpoint parts (k n : nat) (l : list est) : list (list est) :=
  match k with O => [] | S k' => firstn n l :: parts k' n (skipn n l) end.
Lemma parts_flat : forall k n l, (k * n <= length l)%nat -> concat (parts k n l) = firstn (k * n) l.
Proof.
  induction k as [|k IH]; intros n l H; cbn [parts concat]; auto.
  rewrite IH by (rewrite skipn_length; lia).
  cbn [Nat.mul]. rewrite <- (firstn_skipn n l) at 3. rewrite firstn_app, firstn_firstn, firstn_length.
  replace (Nat.min (n + k * n) n) with n by lia.
  replace (n + k * n - Nat.min n (length l))%nat with (k * n)%nat by lia. reflexivity.
Qed.
Lemma parts_length k n : forall l, length (parts k n l) = k.
Proof. induction k; intros l; cbn [parts length]; auto. Qed.

(** ** Vectors *)
Section Vectors.
Variable t : vty.
Hypothesis T : float_type t.
Variables (Kmax : nat) (Bmax : R).
Hypothesis Top : (1 + roundoff (vb t)) ^ Kmax * Bmax < bpow radix2 (bias (vb t) + 1).
Let F : fsize (vb t).
Proof. exact (float_size t T). Qed.
Notation nr := (near (vb t)).

Definition lanes_near (k : nat) (v : vec) (es : list est) : Prop := Forall2 (nr k) v es /\ length es = vn t.

Lemma lanes_weaken k k' v es : (k <= k')%nat -> lanes_near k v es -> lanes_near k' v es.
Proof. clear. intros H [A B]. split; [|exact B]. eapply near_all_weaken; eauto. Qed.
Lemma lanes_fits k v es : lanes_near k v es -> Forall fits es.
Proof. clear. intros [A _]. eapply near_all_fits; eauto. Qed.
Lemma lanes_bud k v es : lanes_near k v es -> 0 <= bud (etot es).
Proof. clear. intros H. apply fits_bud, fits_tot. eapply lanes_fits; eauto. Qed.

Lemma add_lanes : forall x y xs ys k, Forall2 (nr k) x xs -> Forall2 (nr k) y ys -> length xs = length ys ->
  (S k <= Kmax)%nat -> bud (esum (etot xs) (etot ys)) <= Bmax ->
  Forall2 (nr (S k)) (map2 (fl_add (vb t)) x y) (map2 esum xs ys).
Proof.
  intros x y xs ys k X. revert y ys. induction X as [|p a x xs P X IH]; intros y ys Y L K B; inversion Y as [|q c y' ys' Q Y']; subst; try discriminate; cbn [map2].
  - constructor.
  - rewrite !etot_cons in B. cbn [bud esum] in B.
    pose proof (fits_bud _ (fits_tot _ (near_all_fits _ _ _ _ X))). pose proof (fits_bud _ (fits_tot _ (near_all_fits _ _ _ _ Y'))).
    pose proof (fits_bud _ (near_fits _ _ _ _ P)). pose proof (fits_bud _ (near_fits _ _ _ _ Q)).
    constructor.
    + apply (near_add (vb t) F Kmax Bmax Top); auto. cbn [bud esum]. lra.
    + apply IH; auto. cbn [bud esum]. lra.
Qed.
Lemma add_zero_lanes : forall x y n ys k, Forall2 (nr 0) x (repeat ezero n) -> Forall2 (nr k) y ys -> length ys = n ->
  (k <= Kmax)%nat -> bud (etot ys) <= Bmax ->
  Forall2 (nr k) (map2 (fl_add (vb t)) x y) ys.
Proof.
  intros x y n ys k X Y. revert x n X. induction Y as [|q c y ys Q Y IH]; intros x n X L K B; cbn [length] in L; subst n; cbn [repeat] in X; inversion X as [|p a x' xs P X']; subst; cbn [map2].
  - constructor.
  - rewrite !etot_cons in B. cbn [bud esum] in B.
    pose proof (fits_bud _ (fits_tot _ (near_all_fits _ _ _ _ Y))). pose proof (fits_bud _ (near_fits _ _ _ _ Q)).
    constructor.
    + apply (near_add_zero_l (vb t) F Kmax Bmax Top); auto. lra.
    + apply (IH x' (length ys)); auto. lra.
Qed.

Lemma add_lanes_zero : forall x y n ys k, Forall2 (nr 0) x (repeat ezero n) -> Forall2 (nr k) y ys -> length ys = n ->
  (k <= Kmax)%nat -> bud (etot ys) <= Bmax ->
  Forall2 (nr k) (map2 (fl_add (vb t)) y x) ys.
Proof.
  intros x y n ys k X Y. revert x n X. induction Y as [|q c y ys Q Y IH]; intros x n X L K B; cbn [length] in L; subst n; cbn [repeat] in X; inversion X as [|p a x' xs P X']; subst; cbn [map2].
  - constructor.
  - rewrite !etot_cons in B. cbn [bud esum] in B.
    pose proof (fits_bud _ (fits_tot _ (near_all_fits _ _ _ _ Y))). pose proof (fits_bud _ (near_fits _ _ _ _ Q)).
    constructor.
    + apply (near_add_zero_r (vb t) F Kmax Bmax Top); auto. lra.
    + apply (IH x' (length ys)); auto. lra.
Qed.

Lemma add_is : add t = map2 (fl_add (vb t)).
Proof. clear Top Bmax Kmax. unfold add, simd_add. destruct T as (-> & _). reflexivity. Qed.

Lemma add_vec_near k x y xs ys : lanes_near k x xs -> lanes_near k y ys -> (S k <= Kmax)%nat ->
  bud (esum (etot xs) (etot ys)) <= Bmax ->
  lanes_near (S k) (add t x y) (map2 esum xs ys) /\ etot (map2 esum xs ys) = esum (etot xs) (etot ys).
Proof.
  intros [X LX] [Y LY] K B. rewrite add_is. split; [split|].
  - now apply add_lanes; [| |congruence| |].
  - now apply map2_length_eq.
  - apply etot_map2. congruence.
Qed.

Lemma zeros_near : lanes_near 0 (splat t (lit (vkind t) (vb t) 0)) (repeat ezero (vn t)).
Proof.
  clear Top Bmax Kmax. split; [|apply repeat_length]. unfold splat. rewrite lit_float by auto.
  induction (vn t); cbn [repeat]; constructor; auto. now apply zero_near.
Qed.
Lemma add_zeros_near k x ys : lanes_near k x ys -> (k <= Kmax)%nat -> bud (etot ys) <= Bmax ->
  lanes_near k (add t (splat t (lit (vkind t) (vb t) 0)) x) ys.
Proof.
  intros [Y L] K B. split; [|exact L]. rewrite add_is. eapply (add_zero_lanes _ _ (vn t)); eauto. apply zeros_near.
Qed.

Lemma fold_add_near : forall vs ess a ea k j, Forall2 (lanes_near k) vs ess -> lanes_near (k + j) a ea ->
  (k + j + length vs <= Kmax)%nat -> bud (esum (etot ea) (etot (concat ess))) <= Bmax ->
  exists r, lanes_near (k + j + length vs) (fold_left (add t) vs a) r /\ etot r = esum (etot ea) (etot (concat ess)).
Proof.
  induction vs as [|v vs IH]; intros ess a ea k j G A K B; inversion G as [|? es ? ess' Gv G']; subst; cbn [fold_left length concat] in *.
  - exists ea. rewrite Nat.add_0_r. split; [exact A|]. cbn [etot fold_right]. now rewrite esum_0r.
  - rewrite etot_app, <- esum_assoc in *.
    assert (B' : 0 <= bud (etot (concat ess'))).
    { clear - G'. apply fits_bud, fits_tot. induction G'; cbn [concat]; [constructor|]. apply Forall_app. split; auto. eapply lanes_fits; eauto. }
    cbn [bud esum] in B.
    destruct (add_vec_near (k + j) a v ea es A (lanes_weaken k (k + j) v es ltac:(lia) Gv)) as [S1 S2]; [lia|cbn [bud esum]; lra|].
    destruct (IH ess' (add t a v) (map2 esum ea es) k (S j) G') as (r & R1 & R2).
    + now replace (k + S j)%nat with (S (k + j)) by lia.
    + lia.
    + rewrite S2. cbn [bud esum]. lra.
    + exists r. split; [now replace (k + j + S (length vs))%nat with (k + S j + length vs)%nat by lia|]. now rewrite R2, S2.
Qed.

Lemma iter_sum_near vs ess k : Forall2 (lanes_near k) vs ess -> (k + (length vs - 1) <= Kmax)%nat -> bud (etot (concat ess)) <= Bmax ->
  exists r, lanes_near (if Nat.eqb (length vs) 0 then 0 else k + (length vs - 1)) (iter_sum t vs) r /\ etot r = etot (concat ess) /\
    (vs = [] -> r = repeat ezero (vn t)).
Proof.
  intros G K B. unfold iter_sum. destruct G as [|v es vs ess Gv G]; cbn [fold_left length Nat.eqb concat] in *.
  - exists (repeat ezero (vn t)). split; [apply zeros_near|]. split; [|auto]. cbn [etot fold_right]. apply etot_zeros.
  - replace (k + (S (length vs) - 1))%nat with (k + 0 + length vs)%nat in * by lia. rewrite etot_app in *.
    assert (B' : 0 <= bud (etot (concat ess))).
    { clear - G. apply fits_bud, fits_tot. induction G; cbn [concat]; [constructor|]. apply Forall_app. split; auto. eapply lanes_fits; eauto. }
    cbn [bud esum] in B.
    destruct (fold_add_near vs ess (add t (splat t (lit (vkind t) (vb t) 0)) v) es k 0 G) as (r & R1 & R2); auto.
    + rewrite Nat.add_0_r. apply add_zeros_near; auto; [lia|lra].
    + exists r. split; [exact R1|]. split; [exact R2|discriminate].
Qed.

(** [items] roundings at most, whatever the schedule; none if there is one item. *)
Lemma par_sum_near : forall sch vs ess, Forall2 (lanes_near 0) vs ess -> (items sch <= length vs)%nat ->
  (items sch - 1 <= Kmax)%nat -> bud (etot (concat (firstn (items sch) ess))) <= Bmax ->
  exists r, lanes_near (items sch - 1) (par_sum t sch vs) r /\ etot r = etot (concat (firstn (items sch) ess)) /\
    (items sch = 0%nat -> r = repeat ezero (vn t)).
Proof.
  assert (PA : forall x y, par_add t x y = add t (add t (splat t (lit (vkind t) (vb t) 0)) x) y) by reflexivity.
  assert (NN : forall vs ess k, Forall2 (lanes_near k) vs ess -> 0 <= bud (etot (concat ess))).
  { clear. intros vs ess k G. apply fits_bud, fits_tot. induction G; cbn [concat]; [constructor|]. apply Forall_app. split; auto. eapply lanes_fits; eauto. }
  assert (Z : forall k v, lanes_near k v (repeat ezero (vn t)) -> lanes_near 0 v (repeat ezero (vn t))).
  { clear. intros k v [A B]. split; [|exact B]. clear B. revert v A.
    induction (vn t) as [|n IH]; cbn [repeat]; intros v A; inversion A as [|p ? v' ? P A']; subst; constructor; [|now apply IH].
    destruct P as (P1 & P2 & s & z & D & E). split; [exact P1|]. split; [exact P2|]. exists s, z. split; [exact D|].
    cbn [ex mag bud ezero pow] in *. lra. }
  induction sch as [n|l IHl r IHr]; intros vs ess V I K B; cbn [par_sum items] in *.
  - destruct (iter_sum_near (firstn n vs) (firstn n ess) 0) as (c & C1 & C2 & C3);
      [now apply Forall2_firstn'|rewrite firstn_length; lia|exact B|].
    assert (L : length (firstn n vs) = n) by (rewrite firstn_length; lia). rewrite L in C1.
    exists c. split; [|split; [exact C2|intros ->; now apply C3]].
    assert (C1' : lanes_near (n - 1) (iter_sum t (firstn n vs)) c) by (revert C1; destruct (Nat.eqb n 0); apply lanes_weaken; lia).
    rewrite PA. rewrite add_is. destruct C1' as [C1' LC]. split; [|exact LC].
    apply (add_zero_lanes _ _ (vn t) c (n - 1)); [|exact C1'|exact LC|exact K|now rewrite C2].
    rewrite <- add_is. apply (add_zeros_near 0); [apply zeros_near|lia|].
    rewrite etot_zeros. cbn [bud ezero]. eapply Rle_trans; [|exact B]. apply (NN (firstn n vs) (firstn n ess) 0%nat). now apply Forall2_firstn'.
  - assert (X : firstn (items l + items r) ess = firstn (items l) ess ++ firstn (items r) (skipn (items l) ess)).
    { rewrite <- (firstn_skipn (items l) ess) at 1. rewrite firstn_app.
      pose proof (Forall2_len _ _ _ V). rewrite firstn_length, firstn_firstn.
      replace (Nat.min (items l + items r) (items l)) with (items l) by lia.
      replace (items l + items r - Nat.min (items l) (length ess))%nat with (items r) by lia. reflexivity. }
    rewrite X, concat_app, etot_app in *. cbn [bud esum] in B.
    pose proof (NN _ _ _ (Forall2_firstn' _ (items l) _ _ V)).
    pose proof (NN _ _ _ (Forall2_firstn' _ (items r) _ _ (Forall2_skipn' _ (items l) _ _ V))).
    destruct (IHl vs ess V) as (a & A1 & A2 & A3); [lia|lia|lra|].
    destruct (IHr (skipn (items l) vs) (skipn (items l) ess)) as (c & C1 & C2 & C3);
      [now apply Forall2_skipn'|rewrite skipn_length; lia|lia|lra|].
    rewrite PA.
    assert (A1' : lanes_near (items l - 1) (add t (splat t (lit (vkind t) (vb t) 0)) (par_sum t l vs)) a)
      by (apply add_zeros_near; [exact A1|lia|rewrite A2; lra]).
    destruct (Nat.eq_dec (items l) 0) as [El|El].
    + exists c. rewrite (A3 El), etot_zeros in *. rewrite <- A2, esum_0.
      split; [|split; [exact C2|intros G; apply C3; lia]].
      replace (items l + items r)%nat with (items r) by lia. rewrite add_is. destruct C1 as [C1 LC]. split; [|exact LC].
      apply (add_zero_lanes _ _ (vn t) c (items r - 1)); [|exact C1|exact LC|lia|rewrite C2; lra].
      rewrite <- add_is. exact (proj1 (Z _ _ A1')).
    + destruct (Nat.eq_dec (items r) 0) as [Er|Er].
      * (* the right part is zero *)
        exists a. pose proof (C3 Er) as ->. rewrite etot_zeros in C2. rewrite <- C2, esum_0r.
        split; [|split; [exact A2|lia]]. replace (items l + items r)%nat with (items l) by lia.
        rewrite add_is in A1' |- *. destruct A1' as [A1' LA]. split; [|exact LA].
        apply (add_lanes_zero _ _ (vn t) a (items l - 1)); [exact (proj1 (Z _ _ C1))|exact A1'|exact LA|lia|rewrite A2; lra].
      * destruct (add_vec_near (items l + items r - 2) _ _ a c
          (lanes_weaken (items l - 1) (items l + items r - 2) _ _ ltac:(lia) A1') (lanes_weaken (items r - 1) (items l + items r - 2) _ _ ltac:(lia) C1)) as [S1 S2]; [lia|rewrite A2, C2; cbn [bud esum]; lra|].
        exists (map2 esum a c). replace (items l + items r - 1)%nat with (S (items l + items r - 2)) by lia.
        split; [exact S1|]. split; [now rewrite S2, A2, C2|lia].
Qed.

Lemma lanes_vector k v es : lanes_near k v es -> is_vector t v.
Proof.
  clear. intros [G L]. split; [pose proof (Forall2_len _ _ _ G); congruence|].
  clear L. unfold width. induction G as [|p z v zs [P _] G IH]; constructor; auto.
Qed.

Lemma fsum_near tg k v es : lanes_near k v es -> (k + (vn t - 1) <= Kmax)%nat -> bud (etot es) <= Bmax ->
  exists r, fsum tg t v = Ok r /\ nr (k + (vn t - 1)) r (etot es).
Proof.
  intros G K B. pose proof (lanes_vector k v es G) as V. destruct G as [G L]. unfold fsum.
  destruct (on_aarch64 tg).
  - destruct (reduce_loop_fold t (fl_add (vb t)) v (proj2 (proj2 T)) V) as (p & l & -> & ->).
    eexists. split; [reflexivity|]. inversion G as [|? e ? es' P G']; subst. cbn [length] in L.
    pose proof (Forall2_len _ _ _ G') as L'. rewrite <- L in *.
    replace (k + (S (length es') - 1))%nat with (k + 0 + length l)%nat in * by lia.
    rewrite etot_cons in *. apply (fold_near (vb t) F Kmax Bmax Top); auto. now rewrite Nat.add_0_r.
  - eexists. split; [reflexivity|]. unfold simd_reduce_add_ordered.
    assert (E : lane_add (vkind t) (vb t) = fl_add (vb t)) by (destruct T as (-> & _); reflexivity).
    rewrite E, lit_float by auto. rewrite <- (proj1 V) in *.
    apply (fold_zero_near (vb t) F Kmax Bmax Top); auto. now apply zero_near.
Qed.

Lemma groups_near k : forall n xs es, Forall2 (nr k) xs es -> (n * vn t <= length xs)%nat ->
  Forall2 (lanes_near k) (groups n (vn t) xs) (parts n (vn t) es).
Proof.
  clear. induction n as [|n IH]; intros xs es H L; cbn [groups parts]; constructor.
  - split; [now apply Forall2_firstn'|]. pose proof (Forall2_len _ _ _ H). rewrite firstn_length. lia.
  - apply IH; [now apply Forall2_skipn'|]. rewrite skipn_length. lia.
Qed.

Lemma rows_near tg k : forall vs ess, Forall2 (lanes_near k) vs ess -> (k + (vn t - 1) <= Kmax)%nat ->
  bud (etot (concat ess)) <= Bmax ->
  exists hs, map_ok (fsum tg t) vs = Ok hs /\ Forall2 (nr (k + (vn t - 1))) hs (map etot ess).
Proof.
  intros vs ess G K. induction G as [|v es vs ess V G IH]; intros B; cbn [map_ok map].
  - exists []. auto.
  - cbn [concat] in B. rewrite etot_app in B. cbn [bud esum] in B. pose proof (lanes_bud _ _ _ V).
    assert (0 <= bud (etot (concat ess))).
    { clear - G. apply fits_bud, fits_tot. induction G; cbn [concat]; [constructor|]. apply Forall_app. split; auto. eapply lanes_fits; eauto. }
    destruct (fsum_near tg k v es V K) as (r & R1 & R2); [lra|].
    destruct IH as (hs & HA & HB); [lra|]. rewrite R1. cbn [bind]. rewrite HA. cbn [bind].
    exists (r :: hs). auto.
Qed.
End Vectors.

Lemma rows_etot ess : etot (map etot ess) = etot (concat ess).
Proof. induction ess as [|es ess IH]; cbn [map concat]; [reflexivity|]. rewrite etot_cons, etot_app. now rewrite IH. Qed.

(** ** From and to the specification *)
Definition est_of (x : R) : est := {| ex := x; mag := Rabs x; bud := Rabs x |}.
Lemma etot_exact xs : etot (map est_of xs) = {| ex := exact_sum xs; mag := magnitudes xs; bud := magnitudes xs |}.
Proof. induction xs as [|x xs IH]; cbn [map]; [reflexivity|]. rewrite etot_cons, IH. apply est_eq; reflexivity. Qed.
Lemma numbers_near b ps xs : numbers b ps xs -> Forall2 (near b 0) ps (map est_of xs).
Proof.
  induction 1 as [|p x ps xs [P (s & D)] _ IH]; cbn [map]; constructor; auto.
  split; [exact P|]. split; [split; cbn; lra|]. exists s, x. split; [exact D|].
  cbn [ex mag bud est_of pow]. unfold Rminus. rewrite !Rplus_opp_r, Rabs_R0. lra.
Qed.
Lemma near_within b k p a xs e : near b k p a -> ex a = exact_sum xs -> mag a = magnitudes xs -> bud a = magnitudes xs + e ->
  within b k xs e p.
Proof.
  intros (P & _ & s & z & D & E) Q1 Q2 Q. split; [exact P|]. exists s, z. split; [exact D|]. rewrite Q1, Q2, Q in E. lra.
Qed.
Lemma numbers_patterns b ps xs : numbers b ps xs -> Forall (fun p => (0 <= p < 2 ^ (8 * Z.of_nat b))%Z) ps.
Proof. induction 1 as [|p z xs zs [P _] _ IH]; constructor; auto. Qed.
Lemma numbers_firstn b n ps xs : numbers b ps xs -> numbers b (firstn n ps) (firstn n xs).
Proof. apply Forall2_firstn'. Qed.

Theorem sum_accuracy tg t v xs : float_type t -> is_vector t v -> numbers (vb t) v xs -> in_range (vb t) (vn t - 1) xs 0 ->
  exists r, fsum tg t v = Ok r /\ within (vb t) (vn t - 1) xs 0 r.
Proof.
  intros T V N H. unfold in_range in H. rewrite Rplus_0_r in H.
  destruct (fsum_near t T (vn t - 1) (magnitudes xs) H tg 0 v (map est_of xs)) as (r & R & Q).
  - split; [now apply numbers_near|]. rewrite map_length, <- (Forall2_len _ _ _ N). apply V.
  - lia.
  - rewrite etot_exact. cbn [bud]. lra.
  - exists r. split; [exact R|]. rewrite etot_exact in Q. eapply near_within; [exact Q|..]; cbn; lra.
Qed.

(** ** slice_sum *)
Lemma firstn_map' {A B} (f : A -> B) n l : firstn n (map f l) = map f (firstn n l).
Proof. apply firstn_map. Qed.

Lemma scalar_sum_near b Kmax Bmax : fsize b -> (1 + roundoff b) ^ Kmax * Bmax < bpow radix2 (bias b + 1) ->
  forall k xs es, Forall2 (near b k) xs es -> (k + (length xs - 1) <= Kmax)%nat -> bud (etot es) <= Bmax ->
  near b (k + (length xs - 1)) (fold_left (fl_add b) xs (fl_of_int b 0)) (etot es).
Proof. intros F Top k xs es N K B. apply (fold_zero_near b F Kmax Bmax Top); auto. now apply zero_near. Qed.

Theorem slices_accuracy tg m x ps xs :
  length ps = s_len x -> array_at (t_big_endian tg) 4 m (s_ptr x) ps -> Nat.modulo (length ps) 8 = 0%nat -> ps <> [] ->
  numbers 4 ps xs -> in_range 4 (length ps / 8 + 6) xs 0 ->
  (exists r, sum_ver tg m x = Ok r /\ within 4 (length ps / 8 + 6) xs 0 r) /\
  (exists r, sum_hor tg m x = Ok r /\ within 4 (length ps / 8 + 6) xs 0 r).
Proof.
  intros L A M8 NE N H. pose proof (Forall2_len _ _ _ N) as LL. rewrite L in M8, H |- *.
  pose proof (mod_div _ 8 ltac:(lia) M8) as D.
  pose proof (read_chunks_ok tg f32s m x ps f32s_vt (numbers_patterns 4 ps xs N) L A) as R.
  unfold in_range in H. rewrite Rplus_0_r in H.
  assert (L8 : (s_len x <> 0)%nat) by (destruct ps; [congruence|cbn [length] in L; lia]).
  set (n := (s_len x / 8)%nat) in *. set (K := (n + 6)%nat) in *.
  pose proof (numbers_near 4 ps xs N) as U.
  assert (G : Forall2 (lanes_near f32s 0) (groups n 8 ps) (parts n 8 (map est_of xs)))
    by (apply (groups_near f32s 0); [exact U|cbn [vn f32s f32x8]; lia]).
  assert (C : concat (parts n 8 (map est_of xs)) = map est_of xs) by (rewrite parts_flat by (rewrite map_length; lia); apply firstn_all2; rewrite map_length; lia).
  assert (B : bud (etot (concat (parts n 8 (map est_of xs)))) <= magnitudes xs) by (rewrite C, etot_exact; cbn; lra).
  assert (LG : @length vec (groups n 8 ps) = n) by apply groups_length.
  unfold sum_ver, sum_hor. change (lanes f32s) with 8%nat. rewrite M8. cbn [assert Nat.eqb bind].
  rewrite R. cbn [bind]. change (vn f32s) with 8%nat. fold n. split.
  - destruct (iter_sum_near f32s f32s_type K (magnitudes xs) H _ _ 0 G) as (z & Z1 & Z2 & _); [rewrite LG; unfold K; lia|exact B|].
    rewrite LG in Z1.
    assert (Z1' : lanes_near f32s (n - 1) (iter_sum f32s (groups n 8 ps)) z) by (revert Z1; destruct (Nat.eqb n 0); apply lanes_weaken; lia).
    destruct (fsum_near f32s f32s_type K (magnitudes xs) H tg (n - 1) _ z Z1') as (r & R1 & R2).
    + unfold K. change (vn f32s) with 8%nat. lia.
    + now rewrite Z2.
    + exists r. split; [exact R1|]. rewrite Z2, C, etot_exact in R2.
      apply (near_weaken 4 _ K) in R2; [|unfold K; change (vn f32s) with 8%nat; lia].
      eapply near_within; [exact R2|..]; cbn; lra.
  - destruct (rows_near f32s f32s_type K (magnitudes xs) H tg 0 _ _ G) as (hs & H1 & H2); [unfold K; change (vn f32s) with 8%nat; lia|exact B|].
    rewrite H1. cbn [bind]. eexists. split; [reflexivity|].
    pose proof (Forall2_len _ _ _ H2) as LH. rewrite map_length, parts_length in LH. change (vn f32s - 1)%nat with 7%nat in H2.
    assert (Q : near 4 (7 + (length hs - 1)) (scalar_sum hs) (etot (map etot (parts n 8 (map est_of xs))))).
      { apply (scalar_sum_near 4 K (magnitudes xs)); auto; [now left|unfold K; lia|now rewrite rows_etot]. }
      rewrite rows_etot, C, etot_exact in Q. apply (near_weaken 4 _ K) in Q; [|unfold K; lia].
      eapply near_within; [exact Q|..]; cbn; lra.
Qed.

(** ** Products *)
Section Products.
Variable b : nat.
Hypothesis F : fsize b.
Notation u := (roundoff b).
Lemma rounded_err x : Rabs (rounded b x - x) <= u * Rabs x + half_least b.
Proof.
  assert (HP : Prec_gt_0 (sig_width b + 1)) by (destruct F as [-> | ->]; reflexivity).
  set (emin := (1 - bias b - sig_width b)%Z). set (prec := (sig_width b + 1)%Z) in *.
  assert (U0 : 0 < u) by apply bpow_gt_0. assert (H0 : 0 < half_least b) by apply bpow_gt_0. pose proof (Rabs_pos x) as Px.
  assert (Ux : 0 <= u * Rabs x) by (apply Rmult_le_pos; lra).
  destruct (Rle_or_lt (bpow radix2 (emin + prec - 1)) (Rabs x)) as [M|M].
  - pose proof (relative_error_N_FLT radix2 emin prec HP (fun z => negb (Z.even z)) x M) as E.
    assert (Q : / 2 * bpow radix2 (- prec + 1) = u).
    { unfold roundoff. fold prec. rewrite bpow_plus. change (bpow radix2 1) with 2. field. }
    rewrite Q in E. change (Rabs (rounded b x - x) <= u * Rabs x) in E. lra.
  - assert (E : Rabs (rounded b x - x) <= / 2 * ulp radix2 (FLT_exp emin prec) x) by (apply error_le_half_ulp; now apply FLT_exp_valid).
    rewrite ulp_FLT_small in E; [|exact HP|eapply Rlt_trans; [exact M|]; apply bpow_lt; lia].
    assert (Q : / 2 * bpow radix2 emin = half_least b).
    { unfold half_least, emin. replace (1 - bias b - sig_width b)%Z with ((- bias b - sig_width b) + 1)%Z by ring. rewrite bpow_plus. change (bpow radix2 1) with 2. field. }
    lra.
Qed.

Definition est_mul (x y : R) : est := {| ex := x * y; mag := Rabs (x * y); bud := Rabs (x * y) + half_least b |}.
Lemma mul_near Kmax Bmax p q x y s s' : (1 + u) ^ Kmax * Bmax < bpow radix2 (bias b + 1) ->
  pattern b p -> pattern b q -> datum_of b p = Fin s x -> datum_of b q = Fin s' y -> (1 <= Kmax)%nat -> bud (est_mul x y) <= Bmax ->
  near b 1 (fl_mul b p q) (est_mul x y).
Proof.
  intros Top P Q D D' K B. destruct (mul_pattern b F p q P Q) as [P'' A].
  assert (H0 : 0 < half_least b) by apply bpow_gt_0.
  assert (FT : fits (est_mul x y)) by (split; cbn; lra).
  split; [exact P''|]. split; [exact FT|]. rewrite D, D' in A. cbn [ieee_mul] in A. destruct A as (s'' & _ & A).
  pose proof (rounded_err (x * y)) as E. pose proof (Rabs_pos (x * y)). pose proof (u_pos b) as U0.
  assert (0 <= u * half_least b) by (apply Rmult_le_pos; lra).
  rewrite Rlt_bool_true in A.
  - exists s'', (rounded b (x * y)). split; [exact A|]. cbn [ex mag bud est_mul pow]. lra.
  - eapply Rle_lt_trans; [|exact Top]. apply Rle_trans with ((1 + u) ^ 1 * bud (est_mul x y)).
    + replace (rounded b (x * y)) with ((rounded b (x * y) - x * y) + x * y) by ring. eapply Rle_trans; [apply Rabs_triang|].
      cbn [bud est_mul pow]. lra.
    + apply Rmult_le_compat; [cbn [pow]; lra|now apply fits_bud|now apply g_mono|exact B].
Qed.

Lemma map2_mul_near Kmax Bmax : (1 + u) ^ Kmax * Bmax < bpow radix2 (bias b + 1) -> (1 <= Kmax)%nat ->
  forall ps xs, numbers b ps xs -> forall qs ys, numbers b qs ys -> bud (etot (map2 est_mul xs ys)) <= Bmax ->
  Forall2 (near b 1) (map2 (fl_mul b) ps qs) (map2 est_mul xs ys).
Proof.
  intros Top K ps xs X. induction X as [|p x ps xs [P (s & D)] X IH]; intros qs ys Y B; inversion Y as [|q y qs' ys' [Q (s' & D')] Y']; subst; cbn [map2]; constructor.
  all: cbn [map2] in B; rewrite etot_cons in B; cbn [bud esum] in B.
  all: assert (H0 : 0 < half_least b) by apply bpow_gt_0.
  all: assert (0 <= bud (etot (map2 est_mul xs ys'))) by (apply fits_bud, fits_tot; clear - H0; revert ys'; induction xs; intros [|? ?]; cbn [map2]; constructor; auto; split; cbn; lra).
  - eapply mul_near; eauto. lra.
  - apply IH; auto. cbn [est_mul bud] in B. pose proof (Rabs_pos (x * y)). lra.
Qed.
Lemma etot_mul xs ys : length xs = length ys -> etot (map2 est_mul xs ys) =
  {| ex := exact_sum (map2 Rmult xs ys); mag := magnitudes (map2 Rmult xs ys); bud := magnitudes (map2 Rmult xs ys) + INR (length xs) * half_least b |}.
Proof.
  revert ys. induction xs as [|x xs IH]; intros [|y ys] L; try discriminate; cbn [map2].
  - apply est_eq; cbn; ring.
  - rewrite etot_cons, IH by (cbn in L; lia). apply est_eq; try reflexivity. cbn [bud esum est_mul]. cbn [length]. rewrite S_INR. cbn [magnitudes fold_right]. unfold magnitudes. ring.
Qed.
End Products.

(** The iterator sum, lane by lane. *)
Theorem iter_accuracy t vs i ps xs : float_type t -> Forall (is_vector t) vs -> (i < vn t)%nat ->
  Forall2 (fun v p => lane v i p) vs ps -> numbers (vb t) ps xs -> in_range (vb t) (length vs - 1) xs 0 ->
  exists c, lane (iter_sum t vs) i c /\ within (vb t) (length vs - 1) xs 0 c.
Proof.
  intros T V I L N H. pose proof (float_size t T) as F. unfold in_range in H. rewrite Rplus_0_r in H.
  assert (LV : length ps = length vs) by (now rewrite <- (Forall2_len _ _ _ L)).
  exists (fold_left (fl_add (vb t)) ps (fl_of_int (vb t) 0)). split.
  - unfold lane, iter_sum. rewrite (add_is t T).
    assert (Z : nth_error (splat t (lit (vkind t) (vb t) 0)) i = Some (fl_of_int (vb t) 0)).
    { unfold splat. rewrite lit_float by auto. now apply nth_error_repeat. }
    revert Z. generalize (splat t (lit (vkind t) (vb t) 0)) (fl_of_int (vb t) 0). clear - L.
    induction L as [|v p vs ps P L IH]; intros a z Z; cbn [fold_left]; [exact Z|]. apply IH. unfold lane in P. now apply nth_error_map2.
  - pose proof (scalar_sum_near (vb t) (length vs - 1) (magnitudes xs) F H 0 ps _ (numbers_near _ _ _ N)) as Q.
    rewrite etot_exact, LV in Q. eapply near_within; [apply Q; cbn; [lia|lra]|..]; cbn; lra.
Qed.

(** The parallel slice sum. *)
Theorem par_accuracy tg al sch m x ps xs i :
  length ps = s_len x -> array_at (t_big_endian tg) 4 m (s_ptr x) ps ->
  Nat.modulo (length ps) 8 = 0%nat -> ps <> [] ->
  (0 < al)%Z -> (al | 32)%Z -> (4 | s_ptr x)%Z ->
  (al | s_ptr x + Z.of_nat (4 * i))%Z -> (forall j, (j < i)%nat -> ~ (al | s_ptr x + Z.of_nat (4 * j))%Z) ->
  items sch = ((length ps - i) / 8)%nat ->
  numbers 4 ps xs ->
  let kept := if Nat.eqb i 0 then length xs else (length xs - 8 + i)%nat in
  in_range 4 (length ps / 8 + 7) (firstn kept xs) 0 ->
  exists r, sum_ver_par tg al sch m x = Ok r /\ within 4 (length ps / 8 + 7) (firstn kept xs) 0 r.
Proof.
  intros L A M8 NE Ha D32 D4 Di Dm I N kept H. pose proof (Forall2_len _ _ _ N) as LL. rewrite L in M8, H |- *.
  pose proof (mod_div _ 8 ltac:(lia) M8) as D.
  assert (L8 : (8 <= s_len x)%nat) by (destruct ps; [congruence|cbn [length] in L; lia]).
  destruct (first_aligned_some al x D32 Ha D4 L8) as (i' & Fi & I8 & Dv & Mn).
  assert (i' = i) as ->.
  { destruct (Nat.lt_trichotomy i i') as [G|[G|G]]; [|now symmetry|]; exfalso; [now apply (Mn i)|now apply (Dm i')]. }
  pose proof (numbers_patterns 4 ps xs N) as P.
  unfold sum_ver_par. rewrite M8. cbn [assert Nat.eqb bind]. rewrite Fi.
  rewrite (read_elements_ok tg m (s_ptr x) ps i P A) by lia. cbn [bind].
  change (lanes f32s) with 8%nat.
  pose proof (array_skipn _ 4 m _ i ps A) as At.
  pose proof (deref_chunks_ok (t_big_endian tg) f32s al m _ (skipn i ps) ((s_len x - i) / 8) f32s_vt
     (Forall_skipn' _ i _ P) At Ha Dv) as Q.
  assert (KB : ((s_len x - i) / 8 * 8 <= s_len x - i)%nat)
    by (pose proof (Nat.mul_div_le (s_len x - i) 8 ltac:(lia)); lia).
  change (map_ok (fun k => deref_vec (t_big_endian tg) f32s al m (s_ptr x + Z.of_nat (4 * i) + Z.of_nat (4 * (8 * k)))%Z) (seq 0 ((s_len x - i) / 8)))
    with (map_ok (fun k => deref_vec (t_big_endian tg) f32s al m (s_ptr x + Z.of_nat (4 * i) + Z.of_nat (vb f32s * (vn f32s * k)))%Z) (seq 0 ((s_len x - i) / 8))).
  rewrite Q; clear Q; [|exact D32|cbn [vn f32s f32x8]; rewrite skipn_length; lia].
  cbn [bind]. change (vn f32s) with 8%nat.
  set (n := ((s_len x - i) / 8)%nat) in *.
  assert (NB : (n <= s_len x / 8)%nat) by (unfold n; apply Nat.div_le_mono; lia).
  set (K := (s_len x / 8 + 7)%nat) in *.
  assert (KK : kept = (i + n * 8)%nat).
  { unfold kept. rewrite <- LL, L. unfold n. destruct (Nat.eqb_spec i 0) as [->|NI].
    - rewrite Nat.sub_0_r. lia.
    - assert ((s_len x - i) / 8 = s_len x / 8 - 1)%nat by (symmetry; apply (Nat.div_unique _ 8 _ (8 - i)); lia). lia. }
  unfold in_range in H. rewrite Rplus_0_r in H. set (Bm := magnitudes (firstn kept xs)) in *.
  pose proof (numbers_near 4 ps xs N) as U. set (es := map est_of xs) in *.
  assert (LE : length es = s_len x) by (unfold es; rewrite map_length; lia).
  assert (Tot : esum (etot (firstn i es)) (etot (firstn (n * 8) (skipn i es))) = {| ex := exact_sum (firstn kept xs); mag := Bm; bud := Bm |}).
  { unfold Bm. rewrite <- etot_exact, <- firstn_map, <- etot_app. fold es. f_equal. rewrite KK.
    rewrite <- (firstn_skipn i es) at 3. rewrite firstn_app, firstn_firstn, firstn_length.
    replace (Nat.min (i + n * 8) i) with i by lia.
    replace (i + n * 8 - Nat.min i (length es))%nat with (n * 8)%nat by lia. reflexivity. }
  assert (Ui : Forall2 (near 4 0) (firstn i ps) (firstn i es)) by now apply Forall2_firstn'.
  assert (Us : Forall2 (near 4 0) (skipn i ps) (skipn i es)) by now apply Forall2_skipn'.
  assert (G : Forall2 (lanes_near f32s 0) (groups n 8 (skipn i ps)) (parts n 8 (skipn i es)))
    by (apply (groups_near f32s 0); [exact Us|rewrite skipn_length; cbn [vn f32s f32x8]; lia]).
  assert (C : concat (parts n 8 (skipn i es)) = firstn (n * 8) (skipn i es)) by (apply parts_flat; rewrite skipn_length; lia).
  pose proof (fits_bud _ (fits_tot _ (near_all_fits _ _ _ _ Ui))) as B1.
  pose proof (fits_bud _ (fits_tot _ (near_all_fits _ _ _ _ (Forall2_firstn' _ (n * 8) _ _ Us)))) as B2.
  assert (BT : bud (etot (firstn i es)) + bud (etot (firstn (n * 8) (skipn i es))) = Bm) by (pose proof (f_equal bud Tot) as X; exact X).
  assert (LP : length (parts n 8 (skipn i es)) = n) by apply parts_length.
  destruct (par_sum_near f32s f32s_type K Bm H sch _ _ G) as (z & Z1 & Z2 & _).
  - rewrite (Forall2_len _ _ _ G), LP, I, L. fold n. lia.
  - rewrite I, L. fold n. unfold K. lia.
  - rewrite I, L. fold n. rewrite firstn_all2 by lia. rewrite C. lra.
  - rewrite I, L in Z1, Z2. fold n in Z1, Z2. rewrite firstn_all2, C in Z2 by lia.
    destruct (fsum_near f32s f32s_type K Bm H tg (n - 1) _ z Z1) as (r & R1 & R2);
      [change (vn f32s) with 8%nat; unfold K; lia|rewrite Z2; lra|].
    rewrite R1. cbn [bind]. eexists. split; [reflexivity|].
    change (vn f32s - 1)%nat with 7%nat in R2.
    assert (Sc : near 4 (0 + (length (firstn i ps) - 1)) (scalar_sum (firstn i ps)) (etot (firstn i es))).
    { apply (scalar_sum_near 4 K Bm); auto; [now left|rewrite firstn_length; unfold K; lia|lra]. }
    rewrite firstn_length in Sc. rewrite Z2 in R2.
    assert (W : near 4 K (fl_add 4 (scalar_sum (firstn i ps)) r) (esum (etot (firstn i es)) (etot (firstn (n * 8) (skipn i es))))).
    { unfold K. replace (s_len x / 8 + 7)%nat with (S (s_len x / 8 + 6))%nat by lia.
      apply (near_add 4 (or_introl eq_refl) K Bm H).
      - eapply near_weaken; [|exact Sc]. lia.
      - eapply near_weaken; [|exact R2]. lia.
      - unfold K. lia.
      - cbn [bud esum]. lra. }
    rewrite Tot in W. eapply near_within; [exact W|..]; cbn; unfold Bm; lra.
Qed.

(** ** dot_product *)
Theorem dots_accuracy tg m a b ps qs xs ys :
  length ps = s_len a -> length qs = s_len b -> length ps = length qs -> ps <> [] ->
  array_at (t_big_endian tg) 4 m (s_ptr a) ps -> array_at (t_big_endian tg) 4 m (s_ptr b) qs ->
  numbers 4 ps xs -> numbers 4 qs ys ->
  let n := length ps in
  let lost := INR n * half_least 4 in
  (in_range 4 n (map2 Rmult xs ys) lost ->
   exists r, scalar_dot_prod tg m a b = Ok r /\ within 4 n (map2 Rmult xs ys) lost r) /\
  (Nat.modulo n 4 = 0%nat -> in_range 4 (n / 4 + 3) (map2 Rmult xs ys) lost ->
   exists r, simd_dot_prod tg m a b = Ok r /\ within 4 (n / 4 + 3) (map2 Rmult xs ys) lost r).
Proof.
  intros LA LB LE NE A B X Y n lost.
  pose proof (numbers_patterns 4 _ _ X) as PX. pose proof (numbers_patterns 4 _ _ Y) as PY.
  pose proof (Forall2_len _ _ _ X) as LX. pose proof (Forall2_len _ _ _ Y) as LY.
  assert (F4 : fsize 4) by now left.
  assert (EQ : Nat.eqb (s_len a) (s_len b) = true) by (apply Nat.eqb_eq; congruence).
  assert (N0 : (0 < n)%nat) by (unfold n; destruct ps; [congruence|cbn [length]; lia]).
  assert (ET : etot (map2 (est_mul 4) xs ys) = {| ex := exact_sum (map2 Rmult xs ys); mag := magnitudes (map2 Rmult xs ys);
      bud := magnitudes (map2 Rmult xs ys) + lost |}).
  { rewrite etot_mul by congruence. unfold lost, n. now rewrite LX. }
  set (Bm := magnitudes (map2 Rmult xs ys) + lost) in *.
  assert (MP : length (map2 (fl_mul 4) ps qs) = n) by (unfold n; apply map2_length_eq; congruence).
  split.
  - intros H. unfold in_range in H. fold Bm in H.
    pose proof (map2_mul_near 4 F4 n Bm H N0 ps xs X qs ys Y) as MU. rewrite ET in MU. specialize (MU (Rle_refl _)).
    unfold scalar_dot_prod. rewrite EQ. cbn [assert bind].
    rewrite (read_elements_ok tg m _ ps) by (auto; lia). rewrite (read_elements_ok tg m _ qs) by (auto; lia).
    cbn [bind]. rewrite <- LA, <- LB, !firstn_all. eexists. split; [reflexivity|].
    pose proof (scalar_sum_near 4 n Bm F4 H 1 _ _ MU) as Q. rewrite ET, MP in Q. replace (1 + (n - 1))%nat with n in Q by lia.
    eapply near_within; [apply Q; [lia|cbn; lra]|..]; cbn; unfold Bm; lra.
  - intros M4 H. unfold in_range in H. fold Bm in H. set (K := (n / 4 + 3)%nat) in *.
    pose proof (map2_mul_near 4 F4 K Bm H ltac:(unfold K; lia) ps xs X qs ys Y) as MU. rewrite ET in MU. specialize (MU (Rle_refl _)).
    unfold n in M4. rewrite LA in M4. unfold simd_dot_prod. rewrite EQ, M4. cbn [assert Nat.eqb bind].
    rewrite (read_chunks_ok tg f32x4 m a ps (proj2 (proj2 f32x4_type)) PX LA A).
    rewrite (read_chunks_ok tg f32x4 m b qs (proj2 (proj2 f32x4_type)) PY LB B). cbn [bind].
    change (mul f32x4) with (map2 (fl_mul 4)). rewrite <- LB, <- LE, LA, map2_groups.
    change (vn f32x4) with 4%nat.
    pose proof (mod_div _ 4 ltac:(lia) M4) as D. assert (NA : n = s_len a) by exact LA.
    set (k := (s_len a / 4)%nat) in *.
    assert (G : Forall2 (lanes_near f32x4 1) (groups k 4 (map2 (fl_mul 4) ps qs)) (parts k 4 (map2 (est_mul 4) xs ys)))
      by (apply (groups_near f32x4 1); [exact MU|cbn [vn f32x4]; lia]).
    assert (ML : length (map2 (est_mul 4) xs ys) = n) by (rewrite <- (Forall2_len _ _ _ MU); exact MP).
    assert (C : concat (parts k 4 (map2 (est_mul 4) xs ys)) = map2 (est_mul 4) xs ys)
      by (rewrite parts_flat by lia; apply firstn_all2; lia).
    assert (LG : @length vec (groups k 4 (map2 (fl_mul 4) ps qs)) = k) by apply groups_length.
    assert (k0 : (0 < k)%nat) by lia.
    assert (KE : K = (k + 3)%nat) by (unfold K, k; now rewrite NA).
    destruct (iter_sum_near f32x4 f32x4_type K Bm H _ _ 1 G) as (z & Z1 & Z2 & _); [rewrite LG; lia|rewrite C, ET; cbn; lra|].
    rewrite LG in Z1. replace (Nat.eqb k 0) with false in Z1 by (symmetry; apply Nat.eqb_neq; lia).
    rewrite C, ET in Z2.
    destruct (fsum_near f32x4 f32x4_type K Bm H tg _ _ z Z1) as (r & R1 & R2).
    + change (vn f32x4) with 4%nat. lia.
    + rewrite Z2. cbn. lra.
    + exists r. split; [exact R1|]. rewrite Z2 in R2. change (vn f32x4 - 1)%nat with 3%nat in R2.
      replace (1 + (k - 1) + 3)%nat with K in R2 by lia.
      eapply near_within; [exact R2|..]; cbn; unfold Bm; lra.
Qed.
