(** Prices of the option pricing example, one lane at a time. *)
From Coq Require Import ZArith List Bool Lia Reals Lra.
From Flocq Require Import Core.
From Verif.Model Require Import Base FloatLane Llvm Tables MathTables Math Minimal MaskReduce Ops Cmp Float ExStencil ExGeometry ExOptions.
From Verif.Spec Require Import Spec Floats MathSpec Stencil Rays Formulas Pricing.
From Verif.Proofs Require Import Lib MathLlvmP FloatP FloatOpsP FloatVecP FloatApiP FloatConstsP ExPacketP ExIntersectP ExIntersectMainP ExImageP.
Import ListNotations.
Open Scope Z_scope.
Local Notation pat := (pattern 4).
Local Notation dat := f32_datum.
Local Opaque fl_add fl_sub fl_mul fl_div fl_sqrt fl_lt fl_gt fl_ge fl_abs fl_max f32_neg fl_of_int.

(** *** Literals *)
Lemma literal c s m e x : pat c ->
  sign_field 4 c = false -> exp_field 4 c = e + 150 -> 0 < e + 150 < 255 -> 2 ^ 23 + sig_field 4 c = m ->
  2 ^ 23 < m -> ((IZR m - / 2) * bpow radix2 e < x < (IZR m + / 2) * bpow radix2 e)%R -> s = false ->
  dat c = Fin s (rounded 4 x).
Proof.
  intros P Hs He Be Hm Lm Hx ->.
  assert (Um : m < 2 ^ 24).
  { subst m. unfold sig_field. pose proof (Z.mod_pos_bound c (2 ^ sig_width 4) ltac:(reflexivity)) as B.
    change (2 ^ sig_width 4) with 8388608 in *. change (2 ^ 23) with 8388608. change (2 ^ 24) with 16777216. lia. }
  rewrite (rounded_near 4 m e x fs4 Lm Um); [|change (1 - bias 4 - sig_width 4) with (-149); clear - Be; lia|exact Hx].
  unfold f32_datum, datum_of, magnitude. rewrite Hs, He. change (2 ^ exp_width 4 - 1) with 255.
  destruct (Z.eqb_spec (e + 150) 255); [exfalso; clear - e0 Be; lia|].
  destruct (Z.eqb_spec (e + 150) 0); [exfalso; clear - e0 Be; lia|].
  cbv iota beta. f_equal. change (sig_width 4) with 23. rewrite Hm. f_equal. f_equal. change (bias 4) with 127. clear; lia.
Qed.
Ltac lit e k := match goal with |- dat ?c = Fin (Rlt_bool ?x 0) _ =>
  refine (literal c _ (2 ^ 23 + sig_field 4 c) e x _ eq_refl eq_refl _ eq_refl _ _ _);
  [apply p_lit; vm_compute; split; congruence|split; reflexivity|reflexivity|
   let m := eval vm_compute in (2 ^ 23 + sig_field 4 c) in change (2 ^ 23 + sig_field 4 c) with m;
   change e with (Z.opp k); rewrite (bpow_inv k) by lia; let n := eval vm_compute in (2 ^ k) in change (2 ^ k) with n; split; lra|
   apply Rlt_bool_false; lra] end.

Lemma l_k : dat c_k = Fin (Rlt_bool (2316419 / 10000000) 0) (rounded 4 (2316419 / 10000000)).
Proof. lit (-26) 26. Qed.
Lemma l_1 : dat c_1 = Fin (Rlt_bool (31938153 / 100000000) 0) (rounded 4 (31938153 / 100000000)).
Proof. lit (-25) 25. Qed.
Lemma l_2 : dat c_2 = Fin (Rlt_bool (356563782 / 1000000000) 0) (rounded 4 (356563782 / 1000000000)).
Proof. lit (-25) 25. Qed.
Lemma l_3 : dat c_3 = Fin (Rlt_bool (1781477937 / 1000000000) 0) (rounded 4 (1781477937 / 1000000000)).
Proof. lit (-23) 23. Qed.
Lemma l_5 : dat c_5 = Fin (Rlt_bool (1330274429 / 1000000000) 0) (rounded 4 (1330274429 / 1000000000)).
Proof. lit (-23) 23. Qed.
Lemma l_inv : dat INV_SQRT_2PI = Fin (Rlt_bool (39894228040 / 100000000000) 0) (rounded 4 (39894228040 / 100000000000)).
Proof. lit (-25) 25. Qed.
Definition c_4' : Z := 0x3fe91eea.
Lemma l_4' : dat c_4' = Fin (Rlt_bool (1821255978 / 1000000000) 0) (rounded 4 (1821255978 / 1000000000)).
Proof. lit (-23) 23. Qed.
Lemma l_4 : dat c_4 = Fin (Rlt_bool (- 1821255978 / 1000000000) 0) (rounded 4 (- 1821255978 / 1000000000)).
Proof.
  replace (- 1821255978 / 1000000000)%R with (- (1821255978 / 1000000000))%R by lra. rewrite rounded_opp.
  replace (Rlt_bool (- (1821255978 / 1000000000)) 0) with (negb (Rlt_bool (1821255978 / 1000000000) 0)).
  - change c_4 with (c_4' + 2 ^ 31). replace (c_4' + 2 ^ 31) with (f32_neg c_4') by (vm_compute; reflexivity).
    rewrite d_neg by (apply p_lit; vm_compute; split; congruence). rewrite l_4'. reflexivity.
  - rewrite Rlt_bool_false by lra. rewrite Rlt_bool_true by lra. reflexivity.
Qed.

(** Integers. *)
Lemma int_datum z : Z.abs z < 2 ^ 24 -> pat (fl_of_int 4 z) /\ dat (fl_of_int 4 z) = Fin (z <? 0) (IZR z).
Proof. intros H. split; [exact (proj1 (of_int_datum 4 fs4 z))|exact (of_small_int 4 fs4 z H)]. Qed.
Lemma rounded_int z : Z.abs z < 2 ^ 24 -> rounded 4 (IZR z) = IZR z.
Proof.
  intros H. destruct (of_int_datum 4 fs4 z) as [_ (s & _ & R)]. fold (dat (fl_of_int 4 z)) in R.
  rewrite (proj2 (int_datum z H)) in R. destruct (Rlt_bool _ _); congruence.
Qed.
Lemma int_num z : Z.abs z < 2 ^ 24 -> Fin (z <? 0) (IZR z) = Fin (Rlt_bool (IZR z) 0) (rounded 4 (IZR z)).
Proof.
  intros H. rewrite rounded_int by exact H. f_equal.
  destruct (Z.ltb_spec z 0) as [L|L]; [rewrite Rlt_bool_true; auto; now apply IZR_lt|rewrite Rlt_bool_false; auto; now apply IZR_le].
Qed.
Lemma l_one : dat f32_1 = Fin (Rlt_bool 1 0) (rounded 4 1).
Proof. rewrite d_1. apply (int_num 1). reflexivity. Qed.
Lemma l_half : dat c_half = Fin (Rlt_bool (1 / 2) 0) (rounded 4 (1 / 2)).
Proof.
  assert (E : rounded 4 (1 / 2) = (1 / 2)%R).
  { unfold rounded. apply round_generic; [apply valid_rnd_N|]. replace (1 / 2)%R with (bpow radix2 (-1)) by (cbn; lra).
    apply generic_format_bpow. vm_compute. discriminate. }
  rewrite E. rewrite Rlt_bool_false by lra. unfold f32_datum, datum_of, magnitude.
  change (exp_field 4 c_half) with 126. change (sig_field 4 c_half) with 0.
  change (sign_field 4 c_half) with false. change (2 ^ exp_width 4 - 1) with 255. cbv beta iota. cbn [Z.eqb Pos.eqb].
  f_equal. change (sig_width 4) with 23. change (bias 4) with 127. match goal with |- (IZR ?m * bpow radix2 ?e)%R = _ =>
    change m with 8388608; change e with (Z.opp 24) end. rewrite (bpow_inv 24) by lia. change (2 ^ 24) with 16777216. lra.
Qed.

(** *** Formulas *)
Lemma c_arg env i p : nth_error env i = Some (dat p) -> computed 4 env (Arg i) (dat p).
Proof. intros H. exact H. Qed.
Lemma c_num env x p : dat p = Fin (Rlt_bool x 0) (rounded 4 x) -> computed 4 env (Num x) (dat p).
Proof. intros H. exact H. Qed.
Lemma c_plus env a b p q : pat p -> pat q -> computed 4 env a (dat p) -> computed 4 env b (dat q) -> computed 4 env (Plus a b) (dat (fl_add 4 p q)).
Proof. intros P Q A B. exists (dat p), (dat q). split; [exact A|]. split; [exact B|now apply d_add]. Qed.
Lemma c_minus env a b p q : pat p -> pat q -> computed 4 env a (dat p) -> computed 4 env b (dat q) -> computed 4 env (Minus a b) (dat (fl_sub 4 p q)).
Proof. intros P Q A B. exists (dat p), (dat q). split; [exact A|]. split; [exact B|now apply d_sub]. Qed.
Lemma c_times env a b p q : pat p -> pat q -> computed 4 env a (dat p) -> computed 4 env b (dat q) -> computed 4 env (Times a b) (dat (fl_mul 4 p q)).
Proof. intros P Q A B. exists (dat p), (dat q). split; [exact A|]. split; [exact B|now apply d_mul]. Qed.
Lemma c_over env a b p q : pat p -> pat q -> computed 4 env a (dat p) -> computed 4 env b (dat q) -> computed 4 env (Over a b) (dat (fl_div 4 p q)).
Proof. intros P Q A B. exists (dat p), (dat q). split; [exact A|]. split; [exact B|now apply d_div]. Qed.

Lemma p_abs p : pat p -> pat (fl_abs 4 p).
Proof. intros P. exact (proj1 (abs_pat p P)). Qed.
Lemma p_max p q : pat p -> pat q -> pat (fl_max 4 p q).
Proof. intros P Q. destruct (proj1 (max_datum 4 fs4 p q P Q)) as [-> | ->]; assumption. Qed.
Lemma p_zero : pat f32_0.
Proof. apply p_lit. vm_compute. split; congruence. Qed.
Lemma p_one : pat f32_1.
Proof. apply p_lit. vm_compute. split; congruence. Qed.
Lemma p_k : pat c_k. Proof. apply p_lit. vm_compute. split; congruence. Qed.
Lemma p_c1 : pat c_1. Proof. apply p_lit. vm_compute. split; congruence. Qed.
Lemma p_c2 : pat c_2. Proof. apply p_lit. vm_compute. split; congruence. Qed.
Lemma p_c3 : pat c_3. Proof. apply p_lit. vm_compute. split; congruence. Qed.
Lemma p_c4 : pat c_4. Proof. apply p_lit. vm_compute. split; congruence. Qed.
Lemma p_c5 : pat c_5. Proof. apply p_lit. vm_compute. split; congruence. Qed.
Lemma p_inv : pat INV_SQRT_2PI. Proof. apply p_lit. vm_compute. split; congruence. Qed.
Lemma p_half : pat c_half. Proof. apply p_lit. vm_compute. split; congruence. Qed.
Lemma p_steps : pat steps_f32.
Proof. apply int_datum. reflexivity. Qed.
Lemma l_steps : dat steps_f32 = Fin (Rlt_bool (INR BINOMIAL_NUM) 0) (rounded 4 (INR BINOMIAL_NUM)).
Proof. rewrite INR_IZR_INZ. rewrite <- int_num by reflexivity. exact (proj2 (int_datum (Z.of_nat BINOMIAL_NUM) eq_refl)). Qed.
Lemma exponent_ok j : (j < BINOMIAL_NUM)%nat -> pat (exponent_f32 j) /\
  dat (exponent_f32 j) = Fin (2 * Z.of_nat j - Z.of_nat BINOMIAL_NUM <? 0) (IZR (2 * Z.of_nat j - Z.of_nat BINOMIAL_NUM)).
Proof. intros J. apply int_datum. unfold BINOMIAL_NUM in *. change (2 ^ 24) with 16777216. lia. Qed.
#[export] Hint Resolve p_abs p_max p_zero p_one p_k p_c1 p_c2 p_c3 p_c4 p_c5 p_inv p_half p_steps : pats.

Ltac pp := repeat match goal with
  | |- pattern 4 (fl_add 4 _ _) => apply p_add
  | |- pattern 4 (fl_sub 4 _ _) => apply p_sub
  | |- pattern 4 (fl_mul 4 _ _) => apply p_mul
  | |- pattern 4 (fl_div 4 _ _) => apply p_div
  | |- pattern 4 _ => solve [auto with pats]
  end.
Ltac comp := repeat match goal with
  | |- computed 4 _ (Plus _ _) _ => apply c_plus
  | |- computed 4 _ (Minus _ _) _ => apply c_minus
  | |- computed 4 _ (Times _ _) _ => apply c_times
  | |- computed 4 _ (Over _ _) _ => apply c_over
  | |- computed 4 _ (Arg _) _ => apply c_arg; reflexivity
  | |- computed 4 _ (Num _) (f32_datum c_k) => exact (c_num _ _ _ l_k)
  | |- computed 4 _ (Num _) (f32_datum c_1) => exact (c_num _ _ _ l_1)
  | |- computed 4 _ (Num _) (f32_datum c_2) => exact (c_num _ _ _ l_2)
  | |- computed 4 _ (Num _) (f32_datum c_3) => exact (c_num _ _ _ l_3)
  | |- computed 4 _ (Num _) (f32_datum c_4) => exact (c_num _ _ _ l_4)
  | |- computed 4 _ (Num _) (f32_datum c_5) => exact (c_num _ _ _ l_5)
  | |- computed 4 _ (Num _) (f32_datum INV_SQRT_2PI) => exact (c_num _ _ _ l_inv)
  | |- computed 4 _ (Num _) (f32_datum c_half) => exact (c_num _ _ _ l_half)
  | |- computed 4 _ (Num _) (f32_datum f32_1) => exact (c_num _ _ _ l_one)
  | |- computed 4 _ (Num _) (f32_datum steps_f32) => exact (c_num _ _ _ l_steps)
  | |- pattern 4 _ => solve [pp]
  end.

(** *** Going back through the tree *)
Section Tree.
  Context {A : Type}.
  Variable g : A -> A -> A.
  Fixpoint tree (leaf : nat -> A) (n k : nat) : A :=
    match n with
    | O => leaf k
    | S n => g (tree leaf n k) (tree leaf n (S k))
    end.
  Lemma tree_S leaf n k : tree leaf (S n) k = g (tree leaf n k) (tree leaf n (S k)).
  Proof. reflexivity. Qed.
  Lemma tree_0 leaf k : tree leaf 0 k = leaf k.
  Proof. reflexivity. Qed.

  Local Definition body (k : nat) (vs : list A) : outcome (list A) :=
    a <- at_ vs k ;; b <- at_ vs (k + 1) ;; n <- Ok (g a b) ;; put vs k n.

  Lemma nth_map_seq (h : nat -> A) N i : (i < N)%nat -> nth_error (map h (seq 0 N)) i = Some (h i).
  Proof.
    intros I. rewrite nth_error_map. rewrite (nth_error_nth' _ 0%nat) by (rewrite seq_length; exact I).
    rewrite seq_nth by exact I. reflexivity.
  Qed.
  Lemma update_map_seq (h : nat -> A) N i x : (i < N)%nat ->
    Base.update (map h (seq 0 N)) i x = map (fun k => if Nat.eqb k i then x else h k) (seq 0 N).
  Proof.
    intros I. apply nth_error_ext; [now rewrite update_length, !map_length|]. intros j a b Ha Hb.
    assert (J : (j < N)%nat).
    { assert (j < length (map (fun k => if Nat.eqb k i then x else h k) (seq 0 N)))%nat by (apply nth_error_Some; congruence).
      rewrite map_length, seq_length in H. exact H. }
    rewrite nth_map_seq in Hb by exact J. injection Hb as <-.
    destruct (Nat.eqb_spec j i) as [->|N'].
    - rewrite nth_error_update_same in Ha by (rewrite map_length, seq_length; exact I). congruence.
    - rewrite nth_error_update_other in Ha by congruence. rewrite nth_map_seq in Ha by exact J. congruence.
  Qed.

  Lemma inner_loop (h : nat -> A) N j : (j < N)%nat ->
    foreach (seq 0 j) (map h (seq 0 N)) body = Ok (map (fun k => if (k <? j)%nat then g (h k) (h (S k)) else h k) (seq 0 N)).
  Proof.
    induction j as [|j IH]; intros J.
    - cbn [seq foreach]. reflexivity.
    - rewrite seq_S, foreach_app, IH by lia. cbn [bind foreach Nat.add]. unfold body at 1. unfold at_.
      rewrite !nth_map_seq by lia. cbn [bind].
      rewrite Nat.ltb_irrefl. replace (j + 1 <? j)%nat with false by (symmetry; apply Nat.ltb_ge; lia).
      unfold put. rewrite map_length, seq_length. replace (j <? N)%nat with true by (symmetry; apply Nat.ltb_lt; lia).
      cbn [bind]. rewrite update_map_seq by lia. f_equal. apply map_ext_in. intros k K.
      replace (j + 1)%nat with (S j) by lia.
      destruct (Nat.eqb_spec k j) as [->|NE].
      + replace (j <? S j)%nat with true by (symmetry; apply Nat.ltb_lt; lia). reflexivity.
      + destruct (Nat.ltb_spec k j), (Nat.ltb_spec k (S j)); try reflexivity; lia.
  Qed.

  Lemma outer_loop leaf N : forall m h, (1 <= m <= N)%nat -> (forall k, (k < m)%nat -> h k = tree leaf (N - m) k) ->
    exists h', foreach (rev (seq 0 m)) (map h (seq 0 N)) (fun j vs => foreach (seq 0 j) vs body) = Ok (map h' (seq 0 N)) /\
      h' 0%nat = tree leaf (N - 1) 0.
  Proof.
    induction m as [|m IH]; intros h M H; [lia|].
    rewrite seq_S, rev_app_distr. cbn [rev app Nat.add foreach]. rewrite inner_loop by lia. cbn [bind].
    destruct m as [|m].
    - cbn [seq rev foreach]. eexists. split; [reflexivity|]. cbn [Nat.ltb Nat.leb]. apply H. lia.
    - apply IH; [lia|]. intros k K. replace (k <? S m)%nat with true by (symmetry; apply Nat.ltb_lt; lia).
      rewrite !H by lia. rewrite <- tree_S. f_equal. lia.
  Qed.

  Lemma roll_back_ok leaf :
    (vs <- roll_back (fun a b => Ok (g a b)) (map leaf (seq 0 BINOMIAL_NUM)) ;; at_ vs 0%nat) = Ok (tree leaf (BINOMIAL_NUM - 1) 0).
  Proof.
    assert (N1 : (1 <= BINOMIAL_NUM)%nat) by (apply Nat.leb_le; reflexivity).
    unfold roll_back. generalize dependent BINOMIAL_NUM. intros N N1.
    destruct (outer_loop leaf N N leaf ltac:(lia)) as (h & E & H0).
    - intros k _. now rewrite Nat.sub_diag.
    - unfold body in E. rewrite E. cbn [bind]. unfold at_. rewrite nth_map_seq by lia. now rewrite H0.
  Qed.
End Tree.

Local Opaque tree BINOMIAL_NUM roll_back.

(** *** A lane *)
Section Lane.
  Variables (NG SQ EX LN : Z -> Z) (PW : Z -> Z -> Z).
  Definition lane_cnd (x : Z) : Z :=
    let l := fl_abs 4 x in
    let k := fl_div 4 f32_1 (fl_add 4 f32_1 (fl_mul 4 c_k l)) in
    let k2 := fl_mul 4 k k in
    let k3 := fl_mul 4 k2 k in
    let k4 := fl_mul 4 k2 k2 in
    let k5 := fl_mul 4 k3 k2 in
    let w := fl_add 4 (fl_add 4 (fl_add 4 (fl_sub 4 (fl_mul 4 c_1 k) (fl_mul 4 c_2 k2)) (fl_mul 4 c_3 k3)) (fl_mul 4 c_4 k4)) (fl_mul 4 c_5 k5) in
    let w := fl_mul 4 (fl_mul 4 w INV_SQRT_2PI) (EX (fl_mul 4 (fl_mul 4 (NG l) l) c_half)) in
    if fl_gt 4 x f32_0 then fl_sub 4 f32_1 w else w.
  Definition lane_call (s x t r v : Z) : Z :=
    let d1 := fl_div 4 (fl_add 4 (LN (fl_div 4 s x)) (fl_mul 4 (fl_add 4 r (fl_mul 4 (fl_mul 4 v v) c_half)) t)) (fl_mul 4 v (SQ t)) in
    let d2 := fl_sub 4 d1 (fl_mul 4 v (SQ t)) in
    fl_sub 4 (fl_mul 4 s (lane_cnd d1)) (fl_mul 4 (fl_mul 4 x (EX (fl_mul 4 (NG r) t))) (lane_cnd d2)).
  Variable step : Z -> Z -> Z -> Z -> Z.          (* pu, disc, the nodes *)
  Definition lane_dt (t : Z) : Z := fl_div 4 t steps_f32.
  Definition lane_u (t v : Z) : Z := EX (fl_mul 4 v (SQ (lane_dt t))).
  Definition lane_disc (t r : Z) : Z := EX (fl_mul 4 r (lane_dt t)).
  Definition lane_pu (t r v : Z) : Z :=
    let d := fl_div 4 f32_1 (lane_u t v) in fl_div 4 (fl_sub 4 (lane_disc t r) d) (fl_sub 4 (lane_u t v) d).
  Definition lane_leaf (s x t v : Z) (j : nat) : Z := fl_max 4 f32_0 (fl_sub 4 x (fl_mul 4 s (PW (lane_u t v) (exponent_f32 j)))).
  Definition lane_put (s x t r v : Z) : Z :=
    tree (step (lane_pu t r v) (lane_disc t r)) (lane_leaf s x t v) (BINOMIAL_NUM - 1) 0.

  Variables (exponential logarithm : datum -> datum -> Prop) (power : datum -> datum -> datum -> Prop).
  Hypothesis HN : forall p, pat p -> pat (NG p) /\ dat (NG p) = negated (dat p).
  Hypothesis HS : forall p, pat p -> pat (SQ p) /\ ieee_sqrt 4 (dat p) (dat (SQ p)).
  Hypothesis HE : forall p, pat p -> pat (EX p) /\ exponential (dat p) (dat (EX p)).
  Hypothesis HL : forall p, pat p -> pat (LN p) /\ logarithm (dat p) (dat (LN p)).
  Hypothesis HP : forall p q, pat p -> pat q -> pat (PW p q) /\ power (dat p) (dat q) (dat (PW p q)).
  Lemma p_NG p : pat p -> pat (NG p). Proof. intros P. exact (proj1 (HN p P)). Qed.
  Lemma p_SQ p : pat p -> pat (SQ p). Proof. intros P. exact (proj1 (HS p P)). Qed.
  Lemma p_EX p : pat p -> pat (EX p). Proof. intros P. exact (proj1 (HE p P)). Qed.
  Lemma p_LN p : pat p -> pat (LN p). Proof. intros P. exact (proj1 (HL p P)). Qed.
  Lemma p_PW p q : pat p -> pat q -> pat (PW p q). Proof. intros P Q. exact (proj1 (HP p q P Q)). Qed.
  Local Hint Resolve p_NG p_SQ p_EX p_LN p_PW : pats.
  Lemma c_opp env a p : pat p -> computed 4 env a (dat p) -> computed 4 env (Opposite a) (dat (NG p)).
  Proof. intros P A. exists (dat p). split; [exact A|now apply HN]. Qed.
  Lemma c_root env a p : pat p -> computed 4 env a (dat p) -> computed 4 env (Root a) (dat (SQ p)).
  Proof. intros P A. exists (dat p). split; [exact A|now apply HS]. Qed.
  Lemma c_mod env a p : pat p -> computed 4 env a (dat p) -> computed 4 env (Modulus a) (dat (fl_abs 4 p)).
  Proof. intros P A. exists (dat p). split; [exact A|now apply abs_pat]. Qed.

  Lemma cnd_ok x : pat x -> pat (lane_cnd x) /\ cumulative exponential (dat x) (dat (lane_cnd x)).
  Proof.
    intros P. unfold lane_cnd. cbv zeta.
    set (l := fl_abs 4 x). assert (Pl : pat l) by (unfold l; auto with pats).
    set (k := fl_div 4 f32_1 (fl_add 4 f32_1 (fl_mul 4 c_k l))). assert (Pk : pat k) by (unfold k; auto 10 with pats).
    set (q := fl_mul 4 (fl_mul 4 (NG l) l) c_half). assert (Pq : pat q) by (unfold q; auto 10 with pats).
    set (w := fl_mul 4 (fl_mul 4 _ INV_SQRT_2PI) (EX q)). assert (Pw : pat w) by (unfold w; pp).
    split; [apply p_if; auto with pats|].
    exists (dat l), (dat k), (dat q), (dat (EX q)), (dat w).
    split; [apply c_mod; [exact P|reflexivity]|]. split; [unfold k; comp|].
    split; [unfold q; apply c_times; [auto with pats..|apply c_times; [auto with pats..|apply c_opp; [auto|reflexivity]|reflexivity]|exact l_half]|].
    split; [now apply HE|]. split; [unfold w, polynomial, cube, square; comp|].
    pose proof (d_gt x f32_0 P p_zero) as G. rewrite d_0 in G.
    destruct (fl_gt 4 x f32_0).
    - split; [intros _; comp|]. intros N. contradiction N. now apply G.
    - split; [intros N; apply G in N; discriminate|reflexivity].
  Qed.
  Lemma call_ok s x t r v : pat s -> pat x -> pat t -> pat r -> pat v ->
    pat (lane_call s x t r v) /\ call_price exponential logarithm (dat s) (dat x) (dat t) (dat r) (dat v) (dat (lane_call s x t r v)).
  Proof.
    intros Ps Px Pt Pr Pv. unfold lane_call. cbv zeta.
    set (g := LN (fl_div 4 s x)). assert (Pg : pat g) by (unfold g; auto with pats).
    set (d1 := fl_div 4 _ _). assert (P1 : pat d1) by (unfold d1; auto 20 with pats).
    set (d2 := fl_sub 4 d1 _). assert (P2 : pat d2) by (unfold d2; auto 20 with pats).
    destruct (cnd_ok d1 P1) as [N1 C1]. destruct (cnd_ok d2 P2) as [N2 C2].
    set (n1 := lane_cnd d1) in *. set (n2 := lane_cnd d2) in *. set (h := fl_mul 4 (NG r) t). assert (Ph : pat h) by (unfold h; auto with pats).
    split; [auto 20 with pats|].
    exists (dat (fl_div 4 s x)), (dat g), (dat d1), (dat d2), (dat n1), (dat n2), (dat h), (dat (EX h)).
    split; [comp|]. split; [apply HL; auto with pats|].
    split; [unfold d1, square; apply c_over; [auto 10 with pats..|comp|apply c_times; [auto with pats..|comp|apply c_root; [auto|reflexivity]]]|].
    split; [unfold d2; apply c_minus; [auto 10 with pats..|comp|apply c_times; [auto with pats..|comp|apply c_root; [auto|reflexivity]]]|].
    split; [exact C1|]. split; [exact C2|].
    split; [unfold h; apply c_times; [auto with pats..|apply c_opp; [auto|reflexivity]|comp]|]. split; [now apply HE|].
    comp.
  Qed.

  Variable stepf : formula.
  Hypothesis HStep : forall pu disc a b, pat pu -> pat disc -> pat a -> pat b ->
    pat (step pu disc a b) /\ computed 4 [dat pu; dat disc; dat a; dat b] stepf (dat (step pu disc a b)).
  Lemma put_ok s x t r v : pat s -> pat x -> pat t -> pat r -> pat v ->
    pat (lane_put s x t r v) /\ put_price exponential power BINOMIAL_NUM stepf (dat s) (dat x) (dat t) (dat r) (dat v) (dat (lane_put s x t r v)).
  Proof.
    intros Ps Px Pt Pr Pv.
    assert (Pd : pat (lane_dt t)) by (unfold lane_dt; auto with pats).
    assert (Pu : pat (lane_u t v)) by (unfold lane_u; auto with pats).
    assert (Pc : pat (lane_disc t r)) by (unfold lane_disc; auto with pats).
    assert (Pp : pat (lane_pu t r v)) by (unfold lane_pu; auto 10 with pats).
    assert (PL : forall j, pat (exponent_f32 j) -> pat (lane_leaf s x t v j)) by (intros j J; unfold lane_leaf; auto 10 with pats).
    set (node := fun n k => tree (step (lane_pu t r v) (lane_disc t r)) (lane_leaf s x t v) n k).
    assert (PT : forall n k, pat (node n k)).
    { unfold node. induction n as [|n IH]; intros k; [rewrite tree_0; apply PL; exact (proj1 (of_int_datum 4 fs4 _))|].
      rewrite tree_S. apply HStep; auto. }
    split; [apply PT|].
    exists (dat (lane_dt t)), (dat (fl_mul 4 v (SQ (lane_dt t)))), (dat (lane_u t v)), (dat (fl_div 4 f32_1 (lane_u t v))),
      (dat (fl_mul 4 r (lane_dt t))), (dat (lane_disc t r)), (dat (lane_pu t r v)), (fun n k => dat (node n k)).
    split; [unfold lane_dt; comp|].
    split; [apply c_times; [auto with pats..|comp|apply c_root; [auto|reflexivity]]|].
    split; [apply HE; auto with pats|]. split; [comp|]. split; [comp|]. split; [apply HE; auto with pats|].
    split; [unfold lane_pu; cbv zeta; comp|].
    split; [|split; [|reflexivity]].
    - intros j J. cbv zeta. destruct (exponent_ok j J) as [PE DE].
      exists (dat (PW (lane_u t v) (exponent_f32 j))), (dat (fl_sub 4 x (fl_mul 4 s (PW (lane_u t v) (exponent_f32 j))))).
      split; [rewrite <- DE; now apply HP|]. split; [comp|].
      unfold node. rewrite tree_0. unfold lane_leaf. rewrite <- d_0.
      apply (max_datum 4 fs4); auto 10 with pats.
    - intros n j _. unfold node. rewrite tree_S. apply HStep; auto; apply PT.
  Qed.
End Lane.

(** The two steps. *)
Definition step_div (pu disc a b : Z) : Z := fl_div 4 (fl_add 4 (fl_mul 4 (fl_sub 4 f32_1 pu) a) (fl_mul 4 pu b)) disc.
Definition step_mul (pu disc a b : Z) : Z := fl_mul 4 (fl_add 4 (fl_mul 4 (fl_sub 4 f32_1 pu) a) (fl_mul 4 pu b)) (fl_div 4 f32_1 disc).
Lemma step_div_ok pu disc a b : pat pu -> pat disc -> pat a -> pat b ->
  pat (step_div pu disc a b) /\ computed 4 [dat pu; dat disc; dat a; dat b] divided (dat (step_div pu disc a b)).
Proof. intros. unfold step_div, divided, mean. split; [auto 10 with pats|comp]. Qed.
Lemma step_mul_ok pu disc a b : pat pu -> pat disc -> pat a -> pat b ->
  pat (step_mul pu disc a b) /\ computed 4 [dat pu; dat disc; dat a; dat b] multiplied (dat (step_mul pu disc a b)).
Proof. intros. unfold step_mul, multiplied, mean. split; [auto 10 with pats|comp]. Qed.

(** *** The scalar version *)
Lemma scalar_cnd_lane expf x : scalar_cnd expf x = lane_cnd f32_neg expf x.
Proof. reflexivity. Qed.
Lemma scalar_call_lane expf lnf s x t r v : scalar_call expf lnf s x t r v = lane_call f32_neg (fl_sqrt 4) expf lnf s x t r v.
Proof. reflexivity. Qed.
Lemma scalar_put_lane expf powff s x t r v :
  scalar_put expf powff s x t r v = Ok (lane_put (fl_sqrt 4) expf powff step_div s x t r v).
Proof.
  exact (roll_back_ok (step_div (lane_pu (fl_sqrt 4) expf t r v) (lane_disc expf t r)) (lane_leaf (fl_sqrt 4) expf powff s x t v)).
Qed.
