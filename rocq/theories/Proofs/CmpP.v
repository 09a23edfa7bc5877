(** Comparisons, lexicographic order, select, integer min/max (C14 .. C18). *)
From Coq Require Import ZArith List Bool Lia ZifyBool ZifyNat Arith.
From Verif.Model Require Import Base ScalarMask Llvm Minimal MaskReduce Ops Cmp.
From Verif.Spec Require Import Spec.
From Verif.Proofs Require Import Lib MinimalP OpsP OpsP2 BytesP MaskReduceP.
Import ListNotations.
Open Scope Z_scope.

Lemma ordered_b t : ordered_type t -> (0 < vb t)%nat.
Proof. intros [H|[_ [H _]]]; auto. now apply int_b. Qed.
Lemma ordered_vt t : ordered_type t -> vector_type t.
Proof. intros [H|[_ H]]; auto. now apply int_vt. Qed.

(** A lane of a valid vector. *)
Definition ok_lane (t : vty) (p : Z) : Prop :=
  pattern (vb t) p /\ (vkind t = KMask -> p = mlane (vb t) (truth p)).

Lemma valid_lane t v i p : valid t v -> lane v i p -> ok_lane t p.
Proof.
  intros [Hv Hc] L; split; [eapply is_vector_lane; eauto|].
  intros K. exact (canonical_lane t v i p (Hc K) L).
Qed.

Lemma valid_In t v p : valid t v -> In p v -> ok_lane t p.
Proof. intros Hv Hp. apply In_nth_error in Hp as [i Hi]. eapply valid_lane; eauto. Qed.

Lemma key_ival t p :
  ordered_type t -> ok_lane t p ->
  ival (vkind t) (vb t) p = if is_mask t then - key t p else key t p.
Proof.
  intros Ht [Hp Hm]. unfold key, is_mask, ival.
  destruct Ht as [[[K [Hb _]]|[K [Hb _]]]|[K [Hb _]]]; rewrite K in *; cbn [kind_eqb is_signed].
  - unfold value; now rewrite K.
  - unfold value; now rewrite K.
  - rewrite (Hm eq_refl). rewrite truth_mlane by auto.
    destruct (truth p); cbn [mlane]; [rewrite sval_ones|rewrite sval_zero]; auto.
Qed.

Lemma key_inj t p q :
  ordered_type t -> ok_lane t p -> ok_lane t q -> key t p = key t q -> p = q.
Proof.
  intros Ht Hp Hq E. pose proof (key_ival t p Ht Hp) as Ep. pose proof (key_ival t q Ht Hq) as Eq.
  rewrite E in Ep. rewrite <- Eq in Ep. unfold ival in Ep.
  destruct (is_signed (vkind t)); auto. eapply sval_inj; eauto; [apply Hp|apply Hq].
Qed.

Definition by_key (t : vty) (R : Z -> Z -> bool) (x y : vec) : vec :=
  map2 (fun p q => mlane (vb t) (R (key t p) (key t q))) x y.

Lemma not_float t : ordered_type t -> vkind t <> KFloat.
Proof. intros [[[K _]|[K _]]|[K _]]; congruence. Qed.

Lemma veq_key t x y : ordered_type t -> valid t x -> valid t y -> veq t x y = by_key t Z.eqb x y.
Proof.
  intros Ht Hx Hy; unfold veq, simd_eq, simd_cmp, by_key.
  apply map2_ext; intros a b Ha Hb; f_equal.
  pose proof (key_ival _ a Ht (valid_In _ _ _ Hx Ha)) as Ea;
  pose proof (key_ival _ b Ht (valid_In _ _ _ Hy Hb)) as Eb.
  pose proof (not_float _ Ht) as NF. unfold lane_eq.
  destruct (vkind t); try (exfalso; apply NF; reflexivity); rewrite Ea, Eb; destruct (is_mask t); lia.
Qed.
Lemma vne_key t x y : ordered_type t -> valid t x -> valid t y ->
  vne t x y = by_key t (fun a b => negb (a =? b)) x y.
Proof.
  intros Ht Hx Hy; unfold vne, simd_ne, simd_cmp, by_key.
  apply map2_ext; intros a b Ha Hb; f_equal.
  pose proof (key_ival _ a Ht (valid_In _ _ _ Hx Ha)) as Ea;
  pose proof (key_ival _ b Ht (valid_In _ _ _ Hy Hb)) as Eb.
  pose proof (not_float _ Ht) as NF. unfold lane_ne.
  destruct (vkind t); try (exfalso; apply NF; reflexivity); rewrite Ea, Eb; destruct (is_mask t); lia.
Qed.

Ltac ord_tac H := 
  intros Ht Hx Hy; unfold H;
  destruct (is_mask _) eqn:M; unfold simd_lt, simd_le, simd_gt, simd_ge, simd_cmp, by_key;
  apply map2_ext; intros a b Ha Hb; f_equal;
  pose proof (key_ival _ a Ht (valid_In _ _ _ Hx Ha)) as Ea;
  pose proof (key_ival _ b Ht (valid_In _ _ _ Hy Hb)) as Eb;
  pose proof (not_float _ Ht) as NF; rewrite M in Ea, Eb;
  unfold lane_lt, lane_le, lane_gt, lane_ge;
  destruct (vkind _); try (exfalso; apply NF; reflexivity); rewrite Ea, Eb; lia.

Lemma vlt_key t x y : ordered_type t -> valid t x -> valid t y -> vlt t x y = by_key t Z.ltb x y.
Proof. ord_tac vlt. Qed.
Lemma vle_key t x y : ordered_type t -> valid t x -> valid t y -> vle t x y = by_key t Z.leb x y.
Proof. ord_tac vle. Qed.
Lemma vgt_key t x y : ordered_type t -> valid t x -> valid t y -> vgt t x y = by_key t Z.gtb x y.
Proof. ord_tac vgt. Qed.
Lemma vge_key t x y : ordered_type t -> valid t x -> valid t y -> vge t x y = by_key t Z.geb x y.
Proof. ord_tac vge. Qed.

Lemma by_key_canonical t R x y :
  is_vector t x -> is_vector t y -> canonical (mask_of t) (by_key t R x y).
Proof.
  intros [Hx _] [Hy _]. split; [now apply map2_length_eq|].
  apply Forall_map2. intros a b _ _. destruct (R _ _); [left|right]; reflexivity.
Qed.

Lemma by_key_lane t R x y i a b :
  lane x i a -> lane y i b -> lane (by_key t R x y) i (mask_lane (mask_of t) (R (key t a) (key t b))).
Proof. intros La Lb. exact (nth_error_map2 _ _ _ _ _ _ La Lb). Qed.

(** ** C15 *)
Theorem vertical_comparisons t x y :
  ordered_type t -> valid t x -> valid t y ->
  let ok (m : vec) (R : Z -> Z -> bool) :=
    canonical (mask_of t) m /\
    forall i a b, lane x i a -> lane y i b ->
      lane m i (mask_lane (mask_of t) (R (key t a) (key t b))) in
  ok (veq t x y) Z.eqb /\ ok (vne t x y) (fun a b => negb (a =? b)) /\
  ok (vlt t x y) Z.ltb /\ ok (vle t x y) Z.leb /\
  ok (vgt t x y) Z.gtb /\ ok (vge t x y) Z.geb.
Proof.
  intros Ht Hx Hy ok.
  rewrite veq_key, vne_key, vlt_key, vle_key, vgt_key, vge_key by auto.
  destruct Hx as [Hx _], Hy as [Hy _].
  assert (G : forall R, ok (by_key t R x y) R).
  { intros R; split; [now apply by_key_canonical|intros; now apply by_key_lane]. }
  split; [apply G|split; [apply G|split; [apply G|split; [apply G|split; apply G]]]].
Qed.

(** ** C16 *)
Lemma by_key_all t R x y :
  (0 < vb t)%nat -> all_true (map truth (by_key t R x y)) = forallb (fun c => c) (map2 (fun p q => R (key t p) (key t q)) x y).
Proof.
  intros Hb. unfold all_true, by_key. f_equal. rewrite map_map2. apply map2_ext.
  intros; now apply truth_mlane.
Qed.
Lemma by_key_any t R x y :
  (0 < vb t)%nat -> any_true (map truth (by_key t R x y)) = existsb (fun c => c) (map2 (fun p q => R (key t p) (key t q)) x y).
Proof.
  intros Hb. unfold any_true, by_key. f_equal. rewrite map_map2. apply map2_ext.
  intros; now apply truth_mlane.
Qed.

Lemma keys_equal_iff t x y :
  ordered_type t -> valid t x -> valid t y ->
  (forallb (fun c => c) (map2 (fun p q => key t p =? key t q) x y) = true <-> x = y).
Proof.
  intros Ht Hx Hy. rewrite forallb_forall. split.
  - intros H. apply nth_error_ext.
    { destruct Hx as [[-> _] _], Hy as [[-> _] _]; auto. }
    intros i a b La Lb. apply (key_inj t); eauto using valid_lane.
    apply Z.eqb_eq. apply H. eapply nth_error_In, (nth_error_map2 (fun p q => key t p =? key t q)); eauto.
  - intros <- c Hc. rewrite map2_diag in Hc. apply in_map_iff in Hc as (a & <- & _).
    apply Z.eqb_refl.
Qed.

Lemma op_eq_ok tg t x y :
  ordered_type t -> crate_shape t -> valid t x -> valid t y ->
  op_eq tg t x y = Ok (forallb (fun c => c) (map2 (fun p q => key t p =? key t q) x y)).
Proof.
  intros Ht Hs Hx Hy. unfold op_eq. rewrite veq_key by auto.
  destruct (all_canonical_masks tg (mask_of t) (by_key t Z.eqb x y)) as [-> _]; auto.
  - apply by_key_canonical; [apply Hx|apply Hy].
  - f_equal. apply by_key_all. now apply ordered_b.
Qed.

Lemma op_ne_ok tg t x y :
  ordered_type t -> crate_shape t -> valid t x -> valid t y ->
  op_ne tg t x y = Ok (negb (forallb (fun c => c) (map2 (fun p q => key t p =? key t q) x y))).
Proof.
  intros Ht Hs Hx Hy. unfold op_ne. rewrite vne_key by auto.
  destruct (all_canonical_masks tg (mask_of t) (by_key t (fun a b => negb (a =? b)) x y)) as [_ ->]; auto.
  - apply by_key_canonical; [apply Hx|apply Hy].
  - f_equal. rewrite by_key_any by (now apply ordered_b). rewrite existsb_forallb. f_equal.
    rewrite <- (map_map2 negb (fun p q => key t p =? key t q)). rewrite forallb_map'.
    apply forallb_ext_in. intros; apply Bool.negb_involutive.
Qed.

Theorem equality_operators tg t x y :
  ordered_type t -> crate_shape t -> valid t x -> valid t y ->
  (exists r, op_eq tg t x y = Ok r /\ (r = true <-> x = y)) /\
  (exists r, op_ne tg t x y = Ok r /\ (r = true <-> x <> y)).
Proof.
  intros Ht Hs Hx Hy. rewrite op_eq_ok, op_ne_ok by auto.
  split; eexists; (split; [reflexivity|]).
  - now apply keys_equal_iff.
  - rewrite Bool.negb_true_iff, <- Bool.not_true_iff_false, (keys_equal_iff t x y) by auto. reflexivity.
Qed.

(** ** C17 *)
Fixpoint lexb (t : vty) (R : Z -> Z -> bool) (x y : vec) : bool :=
  match x, y with
  | a :: x', b :: y' => if key t a =? key t b then lexb t R x' y' else R (key t a) (key t b)
  | _, _ => false
  end.

Lemma skipn_nth {A} (l : list A) i a : nth_error l i = Some a -> skipn i l = a :: skipn (S i) l.
Proof.
  revert i; induction l; intros [|i] H; cbn in *; try discriminate; try congruence; auto.
Qed.

Lemma lex_loop_ok t R x y :
  vector_type t -> is_vector t x -> is_vector t y ->
  forall count i, (i + count = vn t)%nat ->
  lex_loop t count i (by_key t R x y) (by_key t Z.eqb x y) = Ok (lexb t R (skipn i x) (skipn i y)).
Proof.
  intros Ht Hx Hy. assert (Hb : (0 < vb t)%nat) by apply Ht.
  assert (Tm : vector_type (mask_of t)) by exact Ht.
  assert (Ex : forall S i a b, lane x i a -> lane y i b ->
     mask_extract (mask_of t) (by_key t S x y) (Z.of_nat i) = Ok (S (key t a) (key t b))).
  { intros S i a b La Lb. erewrite mask_extract_lane; eauto.
    - f_equal. apply (truth_mask_lane (mask_of t)). auto.
    - apply canonical_vector, by_key_canonical; auto.
    - now apply by_key_lane. }
  induction count; intros i Hi; cbn [lex_loop].
  - rewrite !skipn_all2 by (destruct Hx, Hy; lia). reflexivity.
  - destruct (nth_error_ex x i) as [a La]; [destruct Hx; lia|].
    destruct (nth_error_ex y i) as [b Lb]; [destruct Hy; lia|].
    rewrite (Ex _ i a b La Lb), (Ex _ i a b La Lb). cbn [bind].
    rewrite (skipn_nth x i a La), (skipn_nth y i b Lb). cbn [lexb].
    destruct (key t a =? key t b); auto. apply IHcount; lia.
Qed.

Lemma lexb_spec t R x y :
  ordered_type t ->
  (forall p, In p x -> ok_lane t p) -> (forall p, In p y -> ok_lane t p) ->
  length x = length y ->
  (lexb t R x y = true <->
   exists i a b, lane x i a /\ lane y i b /\ key t a <> key t b /\ R (key t a) (key t b) = true /\
     forall j p q, (j < i)%nat -> lane x j p -> lane y j q -> p = q).
Proof.
  intros Ht. revert y; induction x as [|a x IH]; intros [|b y] Hx Hy Hl; cbn [lexb length] in *; try lia.
  - split; [discriminate|]. intros (i & a & b & La & _). destruct i; discriminate La.
  - destruct (Z.eqb_spec (key t a) (key t b)) as [E|E].
    + assert (a = b) by (eapply key_inj; eauto; [apply Hx|apply Hy]; cbn; auto). subst b.
      rewrite IH by (auto with datatypes; lia). split.
      * intros (i & p & q & Lp & Lq & N & HR & F). exists (S i), p, q. repeat split; auto.
        intros [|j] p' q' Hj Lp' Lq'; [unfold lane in Lp', Lq'; cbn in Lp', Lq'; congruence|]. eapply (F j); eauto; lia.
      * intros ([|i] & p & q & Lp & Lq & N & HR & F); [unfold lane in Lp, Lq; cbn in Lp, Lq; congruence|].
        exists i, p, q. repeat split; auto. intros j p' q' Hj. apply (F (S j)); lia.
    + split.
      * intros HR. exists 0%nat, a, b. repeat split; auto. intros; lia.
      * intros ([|i] & p & q & Lp & Lq & N & HR & F).
        -- unfold lane in Lp, Lq; cbn in Lp, Lq. congruence.
        -- destruct E. f_equal. apply (F 0%nat a b); [lia|reflexivity|reflexivity].
Qed.

Lemma lexb_less t x y :
  ordered_type t -> valid t x -> valid t y ->
  (lexb t Z.ltb x y = true <-> lex_less t x y).
Proof.
  intros Ht Hx Hy. rewrite (lexb_spec t Z.ltb x y Ht (fun p => valid_In t x p Hx) (fun p => valid_In t y p Hy)
    (eq_trans (proj1 (proj1 Hx)) (eq_sym (proj1 (proj1 Hy))))).
  unfold lex_less. split.
  - intros (i & a & b & La & Lb & _ & HR & F). exists i, a, b. repeat split; auto. lia.
  - intros (i & a & b & La & Lb & HR & F). exists i, a, b. repeat split; auto; lia.
Qed.

Lemma lexb_greater t x y :
  ordered_type t -> valid t x -> valid t y ->
  (lexb t Z.gtb x y = true <-> lex_less t y x).
Proof.
  intros Ht Hx Hy. rewrite (lexb_spec t Z.gtb x y Ht (fun p => valid_In t x p Hx) (fun p => valid_In t y p Hy)
    (eq_trans (proj1 (proj1 Hx)) (eq_sym (proj1 (proj1 Hy))))).
  unfold lex_less. split.
  - intros (i & a & b & La & Lb & _ & HR & F). exists i, b, a. repeat split; auto; [lia|].
    intros j p q Hj Lp Lq. symmetry. eapply F; eauto.
  - intros (i & a & b & La & Lb & HR & F). exists i, b, a. repeat split; auto; try lia.
    intros j p q Hj Lp Lq. symmetry. eapply F; eauto.
Qed.

Lemma lex_lt_ok t x y :
  ordered_type t -> valid t x -> valid t y -> lex_lt t x y = Ok (lexb t Z.ltb x y).
Proof.
  intros Ht Hx Hy. unfold lex_lt. rewrite vlt_key, veq_key by auto.
  apply (lex_loop_ok t Z.ltb x y (ordered_vt t Ht) (proj1 Hx) (proj1 Hy) (lanes t) 0%nat). reflexivity.
Qed.
Lemma lex_gt_ok t x y :
  ordered_type t -> valid t x -> valid t y -> lex_gt t x y = Ok (lexb t Z.gtb x y).
Proof.
  intros Ht Hx Hy. unfold lex_gt. rewrite vgt_key, veq_key by auto.
  apply (lex_loop_ok t Z.gtb x y (ordered_vt t Ht) (proj1 Hx) (proj1 Hy) (lanes t) 0%nat). reflexivity.
Qed.

Lemma lexb_total t x y :
  length x = length y ->
  lexb t Z.ltb x y = false -> lexb t Z.gtb x y = false ->
  forallb (fun c => c) (map2 (fun p q => key t p =? key t q) x y) = true.
Proof.
  revert y; induction x; intros [|b y] Hl; cbn in *; auto; try lia.
  destruct (Z.eqb_spec (key t a) (key t b)); cbn; [apply IHx; lia|]. lia.
Qed.

Lemma lex_less_irrefl t x : ~ lex_less t x x.
Proof. intros (i & a & b & La & Lb & H & _). unfold lane in *. assert (a = b) by congruence. subst; lia. Qed.

Lemma lex_less_trans t x y z :
  ordered_type t -> valid t x -> valid t y -> valid t z ->
  lex_less t x y -> lex_less t y z -> lex_less t x z.
Proof.
  intros Ht Hx Hy Hz (i & a & b & La & Lb & H & F) (i' & b' & c & Lb' & Lc & H' & F').
  pose proof (lane_index _ _ _ _ (proj1 Hy) Lb) as Li. pose proof (lane_index _ _ _ _ (proj1 Hy) Lb') as Li'.
  assert (G : forall v k, valid t v -> (k < vn t)%nat -> exists p, lane v k p).
  { intros v k [[Hv _] _] Hk. apply nth_error_ex. lia. }
  destruct (Nat.lt_trichotomy i i') as [T|[T|T]].
  - destruct (G z i Hz Li) as [c' Lc'].
    assert (b = c') by (eapply F'; eauto). subst c'.
    exists i, a, b. repeat split; auto. intros j p q Hj Lp Lq.
    destruct (G y j Hy) as [r Lr]; [lia|]. rewrite (F j p r Hj Lp Lr). apply (F' j r q); auto; lia.
  - subst i'. unfold lane in *. assert (b = b') by congruence. subst b'.
    exists i, a, c. repeat split; auto; [lia|]. intros j p q Hj Lp Lq.
    destruct (G y j Hy) as [r Lr]; [lia|]. rewrite (F j p r Hj Lp Lr). apply (F' j r q); auto; lia.
  - destruct (G x i' Hx Li') as [a' La'].
    assert (a' = b') by (eapply F; eauto). subst a'.
    exists i', b', c. repeat split; auto. intros j p q Hj Lp Lq.
    destruct (G y j Hy) as [r Lr]; [lia|]. rewrite (F j p r) by (auto; lia). apply (F' j r q); auto; lia.
Qed.

Lemma lex_less_neq t x y : lex_less t x y -> x <> y.
Proof. intros H ->. eapply lex_less_irrefl; eauto. Qed.

Theorem lexicographic_order tg t x y :
  ordered_type t -> crate_shape t -> valid t x -> valid t y ->
  (exists c, lex_partial_cmp tg t x y = Ok (Some c) /\ lex_cmp tg t x y = Ok c /\
     (c = Eq <-> x = y) /\ (c = Lt <-> lex_less t x y) /\ (c = Gt <-> lex_less t y x)) /\
  (exists r, lex_lt t x y = Ok r /\ (r = true <-> lex_less t x y)) /\
  (exists r, lex_gt t x y = Ok r /\ (r = true <-> lex_less t y x)) /\
  (exists r, lex_le tg t x y = Ok r /\ (r = true <-> lex_less t x y \/ x = y)) /\
  (exists r, lex_ge tg t x y = Ok r /\ (r = true <-> lex_less t y x \/ x = y)).
Proof.
  intros Ht Hs Hx Hy.
  pose proof (lexb_less t x y Ht Hx Hy) as L. pose proof (lexb_greater t x y Ht Hx Hy) as G.
  pose proof (keys_equal_iff t x y Ht Hx Hy) as E.
  pose proof (op_eq_ok tg t x y Ht Hs Hx Hy) as OE.
  pose proof (lex_lt_ok t x y Ht Hx Hy) as OL. pose proof (lex_gt_ok t x y Ht Hx Hy) as OG.
  assert (Tot : lexb t Z.ltb x y = false -> lexb t Z.gtb x y = false ->
    forallb (fun c => c) (map2 (fun p q => key t p =? key t q) x y) = true).
  { apply lexb_total. destruct Hx as [[-> _] _], Hy as [[-> _] _]; auto. }
  pose proof (lex_less_neq t x y) as N1. pose proof (lex_less_neq t y x) as N2.
  assert (N3 : lex_less t x y -> ~ lex_less t y x).
  { intros A B. eapply lex_less_irrefl, (lex_less_trans t x y x); eauto. }
  unfold lex_cmp, lex_partial_cmp, lex_le, lex_ge, lex_eq. rewrite OE, OL, OG. cbn [bind].
  set (e := forallb _ _) in *. set (l := lexb t Z.ltb x y) in *. set (g := lexb t Z.gtb x y) in *.
  split; [|split; [|split; [|split]]].
  - destruct e; [|destruct l; [|destruct g]]; cbn [bind].
    + assert (XY : x = y) by tauto. assert (~ lex_less t x y) by tauto.
      assert (~ lex_less t y x) by (intros A; apply (N2 A); auto).
      exists Eq. split; [auto|split; [auto|split; [tauto|]]].
      split; (split; [discriminate|tauto]).
    + assert (XY : lex_less t x y) by tauto.
      exists Lt. split; [auto|split; [auto|]].
      split; [split; [discriminate|tauto]|split; [tauto|split; [discriminate|tauto]]].
    + assert (XY : lex_less t y x) by tauto. assert (x <> y) by (intros A; apply N2; auto).
      exists Gt. split; [auto|split; [auto|]].
      split; [split; [discriminate|tauto]|split; [split; [discriminate|tauto]|tauto]].
    + specialize (Tot eq_refl eq_refl). discriminate.
  - exists l; tauto.
  - exists g; tauto.
  - exists (l || e); split; auto. rewrite Bool.orb_true_iff. tauto.
  - exists (g || e); split; auto. rewrite Bool.orb_true_iff. tauto.
Qed.

(** ** C18 *)
Lemma select_lanes_spec m x y i c a b :
  lane m i c -> lane x i a -> lane y i b -> lane (select_lanes m x y) i (if truth c then a else b).
Proof.
  unfold lane, truth. revert i x y; induction m; intros [|i] [|p x] [|q y]; cbn; intros; try discriminate.
  - destruct (Z.eqb_spec a0 0); cbn; injection H as <-.
    + subst. cbn. auto.
    + destruct (Z.eqb_spec a0 0); [tauto|]. cbn. auto.
  - auto.
Qed.

Lemma select_lanes_length m x y n :
  length m = n -> length x = n -> length y = n -> length (select_lanes m x y) = n.
Proof.
  revert x y n; induction m; intros [|p x] [|q y] n; cbn; intros; try lia.
  destruct n; [lia|]. f_equal. apply IHm; lia.
Qed.

Lemma canonical_mask_ok t m : canonical t m -> forallb (mask_lane_ok (vb t)) m = true.
Proof.
  intros H. rewrite (canonical_map_truth t m H). apply forallb_ok_mlanes.
Qed.

Theorem select_picks tm t m x y :
  mask_type tm -> vector_type t -> vn tm = vn t -> canonical tm m -> is_vector t x -> is_vector t y ->
  exists r, select tm m x y = Ok r /\ is_vector t r /\
    forall i c a b, lane m i (mask_lane tm c) -> lane x i a -> lane y i b ->
      lane r i (if c then a else b).
Proof.
  intros Hm Ht Hn Hc Hx Hy. unfold select, simd_select. rewrite canonical_mask_ok by auto.
  eexists; split; [reflexivity|].
  assert (Hb : (0 < vb tm)%nat) by apply Hm.
  split.
  - split; [apply select_lanes_length; [rewrite <- Hn; apply Hc|apply Hx|apply Hy]|].
    apply Forall_of_nth_error. intros i p Hp.
    assert (Hi : (i < vn t)%nat).
    { apply nth_error_lt in Hp. rewrite (select_lanes_length m x y (vn t)) in Hp; auto;
      [rewrite <- Hn; apply Hc|apply Hx|apply Hy]. }
    destruct (nth_error_ex m i) as [c Lc]; [destruct Hc; lia|].
    destruct (nth_error_ex x i) as [a La]; [destruct Hx; lia|].
    destruct (nth_error_ex y i) as [b Lb]; [destruct Hy; lia|].
    pose proof (select_lanes_spec m x y i c a b Lc La Lb) as S. unfold lane in S.
    rewrite Hp in S. injection S as ->.
    destruct (truth c); [exact (is_vector_lane _ _ _ _ Hx La)|exact (is_vector_lane _ _ _ _ Hy Lb)].
  - intros i c a b Lc La Lb. pose proof (select_lanes_spec m x y i _ a b Lc La Lb) as S.
    now rewrite truth_mask_lane in S.
Qed.

(** ** C14 *)
Theorem integer_min_max t x y :
  integer_type t -> is_vector t x -> is_vector t y ->
  (exists r, vmin t x y = Ok r /\
     lanewise2 t x y r (fun a b c => value t c = Z.min (value t a) (value t b))) /\
  (exists r, vmax t x y = Ok r /\
     lanewise2 t x y r (fun a b c => value t c = Z.max (value t a) (value t b))).
Proof.
  intros Ht Hx Hy. assert (Ho : ordered_type t) by (left; auto).
  assert (NK : vkind t <> KMask) by (destruct Ht as [[-> _]|[-> _]]; congruence).
  assert (Vx : valid t x) by (split; tauto). assert (Vy : valid t y) by (split; tauto).
  assert (K : forall p, key t p = value t p) by (intros; unfold key; destruct Ht as [[-> _]|[-> _]]; auto).
  assert (Tm : mask_type (mask_of t)) by (split; [reflexivity|exact (int_vt t Ht)]).
  unfold vmin, vmax. rewrite vlt_key, vgt_key by auto.
  split.
  - destruct (select_picks (mask_of t) t (by_key t Z.ltb x y) x y Tm (int_vt t Ht) eq_refl) as (r & E & V & L); auto.
    { now apply by_key_canonical. }
    exists r; split; auto. split; auto. intros i a b La Lb.
    specialize (L i _ a b (by_key_lane t Z.ltb x y i a b La Lb) La Lb).
    eexists; split; [exact L|]. rewrite !K. destruct (Z.ltb_spec (value t a) (value t b)); lia.
  - destruct (select_picks (mask_of t) t (by_key t Z.gtb x y) x y Tm (int_vt t Ht) eq_refl) as (r & E & V & L); auto.
    { now apply by_key_canonical. }
    exists r; split; auto. split; auto. intros i a b La Lb.
    specialize (L i _ a b (by_key_lane t Z.gtb x y i a b La Lb) La Lb).
    eexists; split; [exact L|]. rewrite !K, Z.gtb_ltb. destruct (Z.ltb_spec (value t b) (value t a)); lia.
Qed.

(** ** Mask elements *)
Theorem mask_elements b (c d : bool) :
  (0 < b)%nat ->
  let e := smask_new b in
  smask_test b (e c) = c /\
  smask_eq b (e c) (e d) = Bool.eqb c d /\ smask_ne b (e c) (e d) = negb (Bool.eqb c d) /\
  smask_lt b (e c) (e d) = (negb c && d) /\ smask_le b (e c) (e d) = (negb c || d) /\
  smask_gt b (e c) (e d) = (c && negb d) /\ smask_ge b (e c) (e d) = (c || negb d) /\
  smask_cmp b (e c) (e d) = Ok (match c, d with false, true => Lt | true, false => Gt | _, _ => Eq end) /\
  smask_default b = e false.
Proof.
  intros Hb e. assert (E : forall c, e c = mlane b c).
  { intros []; unfold e, smask_new; cbn; auto. apply ones_wrap. }
  rewrite !E. unfold smask_test, smask_cmp, smask_partial_cmp, smask_eq, smask_ne, smask_lt, smask_gt, smask_le, smask_ge.
  rewrite mlane_eqb0 by auto.
  assert (S : forall c, sval b (mlane b c) = if c then -1 else 0).
  { intros []; cbn [mlane]; [now apply sval_ones|now apply sval_zero]. }
  rewrite !S. destruct c, d; repeat split.
Qed.
