(** Gather and scatter. *)
From Coq Require Import ZArith List Bool Lia.
From Verif.Model Require Import Base Llvm Bytes Minimal Ptr.
From Verif.Spec Require Import Spec Memory.
From Verif.Proofs Require Import Lib MinimalP BytesP MaskReduceP CmpP SliceP.
Import ListNotations.
Open Scope Z_scope.

Lemma aligned_iff p al : 0 < al -> (aligned p al = true <-> (al | p)).
Proof.
  intros H. unfold aligned. rewrite Z.eqb_eq. split; intros E.
  - apply Z.mod_divide; lia.
  - apply Z.mod_divide in E; lia.
Qed.

Lemma load_lane_holds be b m p q : pattern b q -> holds be b m p q -> load_lane be b m p = Ok q.
Proof.
  intros Q H. unfold load_lane.
  assert (L : load_bytes m p b = Ok (lane_bytes be b q)).
  { rewrite <- (lane_bytes_length be b q) at 1. apply load_bytes_ok. intros k x K.
    assert (I : (k < b)%nat) by (apply nth_error_lt in K; now rewrite lane_bytes_length in K).
    rewrite nth_error_lane_bytes in K by auto. injection K as <-. now apply H. }
  rewrite L. cbn [bind]. f_equal. now apply lane_value_bytes.
Qed.

Lemma load_lane_ok be b m p :
  (forall a, p <= a < p + Z.of_nat b -> m a <> None) -> exists q, load_lane be b m p = Ok q.
Proof.
  intros H. destruct (load_bytes_access m p b H) as (l & E & _). unfold load_lane. rewrite E. cbn [bind]. eauto.
Qed.

Lemma load_bytes_no m : forall n p, (exists a, p <= a < p + Z.of_nat n /\ m a = None) -> load_bytes m p n = UB.
Proof.
  induction n; intros p (a & R & N); [lia|]. cbn [load_bytes].
  destruct (m p) eqn:E; auto. rewrite IHn; auto. exists a. split; auto.
  assert (a <> p) by congruence. lia.
Qed.

Lemma load_lane_no be b m p : (exists a, p <= a < p + Z.of_nat b /\ m a = None) -> load_lane be b m p = UB.
Proof. intros H. unfold load_lane. now rewrite load_bytes_no. Qed.

Lemma load_bytes_cases m n p : load_bytes m p n = UB \/ exists l, load_bytes m p n = Ok l.
Proof.
  revert p; induction n; intros p; cbn [load_bytes]; eauto.
  destruct (m p); auto. destruct (IHn (p + 1)) as [-> | [l ->]]; cbn [bind]; eauto.
Qed.

Lemma load_lane_cases be b m p : load_lane be b m p = UB \/ exists q, load_lane be b m p = Ok q.
Proof. unfold load_lane. destruct (load_bytes_cases m b p) as [-> | [l ->]]; cbn [bind]; eauto. Qed.

Lemma gather_ok be b al m : forall ptrs mask value,
  length mask = length ptrs -> length value = length ptrs ->
  (forall i p c, nth_error ptrs i = Some p -> nth_error mask i = Some c -> c <> 0 ->
     aligned p al = true /\ forall a, p <= a < p + Z.of_nat b -> m a <> None) ->
  exists r, gather_lanes be b al m ptrs mask value = Ok r /\ length r = length ptrs /\
    forall i p c v, nth_error ptrs i = Some p -> nth_error mask i = Some c -> nth_error value i = Some v ->
      exists q, nth_error r i = Some q /\
        (c = 0 -> q = v) /\ (c <> 0 -> load_lane be b m p = Ok q).
Proof.
  induction ptrs as [|p ptrs IH]; intros [|c mask] [|v value] L1 L2 H; try discriminate.
  - exists []. split; [reflexivity|]. split; [reflexivity|]. intros [|i]; discriminate.
  - destruct (IH mask value) as (r & E & L & N); [now injection L1|now injection L2| |].
    { intros i q d Q D. exact (H (S i) q d Q D). }
    cbn [gather_lanes]. rewrite E. destruct (Z.eqb_spec c 0) as [C|C].
    + cbn [bind]. eexists. split; [reflexivity|]. split; [cbn [length]; lia|].
      intros [|i] p' c' v' P' C' V'; cbn [nth_error] in *; [|eapply N; eauto].
      injection P' as <-. injection C' as <-. injection V' as <-.
      exists v. split; [reflexivity|]. split; [reflexivity|intros; contradiction].
    + destruct (H 0%nat p c eq_refl eq_refl C) as [A M]. rewrite A.
      destruct (load_lane_ok be b m p M) as [q Q]. rewrite Q. cbn [bind].
      eexists. split; [reflexivity|]. split; [cbn [length]; lia|].
      intros [|i] p' c' v' P' C' V'; cbn [nth_error] in *; [|eapply N; eauto].
      injection P' as <-. injection C' as <-. injection V' as <-.
      exists q. split; [reflexivity|]. split; [intros; contradiction|auto].
Qed.

Lemma gather_cases be b al m : forall ptrs mask value,
  gather_lanes be b al m ptrs mask value = UB \/ exists r, gather_lanes be b al m ptrs mask value = Ok r.
Proof.
  induction ptrs as [|p ptrs IH]; intros [|c mask] [|v value]; cbn [gather_lanes]; eauto.
  destruct (IH mask value) as [E | [r E]]; rewrite E;
    destruct (c =? 0); cbn [bind]; eauto; destruct (aligned p al); cbn [bind]; eauto;
    destruct (load_lane_cases be b m p) as [-> | [q ->]]; cbn [bind]; eauto.
Qed.

Lemma gather_ub be b al m : forall ptrs mask value i p c,
  length mask = length ptrs -> length value = length ptrs ->
  nth_error ptrs i = Some p -> nth_error mask i = Some c -> c <> 0 ->
  (aligned p al = false \/ exists a, p <= a < p + Z.of_nat b /\ m a = None) ->
  gather_lanes be b al m ptrs mask value = UB.
Proof.
  induction ptrs as [|p ptrs IH]; intros [|c mask] [|v value] [|i] p' c' L1 L2 P C NZ B;
    try discriminate; cbn [nth_error] in *; cbn [gather_lanes].
  - injection P as <-. injection C as <-. destruct (Z.eqb_spec c 0); [contradiction|].
    destruct B as [-> | B]; [reflexivity|]. destruct (aligned p al); auto.
    now rewrite load_lane_no.
  - rewrite (IH mask value i p' c'); auto.
    destruct (c =? 0); cbn [bind]; auto. destruct (aligned p al); cbn [bind]; auto.
    destruct (load_lane_cases be b m p) as [-> | [q ->]]; reflexivity.
Qed.

Lemma gather_agree be b al m m' : forall ptrs mask value,
  length mask = length ptrs -> length value = length ptrs ->
  (forall i p c, nth_error ptrs i = Some p -> nth_error mask i = Some c -> c <> 0 ->
     forall a, p <= a < p + Z.of_nat b -> m a = m' a) ->
  gather_lanes be b al m ptrs mask value = gather_lanes be b al m' ptrs mask value.
Proof.
  induction ptrs as [|p ptrs IH]; intros [|c mask] [|v value] L1 L2 H; try discriminate; auto.
  cbn [gather_lanes]. rewrite (IH mask value); [|now injection L1|now injection L2|].
  2:{ intros i q d Q D. exact (H (S i) q d Q D). }
  destruct (Z.eqb_spec c 0) as [|NZ]; auto. destruct (aligned p al); auto.
  unfold load_lane. rewrite (load_bytes_agree m m' p b); auto.
  exact (H 0%nat p c eq_refl eq_refl NZ).
Qed.

Lemma enabled_lane mask i c : lane mask i c -> c <> 0 -> enabled mask i.
Proof. intros L N. exists c. split; auto. unfold truth. now apply Z.eqb_neq in N; rewrite N. Qed.
Lemma disabled_lane mask i c : lane mask i c -> c = 0 -> disabled mask i.
Proof. intros L ->. exists 0. auto. Qed.
Lemma truth_nonzero c : truth c = true -> c <> 0.
Proof. intros T ->. discriminate. Qed.
Lemma enabled_dec mask i : (i < length mask)%nat -> enabled mask i \/ disabled mask i.
Proof.
  intros I. destruct (nth_error_ex mask i I) as [c C].
  destruct (truth c) eqn:T; [left|right]; exists c; auto.
Qed.

Lemma not_valid_witness b al m ptrs mask :
  0 < al -> length mask = length ptrs ->
  ~ (forall i p, enabled mask i -> lane ptrs i p -> valid_at b al m p) ->
  exists i p c, nth_error ptrs i = Some p /\ nth_error mask i = Some c /\ c <> 0 /\
    (aligned p al = false \/ exists a, p <= a < p + Z.of_nat b /\ m a = None).
Proof.
  intros A LM H.
  assert (AD : forall n p, (forall a, p <= a < p + Z.of_nat n -> m a <> None) \/
                 exists a, p <= a < p + Z.of_nat n /\ m a = None).
  { clear. induction n; intros p; [left; intros; lia|].
    destruct (m p) eqn:E; [|right; exists p; split; auto; lia].
    destruct (IHn (p + 1)) as [H | (a & R & Na)]; [left|right; exists a; split; auto; lia].
    intros a R. destruct (Z.eq_dec a p) as [->|]; [congruence|]. apply H. lia. }
  assert (D : forall n, (forall i p c, (i < n)%nat -> nth_error ptrs i = Some p -> nth_error mask i = Some c -> c <> 0 ->
                valid_at b al m p) \/
             exists i p c, nth_error ptrs i = Some p /\ nth_error mask i = Some c /\ c <> 0 /\
               (aligned p al = false \/ exists a, p <= a < p + Z.of_nat b /\ m a = None)).
  { induction n as [|n IHn]; [left; intros; lia|]. destruct IHn as [IHn | IHn]; [|now right].
    destruct (nth_error ptrs n) as [p|] eqn:P.
    2:{ left. intros i p c I Pi. destruct (Nat.eq_dec i n) as [->|]; [congruence|]. apply IHn; auto; lia. }
    destruct (nth_error mask n) as [c|] eqn:Cc.
    2:{ left. intros i p' c I Pi Ci. destruct (Nat.eq_dec i n) as [->|]; [congruence|]. eapply IHn; eauto; lia. }
    destruct (Z.eq_dec c 0) as [Z0|NZ].
    { left. intros i p' c' I Pi Ci NZ. destruct (Nat.eq_dec i n) as [->|]; [congruence|]. eapply IHn; eauto; lia. }
    destruct (aligned p al) eqn:AL; [|right; exists n, p, c; auto].
    destruct (AD b p) as [V|V]; [|right; exists n, p, c; auto].
    left. intros i p' c' I Pi Ci NZ'. destruct (Nat.eq_dec i n) as [->|]; [|eapply IHn; eauto; lia].
    assert (p' = p) by congruence. subst p'. split; [now apply aligned_iff|exact V]. }
  destruct (D (length ptrs)) as [V|X]; [|exact X]. exfalso. apply H.
  intros i p (c & Lc & Tc) P. eapply V; eauto using truth_nonzero. exact (nth_error_lt _ _ _ P).
Qed.

Theorem gather_spec tg t tm al m ptrs mask value :
  vector_type t -> 0 < al -> mask_type tm -> vn tm = vn t -> canonical tm mask ->
  is_vector (ptr_ty tg (vn t)) ptrs -> is_vector t value ->
  (forall a x, m a = Some x -> 0 <= x < 256) ->
  ((forall i p, enabled mask i -> lane ptrs i p -> valid_at (vb t) al m p) ->
     exists r, ptr_read tg t tm al m ptrs mask value = Ok r /\ is_vector t r /\
       (forall i p q, enabled mask i -> lane ptrs i p -> 0 <= q < 2 ^ width t ->
          holds (t_big_endian tg) (vb t) m p q -> lane r i q) /\
       (forall i v, disabled mask i -> lane value i v -> lane r i v)) /\
  (~ (forall i p, enabled mask i -> lane ptrs i p -> valid_at (vb t) al m p) ->
     ptr_read tg t tm al m ptrs mask value = UB).
Proof.
  intros T A TM N C [LP _] [LV FV] MB. cbn [vn ptr_ty] in LP.
  assert (LM : length mask = vn t) by (destruct C; congruence).
  unfold ptr_read, simd_gather. rewrite (canonical_mask_ok tm mask C). split.
  - intros H.
    destruct (gather_ok (t_big_endian tg) (vb t) al m ptrs mask value) as (r & E & L & G); try congruence.
    { intros i p c P Cc NZ. destruct (H i p (enabled_lane mask i c Cc NZ) P) as [D V].
      split; [now apply aligned_iff|exact V]. }
    exists r. split; [exact E|].
    assert (LR : length r = vn t) by congruence.
    assert (G1 : forall i p q, enabled mask i -> lane ptrs i p -> 0 <= q < 2 ^ width t ->
          holds (t_big_endian tg) (vb t) m p q -> lane r i q).
    { intros i p q (c & Lc & Tc) P Q Hq. unfold lane in *.
      destruct (nth_error_ex value i) as [v V]; [apply nth_error_lt in P; congruence|].
      destruct (G i p c v P Lc V) as (q' & Q' & _ & G2).
      rewrite (load_lane_holds _ _ m p q) in G2; auto. specialize (G2 (truth_nonzero c Tc)).
      injection G2 as ->. exact Q'. }
    assert (G0 : forall i v, disabled mask i -> lane value i v -> lane r i v).
    { intros i v (c & Lc & Tc) V. unfold lane in *.
      destruct (nth_error_ex ptrs i) as [p P]; [apply nth_error_lt in V; congruence|].
      destruct (G i p c v P Lc V) as (q' & Q' & G1' & _).
      rewrite G1' in Q'; auto. unfold truth in Tc. destruct (Z.eqb_spec c 0); [auto|discriminate]. }
    split; [|split; [exact G1|exact G0]].
    split; [exact LR|]. apply Forall_of_nth_error. intros i x X.
    assert (I : (i < vn t)%nat) by (apply nth_error_lt in X; congruence).
    destruct (nth_error_ex ptrs i) as [p P]; [congruence|].
    destruct (nth_error_ex value i) as [v V]; [congruence|].
    destruct (nth_error_ex mask i) as [c Cc]; [congruence|].
    destruct (G i p c v P Cc V) as (q & Q & Q0 & Q1). rewrite X in Q. injection Q as <-.
    destruct (Z.eq_dec c 0) as [Z0|NZ].
    + rewrite (Q0 Z0). exact (Forall_nth_error _ _ _ _ FV V).
    + specialize (Q1 NZ). unfold load_lane in Q1. apply bind_ok in Q1 as (l & EL & EQ).
      injection EQ as <-.
      assert (FL : forall n p l, load_bytes m p n = Ok l -> Forall byte l /\ length l = n).
      { clear - MB. induction n; intros p l; cbn [load_bytes].
        - intros [= <-]. split; [constructor|reflexivity].
        - destruct (m p) as [x|] eqn:Ex; [|discriminate]. intros H.
          apply bind_ok in H as (l' & E & H). injection H as <-.
          destruct (IHn _ _ E) as [F L]. split; [constructor; auto; exact (MB p x Ex)|cbn; lia]. }
      destruct (FL _ _ _ EL) as [FB EB]. rewrite width_bits. rewrite <- EB. exact (lane_value_pattern _ _ FB).
  - intros H. destruct (not_valid_witness (vb t) al m ptrs mask A) as (i & p & c & P & Cc & NZ & B); auto; [congruence|].
    apply (gather_ub _ _ _ _ ptrs mask value i p c); auto; congruence.
Qed.

Theorem gather_local tg t tm al m m' ptrs mask value :
  vn tm = vn t -> canonical tm mask -> is_vector (ptr_ty tg (vn t)) ptrs -> is_vector t value ->
  (forall i p a, enabled mask i -> lane ptrs i p -> covers (vb t) p a -> m a = m' a) ->
  ptr_read tg t tm al m ptrs mask value = ptr_read tg t tm al m' ptrs mask value.
Proof.
  intros N C [LP _] [LV _] H. cbn [vn ptr_ty] in LP. unfold ptr_read, simd_gather.
  rewrite (canonical_mask_ok tm mask C). destruct C as [LM _].
  apply gather_agree; try congruence.
  intros i p c P Cc NZ a R. exact (H i p a (enabled_lane mask i c Cc NZ) P R).
Qed.

(** ** Scatter *)

Lemma store_lane_ok be b m p v :
  (forall a, p <= a < p + Z.of_nat b -> m a <> None) ->
  exists m', store_lane be b m p v = Ok m' /\
    (forall a, covers b p a -> m' a = Some (byte_of be b v (Z.to_nat (a - p)))) /\
    (forall a, ~ covers b p a -> m' a = m a).
Proof.
  intros H. unfold store_lane.
  destruct (store_bytes_ok (lane_bytes be b v) m p) as (m' & E & I & O).
  { now rewrite lane_bytes_length. }
  rewrite lane_bytes_length in O. exists m'. split; [exact E|]. split; [|exact O].
  intros a [A1 A2]. replace a with (p + Z.of_nat (Z.to_nat (a - p))) at 1 by lia.
  apply I. apply nth_error_lane_bytes. lia.
Qed.

Lemma store_bytes_no l : forall m p,
  (exists a, p <= a < p + Z.of_nat (length l) /\ m a = None) -> store_bytes m p l = UB.
Proof.
  induction l as [|x l IH]; intros m p (a & R & N); cbn [length store_bytes] in *; [lia|].
  destruct (m p) eqn:E; auto. apply IH. exists a. assert (a <> p) by congruence.
  split; [lia|]. unfold set_byte. destruct (Z.eqb_spec a p); congruence.
Qed.

Lemma store_lane_no be b m p v : (exists a, p <= a < p + Z.of_nat b /\ m a = None) -> store_lane be b m p v = UB.
Proof. intros H. apply store_bytes_no. now rewrite lane_bytes_length. Qed.

Lemma store_bytes_cases l : forall m p,
  store_bytes m p l = UB \/
  exists m', store_bytes m p l = Ok m' /\ forall a, m' a = None <-> m a = None.
Proof.
  induction l as [|x l IH]; intros m p; cbn [store_bytes]; [right; exists m; tauto|].
  destruct (m p) eqn:E; auto. destruct (IH (set_byte m p x) (p + 1)) as [-> | (m' & -> & D)]; auto.
  right. exists m'. split; auto. intros a. rewrite D. unfold set_byte.
  destruct (Z.eqb_spec a p) as [->|]; [|tauto]. split; [discriminate|congruence].
Qed.

Definition ok_lane (b : nat) (al : Z) (m : mem) (ptrs mask : vec) : Prop :=
  forall i p c, nth_error ptrs i = Some p -> nth_error mask i = Some c -> c <> 0 ->
     aligned p al = true /\ forall a, p <= a < p + Z.of_nat b -> m a <> None.

Lemma scatter_ok be b al : forall ptrs mask value m,
  length mask = length ptrs -> length value = length ptrs -> ok_lane b al m ptrs mask ->
  exists m', scatter_lanes be b al m ptrs mask value = Ok m' /\
    (forall a, (forall i p c, nth_error ptrs i = Some p -> nth_error mask i = Some c -> c <> 0 -> ~ covers b p a) ->
       m' a = m a) /\
    (forall i p c v a, nth_error ptrs i = Some p -> nth_error mask i = Some c -> c <> 0 ->
       nth_error value i = Some v -> covers b p a ->
       (forall j q d, (i < j)%nat -> nth_error ptrs j = Some q -> nth_error mask j = Some d -> d <> 0 ->
          ~ covers b q a) ->
       m' a = Some (byte_of be b v (Z.to_nat (a - p)))).
Proof.
  induction ptrs as [|p ptrs IH]; intros [|c mask] [|v value] m L1 L2 H; try discriminate.
  - exists m. split; [reflexivity|]. split; auto. intros [|i]; discriminate.
  - cbn [scatter_lanes].
    assert (S : exists m1, (if c =? 0 then Ok m else if aligned p al then store_lane be b m p v else UB) = Ok m1 /\
      (c = 0 -> m1 = m) /\
      (c <> 0 -> (forall a, covers b p a -> m1 a = Some (byte_of be b v (Z.to_nat (a - p)))) /\
                 (forall a, ~ covers b p a -> m1 a = m a)) /\
      (forall a, m a <> None -> m1 a <> None)).
    { destruct (Z.eqb_spec c 0) as [C|C].
      - exists m. split; [reflexivity|]. split; [auto|]. split; [intros; contradiction|auto].
      - destruct (H 0%nat p c eq_refl eq_refl C) as [A M]. rewrite A.
        destruct (store_lane_ok be b m p v M) as (m1 & E & I & O).
        exists m1. split; [exact E|]. split; [intros; contradiction|]. split; [auto|].
        intros a Ha. assert (D : covers b p a \/ ~ covers b p a) by (unfold covers; lia).
        destruct D as [D|D]; [rewrite (I a D); discriminate|now rewrite (O a D)]. }
    destruct S as (m1 & E1 & S0 & S1 & SD). match goal with |- context [bind ?x _] => change x with (if c =? 0 then Ok m else if aligned p al then store_lane be b m p v else UB) end. rewrite E1. cbn [bind].
    destruct (IH mask value m1) as (m' & E & O & I); [now injection L1|now injection L2| |].
    { intros i q d Q D NZ. destruct (H (S i) q d Q D NZ) as [A M]. split; [exact A|]. intros a R. now apply SD, M. }
    exists m'. split; [exact E|]. split.
    + intros a Ha. rewrite O.
      * destruct (Z.eq_dec c 0) as [Z0|NZ]; [now rewrite S0|].
        apply (proj2 (S1 NZ)). exact (Ha 0%nat p c eq_refl eq_refl NZ).
      * intros i q d Q D NZ. exact (Ha (S i) q d Q D NZ).
    + intros [|i] q d w a Q D NZ W CV Later; cbn [nth_error] in *.
      * injection Q as <-. injection D as <-. injection W as <-.
        rewrite O; [now apply (proj1 (S1 NZ))|].
        intros j q d Q D NZ'. apply (Later (S j) q d); auto. lia.
      * apply (I i q d w a Q D NZ W CV).
        intros j q' d' J Q' D' NZ'. apply (Later (S j) q' d'); auto. lia.
Qed.

Lemma scatter_ub be b al : forall ptrs mask value m i p c,
  length mask = length ptrs -> length value = length ptrs ->
  nth_error ptrs i = Some p -> nth_error mask i = Some c -> c <> 0 ->
  (aligned p al = false \/ exists a, p <= a < p + Z.of_nat b /\ m a = None) ->
  scatter_lanes be b al m ptrs mask value = UB.
Proof.
  induction ptrs as [|p ptrs IH]; intros [|c mask] [|v value] m [|i] p' c' L1 L2 P C NZ B;
    try discriminate; cbn [nth_error] in *; cbn [scatter_lanes].
  - injection P as <-. injection C as <-. destruct (Z.eqb_spec c 0); [contradiction|].
    destruct B as [-> | B]; [reflexivity|]. destruct (aligned p al); auto.
    now rewrite store_lane_no.
  - assert (S : (if c =? 0 then Ok m else if aligned p al then store_lane be b m p v else UB) = UB \/
      exists m1, (if c =? 0 then Ok m else if aligned p al then store_lane be b m p v else UB) = Ok m1 /\
      forall a, m1 a = None <-> m a = None).
    { destruct (c =? 0); [right; exists m; tauto|]. destruct (aligned p al); auto. apply store_bytes_cases. }
    match goal with |- context [bind ?x _] => change x with (if c =? 0 then Ok m else if aligned p al then store_lane be b m p v else UB) end.
    destruct S as [E1 | (m1 & E1 & D)]; rewrite E1; [reflexivity|]. cbn [bind].
    apply (IH mask value m1 i p' c'); auto.
    destruct B as [B | (a & R & Na)]; [now left|right]. exists a. split; auto. now apply D.
Qed.

Theorem scatter_spec tg t tm al m ptrs mask value :
  vector_type t -> 0 < al -> mask_type tm -> vn tm = vn t -> canonical tm mask ->
  is_vector (ptr_ty tg (vn t)) ptrs -> is_vector t value ->
  ((forall i p, enabled mask i -> lane ptrs i p -> valid_at (vb t) al m p) ->
     exists m', ptr_write tg t tm al m ptrs mask value = Ok m' /\
       (forall a, (forall i p, enabled mask i -> lane ptrs i p -> ~ covers (vb t) p a) -> m' a = m a) /\
       (forall i p v a, enabled mask i -> lane ptrs i p -> lane value i v -> covers (vb t) p a ->
          (forall j q, (i < j)%nat -> enabled mask j -> lane ptrs j q -> ~ covers (vb t) q a) ->
          m' a = Some (byte_of (t_big_endian tg) (vb t) v (Z.to_nat (a - p))))) /\
  (~ (forall i p, enabled mask i -> lane ptrs i p -> valid_at (vb t) al m p) ->
     ptr_write tg t tm al m ptrs mask value = UB).
Proof.
  intros T A TM N C [LP _] [LV FV]. cbn [vn ptr_ty] in LP.
  assert (LM : length mask = vn t) by (destruct C; congruence).
  unfold ptr_write, simd_scatter. rewrite (canonical_mask_ok tm mask C). split.
  - intros H.
    destruct (scatter_ok (t_big_endian tg) (vb t) al ptrs mask value m) as (m' & E & O & I); try congruence.
    { intros i p c P Cc NZ. destruct (H i p (enabled_lane mask i c Cc NZ) P) as [D V].
      split; [now apply aligned_iff|exact V]. }
    exists m'. split; [exact E|]. split.
    + intros a Ha. apply O. intros i p c P Cc NZ. exact (Ha i p (enabled_lane mask i c Cc NZ) P).
    + intros i p v a (c & Lc & Tc) P V CV Later.
      apply (I i p c v a P Lc (truth_nonzero c Tc) V CV).
      intros j q d J Q D NZ. exact (Later j q J (enabled_lane mask j d D NZ) Q).
  - intros H. destruct (not_valid_witness (vb t) al m ptrs mask A) as (i & p & c & P & Cc & NZ & B); auto; [congruence|].
    apply (scatter_ub _ _ _ ptrs mask value m i p c); auto; congruence.
Qed.

Lemma last_cover b ptrs mask a :
  length mask = length ptrs ->
  (forall i p, enabled mask i -> lane ptrs i p -> ~ covers b p a) \/
  exists i p, enabled mask i /\ lane ptrs i p /\ covers b p a /\
    forall j q, (i < j)%nat -> enabled mask j -> lane ptrs j q -> ~ covers b q a.
Proof.
  intros LM.
    assert (X : forall n, (n <= length ptrs)%nat ->
      (forall i p, (i >= length ptrs - n)%nat -> enabled mask i -> lane ptrs i p -> ~ covers b p a) \/
      exists i p, enabled mask i /\ lane ptrs i p /\ covers b p a /\
        forall j q, (i < j)%nat -> enabled mask j -> lane ptrs j q -> ~ covers b q a).
    { induction n as [|n IHn]; intros Ln.
      - left. intros i p Hi _ P. apply nth_error_lt in P. lia.
      - destruct IHn as [IHn|IHn]; [lia| |now right].
        set (k := (length ptrs - S n)%nat).
        destruct (nth_error_ex ptrs k) as [p P]; [lia|].
        destruct (enabled_dec mask k) as [En|Di]; [lia| |].
        + assert (D : covers b p a \/ ~ covers b p a) by (unfold covers; lia).
          destruct D as [D|D].
          * right. exists k, p. split; [exact En|]. split; [exact P|]. split; [exact D|].
            intros j q J. apply IHn. lia.
          * left. intros i q Hi Ei Q. destruct (Nat.eq_dec i k) as [->|].
            -- unfold lane in Q. rewrite P in Q. now injection Q as <-.
            -- apply (IHn i q); auto. lia.
        + left. intros i q Hi Ei Q. destruct (Nat.eq_dec i k) as [->|].
          * destruct Ei as (c1 & L1 & T1), Di as (c2 & L2 & T2). unfold lane in *. congruence.
          * apply (IHn i q); auto. lia. }
    destruct (X (length ptrs) (le_n _)) as [Y|Y]; [left|now right].
    intros i p. apply Y. lia.
Qed.

(** What was scattered can be gathered. *)
Theorem gather_scatter tg t tm al m m' ptrs mask value other :
  vector_type t -> 0 < al -> mask_type tm -> vn tm = vn t -> canonical tm mask ->
  is_vector (ptr_ty tg (vn t)) ptrs -> is_vector t value -> is_vector t other ->
  (forall a x, m a = Some x -> 0 <= x < 256) ->
  (forall i j p q, enabled mask i -> enabled mask j -> lane ptrs i p -> lane ptrs j q ->
     p = q \/ p + Z.of_nat (vb t) <= q \/ q + Z.of_nat (vb t) <= p) ->
  ptr_write tg t tm al m ptrs mask value = Ok m' ->
  exists r, ptr_read tg t tm al m' ptrs mask other = Ok r /\ is_vector t r /\
    (forall i j p v, enabled mask i -> enabled mask j -> lane ptrs i p -> lane ptrs j p -> lane value j v ->
       (forall k, (j < k)%nat -> enabled mask k -> ~ lane ptrs k p) -> lane r i v) /\
    (forall i x, disabled mask i -> lane other i x -> lane r i x).
Proof.
  intros T A TM N C VP VV VO MB DJ W.
  assert (LM : length mask = vn t) by (destruct C; congruence).
  assert (LP : length ptrs = vn t) by (destruct VP as [LP _]; exact LP).
  destruct (scatter_spec tg t tm al m ptrs mask value T A TM N C VP VV) as [S1 S2].
  assert (V : forall i p, enabled mask i -> lane ptrs i p -> valid_at (vb t) al m p).
  { destruct (scatter_lanes (t_big_endian tg) (vb t) al m ptrs mask value) as [m0| |] eqn:E.
    2,3: unfold ptr_write, simd_scatter in W; rewrite (canonical_mask_ok tm mask C) in W; congruence.
    intros i p En P. destruct En as (c & Lc & Tc).
    destruct (aligned p al) eqn:AL.
    2:{ rewrite (scatter_ub _ _ _ ptrs mask value m i p c) in E; auto using truth_nonzero; try congruence. destruct VV; congruence. }
    split; [now apply aligned_iff|]. intros a R Na.
    rewrite (scatter_ub _ _ _ ptrs mask value m i p c) in E; eauto using truth_nonzero; try congruence. destruct VV; congruence. }
  clear S2. destruct (S1 V) as (m0 & E & O & I). rewrite W in E. injection E as <-.
  assert (DOM : forall a, m' a = None -> m a = None).
  { intros a Ha.
    pose proof (last_cover (vb t) ptrs mask a (eq_trans LM (eq_sym LP))) as X.
    destruct X as [Y | (i & p & En & P & CV & Later)].
    - rewrite <- (O a Y); auto.
    - destruct (nth_error_ex value i) as [v Vv]; [apply nth_error_lt in P; destruct VV; congruence|].
      rewrite (I i p v a En P Vv CV Later) in Ha. discriminate. }
  assert (MB' : forall a x, m' a = Some x -> 0 <= x < 256).
  { intros a x Hx.
    pose proof (last_cover (vb t) ptrs mask a (eq_trans LM (eq_sym LP))) as X.
    destruct X as [Y | (i & p & En & P & CV & Later)].
    - apply (MB a x). rewrite <- (O a Y); auto.
    - destruct (nth_error_ex value i) as [v Vv]; [apply nth_error_lt in P; destruct VV; congruence|].
      rewrite (I i p v a En P Vv CV Later) in Hx. injection Hx as <-. unfold byte_of. apply Z.mod_pos_bound. lia. }
  destruct (gather_spec tg t tm al m' ptrs mask other T A TM N C VP VO MB') as [G _].
  destruct G as (r & E & VR & G1 & G0).
  { intros i p En P. destruct (V i p En P) as [D Acc]. split; [exact D|]. intros a R Na. exact (Acc a R (DOM a Na)). }
  exists r. split; [exact E|]. split; [exact VR|]. split; [|exact G0].
  intros i j p v Ei Ej Pi Pj Vj Last. apply (G1 i p v Ei Pi).
  - exact (is_vector_lane t value j v VV Vj).
  - intros k K. replace k with (Z.to_nat (p + Z.of_nat k - p)) at 2 by lia.
    apply (I j p v); auto; [unfold covers; lia|].
    intros l q L El Q CV. destruct (DJ j l p q Ej El Pj Q) as [<-|D]; [exact (Last l L El Q)|].
    unfold covers in CV. lia.
Qed.
