(** Every mask the safe API produces is canonical. *)
From Coq Require Import ZArith List Bool Lia.
From Verif.Model Require Import Base ScalarMask FloatLane Llvm Bytes Tables Arch Minimal MaskReduce Ops Cmp Cast Shuffle ShuffleDyn.
From Verif.Spec Require Import Spec Memory Conv Obtain.
From Verif.Proofs Require Import Lib MinimalP OpsP OpsP2 BytesP MaskReduceP CmpP ShuffleP CastP ShuffleDynP LawsP.
Import ListNotations.
Open Scope Z_scope.

Scheme obtained_mut := Induction for obtained Sort Prop
  with operand_mut := Induction for operand Sort Prop.
Combined Scheme obtained_operand_ind from obtained_mut, operand_mut.

Definition good_mask (t : vty) (m : vec) : Prop := mask_type t /\ canonical t m.
Definition good_operand (t : vty) (x : vec) : Prop :=
  is_vector t x /\ (vkind t = KMask -> canonical t x).

Lemma good_is_operand t m : good_mask t m -> good_operand t m.
Proof. intros [_ C]. split; auto using canonical_vector. Qed.

Lemma simd_cmp_canonical f t x y : is_vector t x -> is_vector t y ->
  canonical (mask_of t) (simd_cmp f (vkind t) (vb t) (vb t) x y).
Proof.
  intros [Lx _] [Ly _]. unfold simd_cmp.
  assert (E : forall (x y : list Z), map2 (fun a b => mlane (vb t) (f (vkind t) (vb t) a b)) x y
              = map (mlane (vb t)) (map2 (f (vkind t) (vb t)) x y)).
  { clear. induction x as [|a x IH]; destruct y; cbn [map2 map]; auto. now rewrite IH. }
  rewrite E. apply (canonical_mlanes (mask_of t)). cbn [vn mask_of]. now apply map2_length_eq.
Qed.

Lemma compare_canonical c t x y : is_vector t x -> is_vector t y ->
  canonical (mask_of t) (compare c t x y).
Proof.
  intros X Y. destruct c; cbn [compare]; unfold veq, vne, vlt, vle, vgt, vge;
    destruct (is_mask t); now apply simd_cmp_canonical.
Qed.

Lemma canonical_of_lanes t r : length r = vn t ->
  (forall k p, lane r k p -> p = true_lane t \/ p = false_lane) -> canonical t r.
Proof. intros L H. split; auto. apply Forall_of_nth_error. intros k p K. exact (H k p K). Qed.

Lemma canonical_lane_cases t m i p : canonical t m -> lane m i p -> p = true_lane t \/ p = false_lane.
Proof. intros [_ F] L. rewrite Forall_forall in F. apply F. now apply nth_error_In in L. Qed.

Lemma smask_new_lane t c : smask_new (vb t) c = mlane (vb t) c.
Proof. destruct c; cbn [smask_new mlane]; auto. apply ones_wrap. Qed.

Theorem obtained_good tg :
  (t_ptr tg = 1 \/ t_ptr tg = 2 \/ t_ptr tg = 4 \/ t_ptr tg = 8)%nat ->
  (forall t m, obtained tg t m -> good_mask t m) /\
  (forall t x, operand tg t x -> good_operand t x).
Proof.
  intros P. apply obtained_operand_ind.
  - intros t cs m T E. split; auto.
    destruct (Nat.eq_dec (length cs) (vn t)) as [L|L].
    + destruct (mask_new_spec t cs L) as (m' & E' & C & _). congruence.
    + unfold mask_new, new in E. rewrite map_length in E.
      apply Nat.eqb_neq in L. rewrite L in E. discriminate.
  - intros t c T. split; auto. apply mask_splat_spec.
  - intros t T. split; auto. destruct T as [K _]. unfold vdefault. rewrite K. apply mask_splat_spec.
  - intros t m i c r _ [T C] E. split; auto.
    destruct (mask_replace_spec t m i c (proj2 T) C) as [R1 R2].
    destruct (Nat.lt_ge_cases i (vn t)) as [I|I].
    + destruct (R1 I) as (w & E' & _ & Cw & _). congruence.
    + rewrite (R2 I) in E. discriminate.
  - intros t m _ [T C]. split; auto. destruct (mask_operators t m m T C C) as (_ & _ & _ & (N & _)); exact N.
  - intros o t m m' _ [T C] _ [_ C']. split; auto.
    destruct (mask_operators t m m' T C C') as ((A & _) & (O & _) & (X & _) & _).
    destruct o; assumption.
  - intros o t m c _ [T C]. split; auto.
    destruct (mask_scalar_operators t m c T C) as ((A & _) & _ & (O & _) & _ & (X & _) & _).
    destruct o; assumption.
  - intros o t m c _ [T C]. split; auto.
    destruct (mask_scalar_operators t m c T C) as (_ & (A & _) & _ & (O & _) & _ & (X & _)).
    destruct o; assumption.
  - intros c t x y T _ [X _] _ [Y _]. split; [split; [reflexivity|exact T]|].
    now apply compare_canonical.
  - intros tm t m x y r N _ [TM CM] _ [T X] _ [_ Y] E. split; auto.
    destruct (select_picks tm t m x y TM (proj2 T) N CM) as (r' & E' & [L' _] & S);
      auto using canonical_vector.
    assert (r' = r) by congruence. subst r'. apply canonical_of_lanes; auto.
    intros k p K. assert (I : (k < vn t)%nat) by (rewrite <- L'; apply nth_error_Some; unfold lane in K; congruence).
    destruct (is_vector_ex tm m k (canonical_vector _ _ CM)) as [c Lc]; [lia|].
    destruct (is_vector_ex t x k (canonical_vector _ _ X)) as [a La]; [lia|].
    destruct (is_vector_ex t y k (canonical_vector _ _ Y)) as [b Lb]; [lia|].
    pose proof Lc as Lc'. rewrite (canonical_lane _ _ _ _ CM Lc) in Lc'.
    specialize (S k _ a b Lc' La Lb). unfold lane in S, K. rewrite K in S. injection S as ->.
    destruct (truth c); [exact (canonical_lane_cases t x k a X La)|exact (canonical_lane_cases t y k b Y Lb)].
  - intros sz t x y idx t' r _ [T X] _ [_ Y] E.
    destruct (shuffle2_spec sz t x y idx (canonical_vector _ _ X) (canonical_vector _ _ Y)) as [S _].
    destruct (S t' r E) as (-> & [L F] & A).
    assert (N : (0 < length idx <= 64)%nat).
    { unfold shuffle2 in E. destruct (shuffle_arity (length idx)) eqn:H; [|discriminate].
      unfold shuffle_arity in H. apply existsb_exists in H as (n & I & H). apply Nat.eqb_eq in H.
      rewrite H. cbn [In] in I. clear - I. intuition lia. }
    split.
    + destruct T as [K (B & _)]. split; [exact K|]. unfold vector_type. cbn [vb vn].
      split; [exact B|]. change (2 ^ 32) with 4294967296. clear - N. split; lia.
    + apply canonical_of_lanes; auto. intros k p K. cbn [vn] in L.
      assert (I : (k < length idx)%nat) by (rewrite <- L; apply nth_error_Some; unfold lane in K; congruence).
      destruct (nth_error idx k) as [i|] eqn:Ei; [|apply nth_error_None in Ei; lia].
      unfold lane in K.
      destruct (A k i Ei) as [[_ (q & Q & Lq)] | [_ (q & Q & Lq)]]; unfold lane in Q; rewrite K in Q;
        injection Q as <-;
        [exact (canonical_lane_cases t x _ p X Lq)|exact (canonical_lane_cases t y _ p Y Lq)].
  - intros sz t m ix r _ [T C] I E. split; auto.
    assert (P0 : (0 < t_ptr tg)%nat) by (clear - P; lia).
    destruct (shuffle1_dyn_any_index tg sz t m ix P0 (proj2 T) (canonical_vector _ _ C) I)
      as [E' | (r' & E' & [L _] & A)]; [congruence|].
    assert (r' = r) by congruence. subst r'. apply canonical_of_lanes; auto.
    intros k p K. destruct (A k p K) as [-> | [j J]]; [right; reflexivity|].
    exact (canonical_lane_cases t m j p C J).
  - intros e src x r I S T NE VT _ [X XC] E. split; auto.
    destruct (cast_table_shape (t_ptr tg) e src I S) as (N & _ & H).
    destruct (H (proj1 T)) as [E1 | E1]; [congruence|]. rewrite E1 in E.
    unfold cast, from_cast in E.
    rewrite from_cast_mask_val in E; [|apply VT|apply X|exact N].
    injection E as <-.
    rewrite <- (map_map (fun p => lane_ne (vkind src) (vb src) p (nth 0 (vdefault src) 0)) (mlane (vb (c_to e)))).
    apply canonical_mlanes. rewrite map_length. destruct X. congruence.
  - intros d src m r I S _ [T C] E.
    destruct (from_masks (t_ptr tg) d src m I S T C) as (T' & r' & E' & C' & _).
    split; auto. congruence.
  - intros e src m I S T _ [X C].
    destruct (bits_masks (t_big_endian tg) (t_ptr tg) e src m P I S (proj1 T)) as [K H].
    split; auto. now apply H, C.
  - intros t cs T L. split; auto.
    destruct (array_round_trip (t_big_endian tg) t) as [A _].
    rewrite (map_ext _ _ (smask_new_lane t)).
    destruct (A (map (mlane (vb t)) cs)) as ([L' _] & B & _).
    + now rewrite map_length.
    + apply Forall_forall. intros p Hp. apply in_map_iff in Hp as (c & <- & _). apply mlane_pattern.
    + apply canonical_of_lanes; auto. intros k p K. apply B in K.
      rewrite nth_error_map in K. destruct (nth_error cs k) as [c|]; [|discriminate].
      injection K as <-. destruct c; [left; reflexivity|right; reflexivity].
  - intros t x K X. split; auto. now intros.
  - intros t m _ G. now apply good_is_operand.
Qed.

Theorem obtained_canonical tg t m :
  (t_ptr tg = 1 \/ t_ptr tg = 2 \/ t_ptr tg = 4 \/ t_ptr tg = 8)%nat ->
  obtained tg t m -> canonical t m.
Proof. intros P O. now apply (proj1 (obtained_good tg P) t m). Qed.

(** The operations that are undefined on a mask that is not canonical. *)
Theorem obtained_defined tg t m :
  (t_ptr tg = 1 \/ t_ptr tg = 2 \/ t_ptr tg = 4 \/ t_ptr tg = 8)%nat ->
  obtained tg t m ->
  (forall s x y, vector_type s -> vn s = vn t -> is_vector s x -> is_vector s y ->
     exists r, select t m x y = Ok r) /\
  (In t mask_types -> exists c d, all tg t m = Ok c /\ any tg t m = Ok d).
Proof.
  intros P O. destruct (proj1 (obtained_good tg P) t m O) as [T C]. split.
  - intros s x y S N X Y.
    destruct (select_picks t s m x y T S (eq_sym N) C X Y) as (r & E & _). eauto.
  - intros I. destruct (all_canonical_masks tg t m I C) as [-> ->]. eauto.
Qed.
