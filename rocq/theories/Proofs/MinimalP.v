(** Lane access, construction, default (C01, C42). *)
From Coq Require Import ZArith List Bool Lia ZifyBool ZifyNat.
From Verif.Model Require Import Base FloatLane Llvm Minimal.
From Verif.Spec Require Import Spec.
From Verif.Proofs Require Import Lib.
Import ListNotations.
Open Scope Z_scope.

Lemma as_u32_small i : 0 <= i < 2 ^ 32 -> as_u32 i = i.
Proof. intros; apply Z.mod_small; auto. Qed.

Lemma simd_extract_lane v i p : lane v i p -> simd_extract v (Z.of_nat i) = Ok p.
Proof. unfold lane, simd_extract; intros H; rewrite Nat2Z.id, H; auto. Qed.

Lemma extract_unchecked_lane t v i p :
  vector_type t -> is_vector t v -> lane v i p ->
  extract_unchecked t v (Z.of_nat i) = Ok p.
Proof.
  intros (_ & _ & Hn) Hv H. pose proof (lane_index _ _ _ _ Hv H).
  unfold extract_unchecked. rewrite as_u32_small by lia. now apply simd_extract_lane.
Qed.

Lemma extract_lane t v i p :
  vector_type t -> is_vector t v -> lane v i p -> extract t v (Z.of_nat i) = Ok p.
Proof.
  intros Ht Hv H. pose proof (lane_index _ _ _ _ Hv H).
  unfold extract, assert. destruct (Z.ltb_spec (Z.of_nat i) (Z.of_nat (vn t))); [|lia].
  cbn [bind]. now apply extract_unchecked_lane.
Qed.

Lemma extract_oob t v i : Z.of_nat (vn t) <= i -> extract t v i = Panic.
Proof.
  intros; unfold extract, assert. destruct (Z.ltb_spec i (Z.of_nat (vn t))); [lia|auto].
Qed.

Lemma simd_insert_ok v i x :
  (i < length v)%nat -> simd_insert v (Z.of_nat i) x = Ok (update v i x).
Proof.
  intros; unfold simd_insert.
  destruct (Z.ltb_spec (Z.of_nat i) (Z.of_nat (length v))); [|lia]. now rewrite Nat2Z.id.
Qed.

Lemma replace_unchecked_ok t v i x :
  vector_type t -> is_vector t v -> (i < vn t)%nat ->
  replace_unchecked t v (Z.of_nat i) x = Ok (update v i x).
Proof.
  intros (_ & _ & Hn) [Hl _] Hi. unfold replace_unchecked.
  rewrite as_u32_small by lia. apply simd_insert_ok; lia.
Qed.

Lemma replace_ok t v i x :
  vector_type t -> is_vector t v -> (i < vn t)%nat ->
  replace t v (Z.of_nat i) x = Ok (update v i x).
Proof.
  intros Ht Hv Hi. unfold replace, assert.
  destruct (Z.ltb_spec (Z.of_nat i) (Z.of_nat (vn t))); [|lia]. cbn [bind].
  now apply replace_unchecked_ok.
Qed.

Lemma replace_oob t v i x : Z.of_nat (vn t) <= i -> replace t v i x = Panic.
Proof.
  intros; unfold replace, assert. destruct (Z.ltb_spec i (Z.of_nat (vn t))); [lia|auto].
Qed.

Lemma update_vector t v i x :
  is_vector t v -> 0 <= x < 2 ^ width t -> is_vector t (update v i x).
Proof.
  intros [Hl Hf] Hx; split; [now rewrite update_length|].
  now apply Forall_update.
Qed.

Lemma bool_to_internal_mlane b c : bool_to_internal b c = mlane b c.
Proof. destruct c; cbn; [apply ones_wrap|reflexivity]. Qed.

Lemma mlane_mask_lane t c : mlane (vb t) c = mask_lane t c.
Proof. reflexivity. Qed.

Lemma mlane_eqb0 b c : (0 < b)%nat -> (mlane b c =? 0) = negb c.
Proof.
  intros; destruct c; cbn; auto. pose proof (ones_pos b H).
  destruct (Z.eqb_spec (ones b) 0); auto; lia.
Qed.

Lemma truth_mlane b c : (0 < b)%nat -> truth (mlane b c) = c.
Proof. intros; unfold truth; rewrite mlane_eqb0 by auto. now destruct c. Qed.

Lemma truth_mask_lane t c : (0 < vb t)%nat -> truth (mask_lane t c) = c.
Proof. intros. rewrite <- mlane_mask_lane. now apply truth_mlane. Qed.

Lemma canonical_vector t m : canonical t m -> is_vector t m.
Proof.
  intros [Hl H]; split; auto. eapply Forall_impl; [|exact H].
  cbv beta. intros p Hp. unfold true_lane, false_lane in Hp.
  pose proof (modulus_pos (vb t)) as M. unfold modulus in M.
  change (bits (vb t)) with (width t) in M. lia.
Qed.

Lemma canonical_lane t m i p :
  canonical t m -> lane m i p -> p = mask_lane t (truth p).
Proof.
  intros [_ H] E. pose proof (Forall_nth_error _ _ _ _ H E) as [-> | ->].
  - unfold truth. destruct (Z.eqb_spec (true_lane t) 0) as [Hz|]; cbn; auto.
  - reflexivity.
Qed.

Lemma canonical_mlanes t (l : list bool) :
  length l = vn t -> canonical t (map (mlane (vb t)) l).
Proof.
  intros H; split; [now rewrite map_length|].
  apply Forall_forall; intros x Hx. apply in_map_iff in Hx as (c & <- & _).
  destruct c; auto.
Qed.

Lemma canonical_map_truth t m :
  canonical t m -> m = map (mlane (vb t)) (map truth m).
Proof.
  intros H. rewrite map_map.
  rewrite <- (map_id m) at 1. apply map_ext_in. intros p Hp.
  apply In_nth_error in Hp as [i Hi].
  rewrite (canonical_lane t m i p H Hi) at 1. now destruct (truth p).
Qed.

Lemma mask_extract_lane t v i p :
  vector_type t -> is_vector t v -> lane v i p -> mask_extract t v (Z.of_nat i) = Ok (truth p).
Proof.
  intros Ht Hv H. pose proof (lane_index _ _ _ _ Hv H).
  unfold mask_extract, assert.
  destruct (Z.ltb_spec (Z.of_nat i) (Z.of_nat (vn t))); [|lia]. cbn [bind].
  unfold mask_extract_unchecked. rewrite as_u32_small by (destruct Ht as (_ & _ & ?); lia).
  rewrite (simd_extract_lane _ _ _ H). reflexivity.
Qed.

(** ** C01 *)

Theorem extract_spec t v i :
  vector_type t -> is_vector t v ->
  ((i < vn t)%nat -> exists p, lane v i p /\ extract t v (Z.of_nat i) = Ok p
                               /\ extract_unchecked t v (Z.of_nat i) = Ok p)
  /\ ((vn t <= i)%nat -> extract t v (Z.of_nat i) = Panic).
Proof.
  intros Ht Hv; split; intros Hi.
  - destruct (nth_error_ex v i) as [p Hp]; [destruct Hv; lia|].
    exists p; repeat split; auto using extract_lane, extract_unchecked_lane.
  - apply extract_oob; lia.
Qed.

Theorem replace_spec t v i x :
  vector_type t -> is_vector t v -> 0 <= x < 2 ^ width t ->
  ((i < vn t)%nat ->
     exists w, replace t v (Z.of_nat i) x = Ok w
            /\ replace_unchecked t v (Z.of_nat i) x = Ok w
            /\ is_vector t w /\ lane w i x
            /\ forall j p, j <> i -> (lane w j p <-> lane v j p))
  /\ ((vn t <= i)%nat -> replace t v (Z.of_nat i) x = Panic).
Proof.
  intros Ht Hv Hx; split; intros Hi.
  - exists (update v i x).
    split; [now apply replace_ok|split; [now apply replace_unchecked_ok|]].
    split; [now apply update_vector|]. unfold lane.
    split; [apply nth_error_update_same; destruct Hv; lia|].
    intros j p Hj. rewrite nth_error_update_other by auto. reflexivity.
  - apply replace_oob; lia.
Qed.

Theorem new_spec t xs :
  Forall (fun p => 0 <= p < 2 ^ width t) xs ->
  (length xs = vn t ->
     exists v, new t xs = Some v /\ is_vector t v /\ forall i p, lane v i p <-> nth_error xs i = Some p)
  /\ (length xs <> vn t -> new t xs = None).
Proof.
  intros Hx; unfold new; split; intros H.
  - exists xs. rewrite H, Nat.eqb_refl. repeat split; auto.
  - destruct (Nat.eqb_spec (length xs) (vn t)); congruence.
Qed.

Theorem splat_spec t x :
  0 <= x < 2 ^ width t ->
  is_vector t (splat t x) /\ forall i, (i < vn t)%nat -> lane (splat t x) i x.
Proof.
  intros Hx; unfold splat, lane; repeat split.
  - apply repeat_length.
  - apply Forall_forall; intros y Hy. apply repeat_spec in Hy; subst; auto.
  - intros; apply nth_error_repeat; auto.
Qed.

Lemma mask_splat_repeat t c : mask_splat t c = repeat (mlane (vb t) c) (vn t).
Proof. unfold mask_splat, splat. now rewrite bool_to_internal_mlane. Qed.

Theorem mask_new_spec t xs :
  length xs = vn t ->
  exists m, mask_new t xs = Some m /\ canonical t m
         /\ forall i c, nth_error xs i = Some c -> lane m i (mask_lane t c).
Proof.
  intros H; unfold mask_new, new. rewrite map_length, H, Nat.eqb_refl.
  eexists; split; [reflexivity|].
  rewrite (map_ext _ _ (bool_to_internal_mlane (vb t))).
  split; [now apply canonical_mlanes|].
  intros i c Hc. unfold lane. rewrite nth_error_map, Hc. reflexivity.
Qed.

Theorem mask_splat_spec t c :
  canonical t (mask_splat t c) /\ forall i, (i < vn t)%nat -> lane (mask_splat t c) i (mask_lane t c).
Proof.
  rewrite mask_splat_repeat; repeat split.
  - apply repeat_length.
  - apply Forall_forall; intros y Hy. apply repeat_spec in Hy; subst. destruct c; auto.
  - intros; apply nth_error_repeat; auto.
Qed.

Theorem mask_extract_spec t m i :
  vector_type t -> canonical t m ->
  ((i < vn t)%nat -> exists c, lane m i (mask_lane t c) /\ mask_extract t m (Z.of_nat i) = Ok c
                               /\ mask_extract_unchecked t m (Z.of_nat i) = Ok c)
  /\ ((vn t <= i)%nat -> mask_extract t m (Z.of_nat i) = Panic).
Proof.
  intros Ht Hm; split; intros Hi.
  - pose proof (canonical_vector _ _ Hm) as Hv.
    destruct (nth_error_ex m i) as [p Hp]; [destruct Hm; lia|].
    exists (truth p). rewrite <- (canonical_lane t m i p Hm Hp).
    pose proof (mask_extract_lane t m i p Ht Hv Hp) as E.
    repeat split; auto.
    unfold mask_extract, assert in E.
    destruct (Z.ltb_spec (Z.of_nat i) (Z.of_nat (vn t))); [|lia]. exact E.
  - unfold mask_extract, assert. destruct (Z.ltb_spec (Z.of_nat i) (Z.of_nat (vn t))); [lia|auto].
Qed.

Theorem mask_replace_spec t m i c :
  vector_type t -> canonical t m ->
  ((i < vn t)%nat ->
     exists w, mask_replace t m (Z.of_nat i) c = Ok w
            /\ mask_replace_unchecked t m (Z.of_nat i) c = Ok w
            /\ canonical t w /\ lane w i (mask_lane t c)
            /\ forall j p, j <> i -> (lane w j p <-> lane m j p))
  /\ ((vn t <= i)%nat -> mask_replace t m (Z.of_nat i) c = Panic).
Proof.
  intros Ht Hm; split; intros Hi; unfold mask_replace, assert.
  - destruct (Z.ltb_spec (Z.of_nat i) (Z.of_nat (vn t))); [|lia]. cbn [bind].
    exists (update m i (mlane (vb t) c)). unfold mask_replace_unchecked.
    destruct Ht as (Hb & Hn & Hn'). rewrite as_u32_small by lia.
    rewrite bool_to_internal_mlane.
    destruct Hm as [Hl Hf].
    rewrite simd_insert_ok by lia. repeat split; auto.
    + now rewrite update_length.
    + apply Forall_update; auto. destruct c; auto.
    + apply nth_error_update_same; lia.
    + unfold lane; rewrite nth_error_update_other by auto; auto.
    + unfold lane; rewrite nth_error_update_other by auto; auto.
  - destruct (Z.ltb_spec (Z.of_nat i) (Z.of_nat (vn t))); [lia|auto].
Qed.
