(** Rotates (C12, C13). *)
From Coq Require Import ZArith List Bool Lia ZifyBool ZifyNat.
From Verif.Model Require Import Base FloatLane Llvm Minimal Ops.
From Verif.Spec Require Import Spec.
From Verif.Proofs Require Import Lib MinimalP OpsP OpsP2.
Import ListNotations.
Open Scope Z_scope.

Lemma lane_width_eq t : (0 < vb t)%nat -> lane_width t = width t.
Proof.
  intros H. unfold lane_width.
  pose proof (width_lt_half t H). pose proof (width_half t H). pose proof (width_pos t H).
  assert (W : width t = 8 * Z.of_nat (vb t)) by reflexivity.
  change (modulus (vb t)) with (2 ^ width t) in *.
  rewrite (wrap_id _ (Z.of_nat (vb t))).
  - rewrite wrap_id; [lia|]. unfold pattern. change (modulus (vb t)) with (2 ^ width t). lia.
  - unfold pattern. change (modulus (vb t)) with (2 ^ width t). lia.
Qed.

Lemma all_ok_map2_eq t (f : Z -> Z -> option Z) (g : Z -> Z -> Z) x y :
  is_vector t x -> is_vector t y ->
  (forall i a b, lane x i a -> lane y i b -> f a b = Some (g a b)) ->
  all_ok (map2 f x y) = Ok (map2 g x y).
Proof.
  intros Hx Hy H. apply all_ok_ok. rewrite map_map2.
  apply nth_error_ext; [now rewrite !map2_length|].
  intros i p q Hp Hq.
  apply nth_error_map2_inv in Hp as (a & b & Ha & Hb & ->).
  apply nth_error_map2_inv in Hq as (a' & b' & Ha' & Hb' & ->).
  rewrite Ha in Ha'; rewrite Hb in Hb'. injection Ha' as <-. injection Hb' as <-. eauto.
Qed.

(** The remainder of an amount by the lane width. *)
Definition amt (t : vty) (q : Z) : Z := Z.rem (value t q) (width t).

Lemma amt_bound t q : (0 < vb t)%nat -> - width t < amt t q < width t.
Proof.
  intros H; unfold amt. pose proof (width_pos t H).
  pose proof (Z.rem_bound_abs (value t q) (width t)). lia.
Qed.

Lemma value_width t : integer_type t -> value t (width t) = width t.
Proof.
  intros Ht. pose proof (width_lt_half t (int_b t Ht)).
  unfold value. destruct Ht as [[-> _]|[-> _]]; auto.
  destruct (Z.ltb_spec (width t) (2 ^ (width t - 1))); lia.
Qed.

Lemma width_pattern t : integer_type t -> 0 <= width t < 2 ^ width t.
Proof.
  intros Ht. pose proof (width_lt_half t (int_b t Ht)).
  pose proof (width_half t (int_b t Ht)). pose proof (width_nonneg t). lia.
Qed.

(** [v % LANE_WIDTH] is always defined. *)
Lemma rem_width_lane t q :
  integer_type t -> pattern (vb t) q ->
  lane_rem (vkind t) (vb t) q (width t) = Some (wrap (vb t) (amt t q)).
Proof.
  intros Ht Hq. pose proof (width_pattern t Ht) as Hw. pose proof (width_pos t (int_b t Ht)).
  pose proof (value_width t Ht) as VW.
  rewrite lane_rem_int by auto.
  destruct (div_defined (vkind t) (vb t) q (width t)) eqn:D.
  - unfold amt. rewrite <- VW at 3. f_equal. unfold value in *.
    destruct Ht as [[K [Hb _]]|[K [Hb _]]]; rewrite K in *; cbn [is_signed].
    + do 2 f_equal; exact VW.
    + rewrite Z.rem_mod_nonneg by (destruct Hq; lia).
      symmetry; apply wrap_id. split; [apply Z.mod_pos_bound; lia|].
      apply Z.lt_trans with (width t); [apply Z.mod_pos_bound; lia|apply Hw].
  - apply div_defined_spec in D; auto.
    destruct D as [D|(_ & _ & D)]; rewrite VW in D; lia.
Qed.

Lemma rem_width_vec t n :
  integer_type t -> is_vector t n ->
  rem_vs t n (lane_width t) = Ok (map (fun q => wrap (vb t) (amt t q)) n).
Proof.
  intros Ht Hn. rewrite lane_width_eq by (apply int_b; auto).
  unfold rem_vs, rem, simd_rem.
  rewrite (all_ok_map2_eq t _ (fun q _ => wrap (vb t) (amt t q))); auto.
  - unfold splat. now rewrite map2_repeat_r by apply Hn.
  - apply splat_vector. now apply width_pattern.
  - intros i a b La Lb. rewrite (splat_lane_inv _ _ _ _ Lb).
    apply rem_width_lane; eauto using is_vector_lane.
Qed.

Lemma map_wrap_vector t (f : Z -> Z) n :
  is_vector t n -> is_vector t (map (fun q => wrap (vb t) (f q)) n).
Proof.
  intros [Hl _]; split; [now rewrite map_length|].
  apply Forall_forall; intros c Hc. apply in_map_iff in Hc as (a & <- & _). apply wrap_pattern.
Qed.

Lemma small_pattern t r : integer_type t -> 0 <= r < width t -> pattern (vb t) r.
Proof.
  intros Ht Hr. pose proof (width_pattern t Ht). unfold pattern.
  change (modulus (vb t)) with (2 ^ width t). lia.
Qed.

(** The second amount, [(LANE_WIDTH - n) % LANE_WIDTH]. *)
Lemma second_amount t r :
  integer_type t -> 0 <= r < width t ->
  wrap (vb t) (amt t (wrap (vb t) (width t - r))) = (width t - r) mod width t.
Proof.
  intros Ht Hr. pose proof (width_pattern t Ht) as Hw.
  pose proof (width_lt_half t (int_b t Ht)) as Hh.
  assert (P : pattern (vb t) (width t - r)).
  { unfold pattern. change (modulus (vb t)) with (2 ^ width t). lia. }
  rewrite (wrap_id _ (width t - r)) by auto.
  assert (V : value t (width t - r) = width t - r).
  { unfold value. destruct Ht as [[-> _]|[-> _]]; auto.
    destruct (Z.ltb_spec (width t - r) (2 ^ (width t - 1))); lia. }
  unfold amt. rewrite V, Z.rem_mod_nonneg by lia.
  apply wrap_id. apply small_pattern; auto. apply Z.mod_pos_bound; lia.
Qed.

Lemma width_sub_mod w r : 0 <= r < w -> (w - r) mod w = if r =? 0 then 0 else w - r.
Proof.
  intros H. destruct (Z.eqb_spec r 0) as [->|].
  - rewrite Z.sub_0_r. apply Z.mod_same; lia.
  - apply Z.mod_small; lia.
Qed.

(** What a defined rotation computes, per lane. *)
Definition rl (t : vty) (a q : Z) : Z :=
  Z.lor (wrap (vb t) (Z.shiftl a (amt t q)))
        (wrap (vb t) (Z.shiftr (value t a) ((width t - amt t q) mod width t))).
Definition rr (t : vty) (a q : Z) : Z :=
  Z.lor (wrap (vb t) (Z.shiftr (value t a) (amt t q)))
        (wrap (vb t) (Z.shiftl a ((width t - amt t q) mod width t))).

Lemma lane_shr_value t a r :
  integer_type t -> pattern (vb t) a -> 0 <= r < width t ->
  lane_shr (vkind t) (vb t) a r = Some (wrap (vb t) (Z.shiftr (value t a) r)).
Proof.
  intros Ht Ha Hr. unfold lane_shr. change (bits (vb t)) with (width t).
  destruct (Z.ltb_spec r (width t)); [|lia]. f_equal. unfold value.
  destruct Ht as [[-> _]|[-> _]]; cbn [is_signed]; auto.
  symmetry; apply wrap_id. rewrite Z.shiftr_div_pow2 by lia.
  assert (0 < 2 ^ r) by (apply Z.pow_pos_nonneg; lia). destruct Ha as [A0 A1].
  split; [apply Z.div_pos; lia|]. apply Z.div_lt_upper_bound; nia.
Qed.

Lemma rotate_left_ok t x n :
  integer_type t -> is_vector t x -> is_vector t n ->
  (forall i q, lane n i q -> 0 <= amt t q) ->
  rotate_left t x n = Ok (map2 (rl t) x n).
Proof.
  intros Ht Hx Hn H. unfold rotate_left. rewrite rem_width_vec by auto. cbn [bind].
  pose proof (map_wrap_vector t (amt t) n Hn) as Hn'.
  set (n' := map _ n) in *.
  assert (B : forall i q, lane n i q -> 0 <= amt t q < width t).
  { intros i q L. pose proof (amt_bound t q (int_b t Ht)). specialize (H i q L). lia. }
  assert (L' : forall i c, lane n' i c -> exists q, lane n i q /\ c = amt t q).
  { intros i c L. unfold lane, n' in L. rewrite nth_error_map in L.
    destruct (nth_error n i) as [q|] eqn:E; [|discriminate]. cbn in L. injection L as <-.
    exists q; split; auto. apply wrap_id, small_pattern; auto. apply (B i); auto. }
  assert (S1 : shl t x n' = Ok (map2 (fun a q => wrap (vb t) (Z.shiftl a q)) x n')).
  { apply (all_ok_map2_eq t); auto. intros i a c La Lc. unfold lane_shl.
    destruct (L' i c Lc) as (q & Lq & ->). specialize (B i q Lq).
    change (bits (vb t)) with (width t). destruct (Z.ltb_spec (amt t q) (width t)); [auto|lia]. }
  rewrite S1. cbn [bind].
  assert (S2 : sub_sv t (lane_width t) n' = map (fun c => wrap (vb t) (width t - c)) n').
  { rewrite lane_width_eq by (apply int_b; auto).
    unfold sub_sv, sub, simd_sub, splat. rewrite lane_sub_int by auto.
    now rewrite map2_repeat_l by apply Hn'. }
  rewrite S2. rewrite rem_width_vec by (auto using map_wrap_vector). cbn [bind].
  rewrite map_map. set (m := map _ n').
  assert (Hm : is_vector t m).
  { apply (map_wrap_vector t (fun c => amt t (wrap (vb t) (width t - c))) n'); auto. }
  assert (S3 : shr t x m = Ok (map2 (fun a r => wrap (vb t) (Z.shiftr (value t a) r)) x m)).
  { apply (all_ok_map2_eq t); auto. intros i a c La Lc.
    apply lane_shr_value; eauto using is_vector_lane.
    unfold lane, m in Lc. rewrite nth_error_map in Lc.
    destruct (nth_error n' i) as [c'|] eqn:E; [|discriminate]. cbn in Lc. injection Lc as <-.
    destruct (L' i c' E) as (q & Lq & ->). specialize (B i q Lq).
    rewrite second_amount by auto. apply Z.mod_pos_bound; lia. }
  rewrite S3. cbn [bind]. f_equal. unfold bitor, simd_or.
  unfold m, n'. rewrite map_map, !map2_map_r.
  clear - B Ht Hx Hn.
  apply nth_error_ext; [rewrite !map2_length; lia|].
  intros i p p' Hp Hp'.
  apply nth_error_map2_inv in Hp as (p1 & p2 & H1 & H2 & ->).
  apply nth_error_map2_inv in H1 as (a & q & Ha & Hq & ->).
  apply nth_error_map2_inv in H2 as (a2 & q2 & Ha2 & Hq2 & ->).
  apply nth_error_map2_inv in Hp' as (a' & q' & Ha' & Hq' & ->).
  rewrite Ha in Ha2, Ha'; rewrite Hq in Hq2, Hq'.
  injection Ha' as <-. injection Hq' as <-. injection Ha2 as <-. injection Hq2 as <-.
  specialize (B i q Hq). unfold rl.
  rewrite (wrap_id _ (amt t q)) by (apply small_pattern; auto).
  now rewrite second_amount by auto.
Qed.

Lemma rotate_right_ok t x n :
  integer_type t -> is_vector t x -> is_vector t n ->
  (forall i q, lane n i q -> 0 <= amt t q) ->
  rotate_right t x n = Ok (map2 (rr t) x n).
Proof.
  intros Ht Hx Hn H. unfold rotate_right. rewrite rem_width_vec by auto. cbn [bind].
  pose proof (map_wrap_vector t (amt t) n Hn) as Hn'.
  set (n' := map _ n) in *.
  assert (B : forall i q, lane n i q -> 0 <= amt t q < width t).
  { intros i q L. pose proof (amt_bound t q (int_b t Ht)). specialize (H i q L). lia. }
  assert (L' : forall i c, lane n' i c -> exists q, lane n i q /\ c = amt t q).
  { intros i c L. unfold lane, n' in L. rewrite nth_error_map in L.
    destruct (nth_error n i) as [q|] eqn:E; [|discriminate]. cbn in L. injection L as <-.
    exists q; split; auto. apply wrap_id, small_pattern; auto. apply (B i); auto. }
  assert (S1 : shr t x n' = Ok (map2 (fun a r => wrap (vb t) (Z.shiftr (value t a) r)) x n')).
  { apply (all_ok_map2_eq t); auto. intros i a c La Lc.
    destruct (L' i c Lc) as (q & Lq & ->). specialize (B i q Lq).
    apply lane_shr_value; eauto using is_vector_lane. }
  rewrite S1. cbn [bind].
  assert (S2 : sub_sv t (lane_width t) n' = map (fun c => wrap (vb t) (width t - c)) n').
  { rewrite lane_width_eq by (apply int_b; auto).
    unfold sub_sv, sub, simd_sub, splat. rewrite lane_sub_int by auto.
    now rewrite map2_repeat_l by apply Hn'. }
  rewrite S2. rewrite rem_width_vec by (auto using map_wrap_vector). cbn [bind].
  rewrite map_map. set (m := map _ n').
  assert (Hm : is_vector t m).
  { apply (map_wrap_vector t (fun c => amt t (wrap (vb t) (width t - c))) n'); auto. }
  assert (S3 : shl t x m = Ok (map2 (fun a q => wrap (vb t) (Z.shiftl a q)) x m)).
  { apply (all_ok_map2_eq t); auto. intros i a c La Lc. unfold lane_shl.
    unfold lane, m in Lc. rewrite nth_error_map in Lc.
    destruct (nth_error n' i) as [c'|] eqn:E; [|discriminate]. cbn in Lc. injection Lc as <-.
    destruct (L' i c' E) as (q & Lq & ->). specialize (B i q Lq).
    rewrite second_amount by auto. change (bits (vb t)) with (width t).
    destruct (Z.ltb_spec ((width t - amt t q) mod width t) (width t)) as [|G]; auto.
    exfalso. revert G. apply Z.lt_nge, Z.mod_pos_bound; lia. }
  rewrite S3. cbn [bind]. f_equal. unfold bitor, simd_or.
  unfold m, n'. rewrite map_map, !map2_map_r.
  clear - B Ht Hx Hn.
  apply nth_error_ext; [rewrite !map2_length; lia|].
  intros i p p' Hp Hp'.
  apply nth_error_map2_inv in Hp as (p1 & p2 & H1 & H2 & ->).
  apply nth_error_map2_inv in H1 as (a & q & Ha & Hq & ->).
  apply nth_error_map2_inv in H2 as (a2 & q2 & Ha2 & Hq2 & ->).
  apply nth_error_map2_inv in Hp' as (a' & q' & Ha' & Hq' & ->).
  rewrite Ha in Ha2, Ha'; rewrite Hq in Hq2, Hq'.
  injection Ha' as <-. injection Hq' as <-. injection Ha2 as <-. injection Hq2 as <-.
  specialize (B i q Hq). unfold rr.
  rewrite (wrap_id _ (amt t q)) by (apply small_pattern; auto).
  now rewrite second_amount by auto.
Qed.

(** *** Bits of the result *)

Lemma testbit_wrap b z j : 0 <= j < bits b -> Z.testbit (wrap b z) j = Z.testbit z j.
Proof. intros; apply Z.mod_pow2_bits_low; lia. Qed.

Lemma testbit_value_low t a j :
  integer_type t -> pattern (vb t) a -> 0 <= j < width t ->
  Z.testbit (value t a) j = Z.testbit a j.
Proof.
  intros Ht Ha Hj. unfold value. destruct Ht as [[-> _]|[-> _]]; auto.
  change (if a <? 2 ^ (width t - 1) then a else a - 2 ^ width t) with (sval (vb t) a).
  rewrite <- (wrap_sval (vb t) a Ha) at 2. symmetry; apply testbit_wrap. exact Hj.
Qed.

Lemma testbit_value_high t a j :
  integer_type t -> pattern (vb t) a -> width t <= j ->
  Z.testbit (value t a) j = (value t a <? 0).
Proof.
  intros Ht Ha Hj. pose proof (value_in_range t a Ht Ha) as R.
  unfold in_range, min_value, max_value in R.
  pose proof (width_half t (int_b t Ht)). pose proof (width_pos t (int_b t Ht)).
  assert (0 < 2 ^ (width t - 1)) by (apply Z.pow_pos_nonneg; lia).
  assert (- 2 ^ width t <= value t a < 2 ^ width t).
  { destruct Ht as [[K _]|[K _]]; rewrite K in R; lia. }
  clear R. destruct (Z.ltb_spec (value t a) 0).
  - assert (E : value t a = Z.lnot (- value t a - 1)) by (unfold Z.lnot; lia).
    rewrite E, Z.lnot_spec by lia.
    rewrite (testbit_pattern_high (vb t)); [auto| |exact Hj].
    unfold pattern. change (modulus (vb t)) with (2 ^ width t). lia.
  - apply (testbit_pattern_high (vb t)); [|exact Hj].
    unfold pattern. change (modulus (vb t)) with (2 ^ width t). lia.
Qed.

Lemma rl_testbit t a q j :
  integer_type t -> pattern (vb t) a -> 0 <= amt t q -> 0 <= j < width t ->
  Z.testbit (rl t a q) j =
  Z.testbit a ((j - value t q) mod width t)
  || (negb (amt t q =? 0) && (amt t q <=? j) && (value t a <? 0)).
Proof.
  intros Ht Ha Hq Hj. pose proof (amt_bound t q (int_b t Ht)) as B.
  set (w := width t) in *. set (r := amt t q) in *.
  assert (M : (j - value t q) mod w = (j - r) mod w).
  { unfold r, amt. fold w.
    pose proof (Z.quot_rem' (value t q) w) as Q.
    replace (j - value t q) with (j - Z.rem (value t q) w + (- Z.quot (value t q) w) * w) by lia.
    apply Z.mod_add. lia. }
  rewrite M. unfold rl. fold w r. rewrite Z.lor_spec.
  rewrite !testbit_wrap by exact Hj.
  rewrite Z.shiftl_spec, Z.shiftr_spec by lia.
  rewrite width_sub_mod by lia.
  destruct (Z.eqb_spec r 0) as [->|Hr]; cbn [negb andb].
  - rewrite Z.sub_0_r, Z.add_0_r, testbit_value_low, Bool.orb_diag, Bool.orb_false_r by auto.
    now rewrite Z.mod_small.
  - destruct (Z.leb_spec r j); cbn [andb].
    + rewrite (testbit_value_high t a) by (auto; fold w; lia).
      rewrite (Z.mod_small (j - r)) by lia. reflexivity.
    + rewrite (Z.testbit_neg_r a (j - r)) by lia.
      rewrite testbit_value_low by (auto; fold w; lia).
      cbn [orb]. rewrite Bool.orb_false_r. f_equal. 
      apply Z.mod_unique with (-1); lia.
Qed.

Lemma rr_testbit t a q j :
  integer_type t -> pattern (vb t) a -> 0 <= amt t q -> 0 <= j < width t ->
  Z.testbit (rr t a q) j =
  Z.testbit a ((j + value t q) mod width t)
  || ((width t <=? j + amt t q) && (value t a <? 0)).
Proof.
  intros Ht Ha Hq Hj. pose proof (amt_bound t q (int_b t Ht)) as B.
  set (w := width t) in *. set (r := amt t q) in *.
  assert (M : (j + value t q) mod w = (j + r) mod w).
  { unfold r, amt. fold w.
    pose proof (Z.quot_rem' (value t q) w) as Q.
    replace (j + value t q) with (j + Z.rem (value t q) w + (Z.quot (value t q) w) * w) by lia.
    apply Z.mod_add. lia. }
  rewrite M. unfold rr. fold w r. rewrite Z.lor_spec.
  rewrite !testbit_wrap by exact Hj.
  rewrite Z.shiftl_spec, Z.shiftr_spec by lia.
  rewrite width_sub_mod by lia.
  destruct (Z.leb_spec w (j + r)); cbn [andb].
  - rewrite (testbit_value_high t a) by (auto; fold w; lia).
    destruct (Z.eqb_spec r 0); [lia|].
    replace ((j + r) mod w) with (j - (w - r)) by (apply Z.mod_unique with 1; lia).
    apply Bool.orb_comm.
  - rewrite testbit_value_low by (auto; fold w; lia).
    rewrite (Z.mod_small (j + r)) by lia. rewrite Bool.orb_false_r.
    destruct (Z.eqb_spec r 0) as [->|].
    + rewrite Z.sub_0_r, Z.add_0_r. apply Bool.orb_diag.
    + rewrite (Z.testbit_neg_r a (j - (w - r))) by lia. apply Bool.orb_false_r.
Qed.

Lemma rl_pattern t a q : pattern (vb t) (rl t a q).
Proof. apply lor_pattern; apply wrap_pattern. Qed.
Lemma rr_pattern t a q : pattern (vb t) (rr t a q).
Proof. apply lor_pattern; apply wrap_pattern. Qed.

Lemma amt_nonneg t q : integer_type t -> 0 <= value t q -> 0 <= amt t q.
Proof.
  intros Ht H. unfold amt. apply Z.rem_nonneg; auto.
  pose proof (width_pos t (int_b t Ht)); lia.
Qed.

Lemma unsigned_value t p : unsigned_type t -> value t p = p.
Proof. intros [K _]; unfold value; now rewrite K. Qed.

Theorem unsigned_rotates t x n :
  unsigned_type t -> is_vector t x -> is_vector t n ->
  (exists r, rotate_left t x n = Ok r /\ lanewise2 t x n r (rotated_left t)) /\
  (exists r, rotate_right t x n = Ok r /\ lanewise2 t x n r (rotated_right t)).
Proof.
  intros Hu Hx Hn. assert (Ht : integer_type t) by (right; auto).
  assert (A : forall i q, lane n i q -> 0 <= amt t q).
  { intros i q L. apply amt_nonneg; auto. rewrite unsigned_value by auto.
    apply (is_vector_lane _ _ _ _ Hn L). }
  split.
  - exists (map2 (rl t) x n). split; [now apply rotate_left_ok|].
    apply (lanewise2_map2 t); auto. intros a b Ha Hb; split; [apply rl_pattern|].
    intros j Hj. rewrite rl_testbit; auto.
    + rewrite !unsigned_value by auto. destruct Ha as [Ha _].
      destruct (Z.ltb_spec a 0); [lia|]. now rewrite Bool.andb_false_r, Bool.orb_false_r.
    + apply amt_nonneg; auto. rewrite unsigned_value by auto. apply Hb.
  - exists (map2 (rr t) x n). split; [now apply rotate_right_ok|].
    apply (lanewise2_map2 t); auto. intros a b Ha Hb; split; [apply rr_pattern|].
    intros j Hj. rewrite rr_testbit; auto.
    + rewrite !unsigned_value by auto. destruct Ha as [Ha _].
      destruct (Z.ltb_spec a 0); [lia|]. now rewrite Bool.andb_false_r, Bool.orb_false_r.
    + apply amt_nonneg; auto. rewrite unsigned_value by auto. apply Hb.
Qed.

(** *** Signed rotates: exact behaviour *)

Lemma rotate_ub t x n :
  integer_type t -> is_vector t x -> is_vector t n ->
  (exists i q, lane n i q /\ amt t q < 0) ->
  rotate_left t x n = UB /\ rotate_right t x n = UB.
Proof.
  intros Ht Hx Hn (i & q & L & Hneg).
  pose proof (map_wrap_vector t (amt t) n Hn) as Hn'.
  assert (B : exists i b, lane (map (fun q => wrap (vb t) (amt t q)) n) i b /\ bad_amount t b).
  { exists i, (wrap (vb t) (amt t q)). split.
    - unfold lane in *. now rewrite nth_error_map, L.
    - left. assert (S : signed_type t).
      { destruct Ht as [|Hu]; auto. exfalso. unfold amt in Hneg.
        rewrite unsigned_value in Hneg by auto.
        pose proof (Z.rem_nonneg q (width t)). pose proof (width_pos t (proj1 (proj2 Hu))).
        pose proof (is_vector_lane _ _ _ _ Hn L) as [? _]. lia. }
      pose proof (amt_bound t q (int_b t Ht)). pose proof (width_lt_half t (int_b t Ht)).
      destruct S as [K [Hb _]]. unfold value. rewrite K.
      change (sval (vb t) (wrap (vb t) (amt t q)) < 0).
      rewrite sval_wrap; auto. change (bits (vb t)) with (width t). lia. }
  unfold rotate_left, rotate_right. rewrite rem_width_vec by auto. cbn [bind].
  split.
  - rewrite (proj2 (proj1 (shl_undefined_iff t x _ Ht Hx Hn')) B). reflexivity.
  - rewrite (proj2 (proj1 (shr_undefined_iff t x _ Ht Hx Hn')) B). reflexivity.
Qed.

Theorem signed_rotates t x n :
  signed_type t -> is_vector t x -> is_vector t n ->
  let w := width t in
  let defined := forall i q, lane n i q -> 0 <= Z.rem (value t q) w in
  (defined ->
     (exists r, rotate_left t x n = Ok r /\ lanewise2 t x n r (fun a q c =>
        forall j, 0 <= j < w ->
          Z.testbit c j = Z.testbit a ((j - value t q) mod w)
            || (negb (Z.rem (value t q) w =? 0) && (Z.rem (value t q) w <=? j) && (value t a <? 0)))) /\
     (exists r, rotate_right t x n = Ok r /\ lanewise2 t x n r (fun a q c =>
        forall j, 0 <= j < w ->
          Z.testbit c j = Z.testbit a ((j + value t q) mod w)
            || ((w <=? j + Z.rem (value t q) w) && (value t a <? 0))))) /\
  (~ defined -> rotate_left t x n = UB /\ rotate_right t x n = UB).
Proof.
  intros Hs Hx Hn w defined. assert (Ht : integer_type t) by (left; auto).
  split.
  - intros D.
    assert (A : forall i a b, lane x i a -> lane n i b -> 0 <= amt t b) by (intros i a b _ L; exact (D i b L)).
    split.
    + exists (map2 (rl t) x n). split; [now apply rotate_left_ok|].
      split; [apply (lanewise2_map2 t t _ x n (fun _ _ _ => True)); auto; intros; split; auto; apply rl_pattern|].
      intros i a b La Lb. exists (rl t a b). split; [now apply nth_error_map2|].
      intros j Hj. apply rl_testbit; eauto using is_vector_lane.
    + exists (map2 (rr t) x n). split; [now apply rotate_right_ok|].
      split; [apply (lanewise2_map2 t t _ x n (fun _ _ _ => True)); auto; intros; split; auto; apply rr_pattern|].
      intros i a b La Lb. exists (rr t a b). split; [now apply nth_error_map2|].
      intros j Hj. apply rr_testbit; eauto using is_vector_lane.
  - intros ND. apply rotate_ub; auto.
    destruct (existsb (fun q => amt t q <? 0) n) eqn:E.
    + apply existsb_exists in E as (q & Hq & Hneg). apply In_nth_error in Hq as [i Hi].
      exists i, q. split; auto. lia.
    + destruct ND. intros i q L. unfold lane in L. apply nth_error_In in L.
      assert (F : (amt t q <? 0) = false).
      { destruct (amt t q <? 0) eqn:F; auto.
        assert (existsb (fun q => amt t q <? 0) n = true) by (apply existsb_exists; eauto).
        congruence. }
      apply Z.ltb_ge in F. exact F.
Qed.

Theorem signed_rotates_nonneg t x n :
  signed_type t -> is_vector t x -> is_vector t n ->
  (forall i a, lane x i a -> 0 <= value t a) ->
  (forall i q, lane n i q -> 0 <= value t q) ->
  (exists r, rotate_left t x n = Ok r /\ lanewise2 t x n r (fun a q c => rotated_left t a (value t q) c)) /\
  (exists r, rotate_right t x n = Ok r /\ lanewise2 t x n r (fun a q c => rotated_right t a (value t q) c)).
Proof.
  intros Hs Hx Hn Px Pn. assert (Ht : integer_type t) by (left; auto).
  destruct (signed_rotates t x n Hs Hx Hn) as [H _].
  destruct H as [(r1 & E1 & V1 & L1) (r2 & E2 & V2 & L2)].
  { intros i q L. apply (amt_nonneg t q); eauto. }
  split.
  - exists r1; split; auto. split; auto. intros i a q La Lq.
    destruct (L1 i a q La Lq) as (c & Lc & B). exists c; split; auto.
    intros j Hj. rewrite (B j Hj). specialize (Px i a La).
    destruct (Z.ltb_spec (value t a) 0); [lia|]. now rewrite Bool.andb_false_r, Bool.orb_false_r.
  - exists r2; split; auto. split; auto. intros i a q La Lq.
    destruct (L2 i a q La Lq) as (c & Lc & B). exists c; split; auto.
    intros j Hj. rewrite (B j Hj). specialize (Px i a La).
    destruct (Z.ltb_spec (value t a) 0); [lia|]. now rewrite Bool.andb_false_r, Bool.orb_false_r.
Qed.
