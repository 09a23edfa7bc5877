(** The wrappers around the external math functions are lane-wise. *)
From Coq Require Import ZArith List Bool Lia.
From Verif.Model Require Import Base FloatLane Llvm Bytes Tables Minimal Ops Float MathTables Math.
From Verif.Spec Require Import Spec Floats MathSpec.
From Verif.Proofs Require Import Lib OpsP OpsP2 BytesP FloatApiP.
Import ListNotations.
Open Scope Z_scope.
Open Scope list_scope.

Definition map3 {A B C D} (f : A -> B -> C -> D) x y z := map2 (fun g c => g c) (map2 f x y) z.

Lemma map3_app {A B C D} (f : A -> B -> C -> D) x x' y y' z z' :
  length x = length y -> length x = length z ->
  map3 f (x ++ x') (y ++ y') (z ++ z') = map3 f x y z ++ map3 f x' y' z'.
Proof.
  revert y z. induction x as [|a x IH]; intros [|b y] [|c z] Hy Hz; try discriminate; auto.
  unfold map3 in *. cbn [map2 app]. f_equal. apply IH; cbn in *; lia.
Qed.
Lemma map2_app' {A B C} (f : A -> B -> C) x x' y y' :
  length x = length y -> map2 f (x ++ x') (y ++ y') = map2 f x y ++ map2 f x' y'.
Proof.
  revert y. induction x as [|a x IH]; intros [|b y] Hy; try discriminate; auto.
  cbn [map2 app]. f_equal. apply IH; cbn in *; lia.
Qed.
Lemma map3_length {A B C D} (f : A -> B -> C -> D) x y z n :
  length x = n -> length y = n -> length z = n -> length (map3 f x y z) = n.
Proof. intros. unfold map3. rewrite !map2_length. lia. Qed.
Lemma nth_error_map3 {A B C D} (f : A -> B -> C -> D) x y z i a b c :
  nth_error x i = Some a -> nth_error y i = Some b -> nth_error z i = Some c ->
  nth_error (map3 f x y z) i = Some (f a b c).
Proof.
  intros. unfold map3. erewrite nth_error_map2; eauto using nth_error_map2.
Qed.

(** Lists with the same lanes. *)
Lemma eq_by_lanes (r r' : vec) :
  length r = length r' -> (forall i a, nth_error r' i = Some a -> nth_error r i = Some a) -> r = r'.
Proof.
  revert r'. induction r as [|p r IH]; intros [|q r'] L H; try discriminate; auto.
  pose proof (H O q eq_refl) as E. injection E as <-. f_equal. apply IH; [cbn in *; lia|].
  intros i a Ha. exact (H (S i) a Ha).
Qed.
Lemma nth_error_some_len {A} (l : list A) i : (i < length l)%nat -> exists a, nth_error l i = Some a.
Proof. intros H. destruct (nth_error l i) eqn:E; eauto. apply nth_error_None in E. lia. Qed.

Lemma argument_wf f v : argument f v <-> wf (x_b f) (x_n f) v.
Proof. reflexivity. Qed.

(** ** External calls as maps *)
Section External.
Variables (X : externals) (S : lane_functions).
Hypothesis W : works_lanewise X S.

Lemma x_v1_map f v : wf (x_b f) (x_n f) v -> x_v1 X f v = map (l1 S f) v /\ wf (x_b f) (x_n f) (x_v1 X f v).
Proof.
  intros H. destruct W as (W1 & _). destruct (W1 f v H) as [A L]. split; [|exact A].
  apply eq_by_lanes.
  - rewrite map_length. now rewrite (proj1 A), (proj1 H).
  - intros i a E. rewrite nth_error_map in E. destruct (nth_error v i) eqn:Ev; [|discriminate].
    injection E as <-. now apply L.
Qed.
Lemma x_v2_map f v w : wf (x_b f) (x_n f) v -> wf (x_b f) (x_n f) w ->
  x_v2 X f v w = map2 (l2 S f) v w /\ wf (x_b f) (x_n f) (x_v2 X f v w).
Proof.
  intros H H'. destruct W as (_ & W1 & _). destruct (W1 f v w H H') as [A L]. split; [|exact A].
  apply eq_by_lanes.
  - rewrite map2_length. rewrite (proj1 A), (proj1 H), (proj1 H'). lia.
  - intros i a E. apply nth_error_map2_inv in E as (p & q & Ep & Eq & ->). now apply L.
Qed.
Lemma x_v3_map f u v w : wf (x_b f) (x_n f) u -> wf (x_b f) (x_n f) v -> wf (x_b f) (x_n f) w ->
  x_v3 X f u v w = map3 (l3 S f) u v w /\ wf (x_b f) (x_n f) (x_v3 X f u v w).
Proof.
  intros H H' H''. destruct W as (_ & _ & W1 & _). destruct (W1 f u v w H H' H'') as [A L]. split; [|exact A].
  apply eq_by_lanes.
  - rewrite (proj1 A). symmetry. apply map3_length; [apply H|apply H'|apply H''].
  - intros i a E. unfold map3 in E. apply nth_error_map2_inv in E as (g & q & Eg & Eq & ->).
    apply nth_error_map2_inv in Eg as (p & p' & Ep & Ep' & ->). now apply L.
Qed.
Lemma x_vp_map f v : wf (x_b f) (x_n f) v ->
  fst (x_vp X f v) = map (lsin S f) v /\ snd (x_vp X f v) = map (lcos S f) v /\
  wf (x_b f) (x_n f) (fst (x_vp X f v)) /\ wf (x_b f) (x_n f) (snd (x_vp X f v)).
Proof.
  intros H. destruct W as (_ & _ & _ & W1 & _). destruct (W1 f v H) as (A & A' & L).
  split; [|split; [|split; [exact A|exact A']]]; apply eq_by_lanes.
  1,3: rewrite map_length; rewrite ?(proj1 A), ?(proj1 A'), (proj1 H); reflexivity.
  all: intros i a E; rewrite nth_error_map in E; destruct (nth_error v i) eqn:Ev; [|discriminate];
    injection E as <-; now apply L.
Qed.
Lemma x_s1_map f v n : wf (x_b f) n v -> map (x_s1 X f) v = map (l1 S f) v /\ wf (x_b f) n (map (x_s1 X f) v).
Proof.
  intros [H F]. destruct W as (_ & _ & _ & _ & W1 & _). rewrite Forall_forall in F. split; [|split].
  - apply map_ext_in. intros a Ha. apply W1, F, Ha.
  - now rewrite map_length.
  - apply Forall_forall. intros c Hc. apply in_map_iff in Hc as (a & <- & Ha). apply W1, F, Ha.
Qed.
Lemma x_s2_map f v w n : wf (x_b f) n v -> wf (x_b f) n w ->
  map2 (x_s2 X f) v w = map2 (l2 S f) v w /\ wf (x_b f) n (map2 (x_s2 X f) v w).
Proof.
  intros [H F] [H' F']. destruct W as (_ & _ & _ & _ & _ & W1). rewrite Forall_forall in F, F'. split; [|split].
  - apply map2_ext. intros a b Ha Hb. apply W1; [apply F, Ha|apply F', Hb].
  - now apply map2_length_eq.
  - apply Forall_map2. intros a b Ha Hb. apply W1; [apply F, Ha|apply F', Hb].
Qed.

(** The function applied to the lanes: for the crate's own tanh helpers it is the
    standard library's. *)
Definition scalar_ext (f : ext) : ext := match x_lib f with Crate => core_tanh (x_b f) | _ => f end.

Lemma wrapped1_map be f t v :
  x_b f = vb t -> x_n f = vn t -> wf (vb t) (vn t) v ->
  wrapped1 X be f t v = map (l1 S (scalar_ext f)) v /\ wf (vb t) (vn t) (wrapped1 X be f t v).
Proof.
  intros Hb Hn H. unfold wrapped1, as_res, as_arg.
  rewrite <- Hb, <- Hn in *. rewrite (transmute_id be (x_b f) (x_n f) v) by auto.
  assert (call1 X be f v = map (l1 S (scalar_ext f)) v /\ wf (x_b f) (x_n f) (call1 X be f v)) as [E F].
  { unfold call1, scalar_ext. destruct (x_lib f); try now apply x_v1_map.
    unfold crate_tanh. rewrite (transmute_id be (x_b f) (x_n f) v) by auto.
    destruct (x_s1_map (core_tanh (x_b f)) v (x_n f) H) as [E F].
    change (x_b (core_tanh (x_b f))) with (x_b f) in F.
    rewrite (transmute_id be (x_b f) (x_n f)) by exact F. now split. }
  rewrite (transmute_id be (x_b f) (x_n f)) by exact F. now split.
Qed.
Lemma wrapped2_map be f t v w :
  x_b f = vb t -> x_n f = vn t -> wf (vb t) (vn t) v -> wf (vb t) (vn t) w ->
  wrapped2 X be f t v w = map2 (l2 S f) v w /\ wf (vb t) (vn t) (wrapped2 X be f t v w).
Proof.
  intros Hb Hn H H'. unfold wrapped2, as_res, as_arg.
  rewrite <- Hb, <- Hn in *. rewrite (transmute_id be (x_b f) (x_n f) v), (transmute_id be (x_b f) (x_n f) w) by auto.
  destruct (x_v2_map f v w H H') as [E F].
  rewrite (transmute_id be (x_b f) (x_n f)) by exact F. now split.
Qed.
Lemma wrapped3_map be f t u v w :
  x_b f = vb t -> x_n f = vn t -> wf (vb t) (vn t) u -> wf (vb t) (vn t) v -> wf (vb t) (vn t) w ->
  wrapped3 X be f t u v w = map3 (l3 S f) u v w /\ wf (vb t) (vn t) (wrapped3 X be f t u v w).
Proof.
  intros Hb Hn H H' H''. unfold wrapped3, as_res, as_arg.
  rewrite <- Hb, <- Hn in *. rewrite (transmute_id be (x_b f) (x_n f) u), (transmute_id be (x_b f) (x_n f) v), (transmute_id be (x_b f) (x_n f) w) by auto.
  destruct (x_v3_map f u v w H H' H'') as [E F].
  rewrite (transmute_id be (x_b f) (x_n f)) by exact F. now split.
Qed.
Lemma wrapped_p_map be f t v :
  x_b f = vb t -> x_n f = vn t -> wf (vb t) (vn t) v ->
  wrapped_p X be f t v = (map (lsin S f) v, map (lcos S f) v) /\
  wf (vb t) (vn t) (map (lsin S f) v) /\ wf (vb t) (vn t) (map (lcos S f) v).
Proof.
  intros Hb Hn H. unfold wrapped_p, as_res, as_arg.
  rewrite <- Hb, <- Hn in *. rewrite (transmute_id be (x_b f) (x_n f) v) by auto.
  destruct (x_vp_map f v H) as (E & E' & F & F').
  rewrite !(transmute_id be (x_b f) (x_n f)) by auto. rewrite E in F. rewrite E' in F'. rewrite E, E'. auto.
Qed.
End External.

(** ** Unions *)
Lemma wf_app b n m v w : wf b n v -> wf b m w -> wf b (n + m) (v ++ w).
Proof. intros [L F] [L' F']. split; [rewrite app_length; lia|now apply Forall_app]. Qed.

(** A vector in two and in four parts. *)
Lemma split2 b m v : wf b (m + m) v -> exists p q, v = p ++ q /\ wf b m p /\ wf b m q.
Proof.
  intros [L F]. exists (firstn m v), (skipn m v). split; [symmetry; apply firstn_skipn|].
  split; split; rewrite ?firstn_length, ?skipn_length; try lia;
    [now apply Forall_firstn'|now apply Forall_skipn'].
Qed.

Lemma groups_app b m p l n : length (image b m p) = n -> firstn n (image b m p ++ l) = image b m p.
Proof. intros <-. rewrite firstn_app, Nat.sub_diag, firstn_O, app_nil_r. apply firstn_all. Qed.

Lemma groups_S be b p l n k :
  length (image be b p) = n -> groups (S k) n (image be b p ++ l) = image be b p :: groups k n l.
Proof.
  intros <-. cbn [groups]. rewrite firstn_app, Nat.sub_diag, firstn_O, app_nil_r, firstn_all.
  rewrite skipn_app, Nat.sub_diag, skipn_all. reflexivity.
Qed.

Lemma part_size be t p h : wf (vb t) (vn h) p -> vb h = vb t -> length (image be (vb t) p) = vec_size h.
Proof. intros [L _] E. rewrite image_length, L. unfold vec_size. now rewrite E. Qed.

Lemma union_parts_2 be t h p q :
  vb h = vb t -> wf (vb t) (vn h) p -> wf (vb t) (vn h) q ->
  union_parts be t h 2 (p ++ q) = [p; q].
Proof.
  intros E Hp Hq. unfold union_parts. rewrite image_app.
  rewrite (groups_S be (vb t) p) by now apply part_size.
  rewrite <- (app_nil_r (image be (vb t) q)).
  rewrite (groups_S be (vb t) q) by now apply part_size.
  cbn [groups map]. rewrite E, !of_image_image by auto. reflexivity.
Qed.
Lemma union_parts_4 be t h p q r s :
  vb h = vb t -> wf (vb t) (vn h) p -> wf (vb t) (vn h) q -> wf (vb t) (vn h) r -> wf (vb t) (vn h) s ->
  union_parts be t h 4 ((p ++ q) ++ (r ++ s)) = [p; q; r; s].
Proof.
  intros E Hp Hq Hr Hs. unfold union_parts. rewrite !image_app, <- !app_assoc.
  rewrite (groups_S be (vb t) p) by now apply part_size.
  rewrite (groups_S be (vb t) q) by now apply part_size.
  rewrite (groups_S be (vb t) r) by now apply part_size.
  rewrite <- (app_nil_r (image be (vb t) s)).
  rewrite (groups_S be (vb t) s) by now apply part_size.
  cbn [groups map]. rewrite E, !of_image_image by auto. reflexivity.
Qed.

Lemma flat_map_image be b l : flat_map (image be b) l = image be b (concat l).
Proof. induction l as [|v l IH]; cbn [flat_map concat]; auto. now rewrite image_app, IH. Qed.
Lemma union_vec_concat be t h l :
  vb h = vb t -> wf (vb t) (vn t) (concat l) -> union_vec be t h l = concat l.
Proof. intros E H. unfold union_vec. rewrite E, flat_map_image. now apply of_image_image. Qed.

Lemma union_twice_app be t tw v junk :
  vb tw = vb t -> vn tw = (vn t + vn t)%nat -> wf (vb t) (vn t) v -> wf (vb t) (vn t) junk ->
  union_twice be t tw v junk = v ++ junk.
Proof.
  intros Eb En H H'. unfold union_twice. rewrite <- image_app, Eb. apply of_image_image.
  rewrite En. now apply wf_app.
Qed.
Lemma union_elem_app be t tw v w :
  vb tw = vb t -> wf (vb t) (vn t) v -> wf (vb t) (vn t) w ->
  union_elem be t tw 0 (v ++ w) = v /\ union_elem be t tw 1 (v ++ w) = w.
Proof.
  intros Eb H H'. unfold union_elem. rewrite Eb, image_app.
  rewrite (groups_S be (vb t) v) by (now apply part_size).
  rewrite <- (app_nil_r (image be (vb t) w)).
  rewrite (groups_S be (vb t) w) by (now apply part_size).
  cbn [groups nth]. now rewrite !of_image_image.
Qed.

(** ** Table entries whose sizes fit *)
Definition fits (t : vty) (i : impl) : bool :=
  match i with
  | IVec f | IGen f => Nat.eqb (x_b f) (vb t) && Nat.eqb (x_n f) (vn t)
  | IScalar sb sn f => Nat.eqb sb (vb t) && Nat.eqb sn (vn t) && Nat.eqb (x_b f) (vb t)
  | IHalves h f =>
      Nat.eqb (vb h) (vb t) && Nat.eqb (vn t) (vn h + vn h) && Nat.eqb (x_b f) (vb t) && Nat.eqb (x_n f) (vn h)
  | IQuarter h f =>
      Nat.eqb (vb h) (vb t) && Nat.eqb (vn t) ((vn h + vn h) + (vn h + vn h)) &&
      Nat.eqb (x_b f) (vb t) && Nat.eqb (x_n f) (vn h)
  | ITwice h f =>
      Nat.eqb (vb h) (vb t) && Nat.eqb (vn h) (vn t + vn t) && Nat.eqb (x_b f) (vb t) && Nat.eqb (x_n f) (vn h)
  | IPi | IMulAdd => true
  end.
Definition entry_ext (i : impl) : option ext :=
  match i with
  | IVec f | IGen f | IHalves _ f | IQuarter _ f | ITwice _ f => Some (scalar_ext f)
  | IScalar _ _ f => Some f
  | IPi | IMulAdd => None
  end.

Ltac sizes :=
  repeat match goal with
  | H : _ && _ = true |- _ => apply andb_true_iff in H as [? ?]
  | H : Nat.eqb _ _ = true |- _ => apply Nat.eqb_eq in H
  end.

Section Wrappers.
Variables (X : externals) (S : lane_functions) (be : bool).
Hypothesis W : works_lanewise X S.

Lemma unary_lanes t i f junk v :
  fits t i = true -> entry_ext i = Some f -> wf (vb t) (vn t) v -> wf (vb t) (vn t) junk ->
  unary X be junk i t v = Some (map (l1 S f) v) /\ wf (vb t) (vn t) (map (l1 S f) v).
Proof.
  intros Fi E Hv Hj. destruct i as [g|g|sb sn g|h g|h g|h g| |]; cbn [fits entry_ext unary] in *;
    try discriminate; sizes; injection E as <-.
  - destruct (wrapped1_map X S W be g t v) as [E F]; auto. rewrite <- E in *. now split.
  - destruct (wrapped1_map X S W be g t v) as [E F]; auto. rewrite <- E in *. now split.
  - subst sb sn. rewrite (transmute_id be (vb t) (vn t) v) by auto.
    destruct (x_s1_map X S W g v (vn t)) as [E F]; [congruence|].
    rewrite H0 in F. rewrite (transmute_id be (vb t) (vn t)) by exact F. rewrite E in *. now split.
  - rewrite H2 in Hv. destruct (split2 _ _ _ Hv) as (p & q & -> & Hp & Hq).
    rewrite union_parts_2 by auto. cbn [nth].
    destruct (wrapped1_map X S W be g h p) as [Ep Fp]; [congruence|auto|now rewrite H|].
    destruct (wrapped1_map X S W be g h q) as [Eq Fq]; [congruence|auto|now rewrite H|].
    rewrite map_app, <- Ep, <- Eq. rewrite H in Fp, Fq.
    assert (wf (vb t) (vn t) (wrapped1 X be g h p ++ wrapped1 X be g h q)) as R
      by (rewrite H2; now apply wf_app).
    split; [|exact R]. rewrite union_vec_concat; cbn [concat]; rewrite ?app_nil_r; auto.
  - rewrite H2 in Hv. destruct (split2 _ _ _ Hv) as (pq & rs & -> & Hpq & Hrs).
    destruct (split2 _ _ _ Hpq) as (p & q & -> & Hp & Hq).
    destruct (split2 _ _ _ Hrs) as (r & s & -> & Hr & Hs).
    rewrite union_parts_4 by auto. cbn [nth].
    destruct (wrapped1_map X S W be g h p) as [Ep Fp]; [congruence|auto|now rewrite H|].
    destruct (wrapped1_map X S W be g h q) as [Eq Fq]; [congruence|auto|now rewrite H|].
    destruct (wrapped1_map X S W be g h r) as [Er Fr]; [congruence|auto|now rewrite H|].
    destruct (wrapped1_map X S W be g h s) as [Es Fs]; [congruence|auto|now rewrite H|].
    rewrite !map_app, <- Ep, <- Eq, <- Er, <- Es. rewrite H in Fp, Fq, Fr, Fs.
    assert (wf (vb t) (vn t) ((wrapped1 X be g h p ++ wrapped1 X be g h q) ++
                              (wrapped1 X be g h r ++ wrapped1 X be g h s))) as R
      by (rewrite H2; apply wf_app; now apply wf_app).
    split; [|exact R]. rewrite union_vec_concat; cbn [concat]; rewrite ?app_nil_r, <- ?app_assoc in *; auto.
  - rewrite union_twice_app by auto.
    destruct (wrapped1_map X S W be g h (v ++ junk)) as [E F];
      [congruence|auto|rewrite H, H2; now apply wf_app|].
    rewrite E in *. rewrite map_app in *. rewrite H, H2 in F.
    assert (wf (vb t) (vn t) (map (l1 S (scalar_ext g)) v) /\ wf (vb t) (vn t) (map (l1 S (scalar_ext g)) junk)) as [R R'].
    { destruct F as [_ F]. apply Forall_app in F as [F F'].
      split; (split; [rewrite map_length; first [apply Hv|apply Hj]|auto]). }
    split; [|exact R]. f_equal. now apply union_elem_app.
Qed.

Lemma binary_lanes t i f junk junk' v w :
  fits t i = true -> entry_ext i = Some f -> x_lib f <> Core -> (forall g, i <> IGen g) ->
  wf (vb t) (vn t) v -> wf (vb t) (vn t) w -> wf (vb t) (vn t) junk -> wf (vb t) (vn t) junk' ->
  binary X be junk junk' i t v w = Some (map2 (l2 S f) v w) /\ wf (vb t) (vn t) (map2 (l2 S f) v w).
Proof.
  intros Fi E NC NG Hv Hw Hj Hj'.
  assert (forall g, entry_ext i = Some (scalar_ext g) -> scalar_ext g = g) as SE.
  { intros g Eg. rewrite E in Eg. injection Eg as ->. unfold scalar_ext in *.
    destruct (x_lib g) eqn:Lg; auto. cbn in NC. congruence. }
  destruct i as [g|g|sb sn g|h g|h g|h g| |]; cbn [fits entry_ext binary] in *;
    try discriminate; sizes; try (rewrite (SE g eq_refl) in E); injection E as <-; clear SE NC.
  - destruct (wrapped2_map X S W be g t v w) as [E F]; auto. rewrite <- E in *. now split.
  - now contradiction (NG g).
  - subst sb sn. rewrite (transmute_id be (vb t) (vn t) v), (transmute_id be (vb t) (vn t) w) by auto.
    destruct (x_s2_map X S W g v w (vn t)) as [E F]; [congruence|congruence|].
    rewrite H0 in F. rewrite (transmute_id be (vb t) (vn t)) by exact F. rewrite E in *. now split.
  - rewrite H2 in Hv, Hw. destruct (split2 _ _ _ Hv) as (p & q & -> & Hp & Hq).
    destruct (split2 _ _ _ Hw) as (p' & q' & -> & Hp' & Hq').
    rewrite !union_parts_2 by auto. cbn [nth].
    destruct (wrapped2_map X S W be g h p p') as [Ep Fp]; [congruence|auto|now rewrite H|now rewrite H|].
    destruct (wrapped2_map X S W be g h q q') as [Eq Fq]; [congruence|auto|now rewrite H|now rewrite H|].
    rewrite map2_app' by (rewrite (proj1 Hp); symmetry; apply Hp'). rewrite <- Ep, <- Eq. rewrite H in Fp, Fq.
    assert (wf (vb t) (vn t) (wrapped2 X be g h p p' ++ wrapped2 X be g h q q')) as R
      by (rewrite H2; now apply wf_app).
    split; [|exact R]. rewrite union_vec_concat; cbn [concat]; rewrite ?app_nil_r; auto.
  - rewrite H2 in Hv, Hw. destruct (split2 _ _ _ Hv) as (pq & rs & -> & Hpq & Hrs).
    destruct (split2 _ _ _ Hpq) as (p & q & -> & Hp & Hq).
    destruct (split2 _ _ _ Hrs) as (r & s & -> & Hr & Hs).
    destruct (split2 _ _ _ Hw) as (pq' & rs' & -> & Hpq' & Hrs').
    destruct (split2 _ _ _ Hpq') as (p' & q' & -> & Hp' & Hq').
    destruct (split2 _ _ _ Hrs') as (r' & s' & -> & Hr' & Hs').
    rewrite !union_parts_4 by auto. cbn [nth].
    destruct (wrapped2_map X S W be g h p p') as [Ep Fp]; [congruence|auto|now rewrite H|now rewrite H|].
    destruct (wrapped2_map X S W be g h q q') as [Eq Fq]; [congruence|auto|now rewrite H|now rewrite H|].
    destruct (wrapped2_map X S W be g h r r') as [Er Fr]; [congruence|auto|now rewrite H|now rewrite H|].
    destruct (wrapped2_map X S W be g h s s') as [Es Fs]; [congruence|auto|now rewrite H|now rewrite H|].
    rewrite (map2_app' _ (p ++ q)) by (rewrite (proj1 Hpq); symmetry; apply Hpq').
    rewrite (map2_app' _ p) by (rewrite (proj1 Hp); symmetry; apply Hp').
    rewrite (map2_app' _ r) by (rewrite (proj1 Hr); symmetry; apply Hr').
    rewrite <- Ep, <- Eq, <- Er, <- Es. rewrite H in Fp, Fq, Fr, Fs.
    assert (wf (vb t) (vn t) ((wrapped2 X be g h p p' ++ wrapped2 X be g h q q') ++
                              (wrapped2 X be g h r r' ++ wrapped2 X be g h s s'))) as R
      by (rewrite H2; apply wf_app; now apply wf_app).
    split; [|exact R]. rewrite union_vec_concat; cbn [concat]; rewrite ?app_nil_r, <- ?app_assoc in *; auto.
  - rewrite !union_twice_app by auto.
    destruct (wrapped2_map X S W be g h (v ++ junk) (w ++ junk')) as [E F];
      [congruence|auto|rewrite H, H2; now apply wf_app|rewrite H, H2; now apply wf_app|].
    rewrite E in *. rewrite map2_app' in * by (rewrite (proj1 Hv); symmetry; apply Hw). rewrite H, H2 in F.
    assert (wf (vb t) (vn t) (map2 (l2 S g) v w) /\ wf (vb t) (vn t) (map2 (l2 S g) junk junk')) as [R R'].
    { destruct F as [_ F]. apply Forall_app in F as [F F'].
      split; (split; [apply map2_length_eq; first [apply Hv|apply Hw|apply Hj|apply Hj']|auto]). }
    split; [|exact R]. f_equal. now apply union_elem_app.
Qed.

Lemma tertiary_lanes t i f junk junk' junk'' u v w :
  fits t i = true -> entry_ext i = Some f -> x_lib f <> Core -> (forall g, i <> IGen g) ->
  (forall a b g, i <> IScalar a b g) ->
  wf (vb t) (vn t) u -> wf (vb t) (vn t) v -> wf (vb t) (vn t) w ->
  wf (vb t) (vn t) junk -> wf (vb t) (vn t) junk' -> wf (vb t) (vn t) junk'' ->
  tertiary X be junk junk' junk'' i t u v w = Some (map3 (l3 S f) u v w) /\
  wf (vb t) (vn t) (map3 (l3 S f) u v w).
Proof.
  intros Fi E NC NG NS Hu Hv Hw Hj Hj' Hj''.
  assert (forall g, entry_ext i = Some (scalar_ext g) -> scalar_ext g = g) as SE.
  { intros g Eg. rewrite E in Eg. injection Eg as ->. unfold scalar_ext in *.
    destruct (x_lib g) eqn:Lg; auto. cbn in NC. congruence. }
  destruct i as [g|g|sb sn g|h g|h g|h g| |]; cbn [fits entry_ext tertiary] in *;
    try discriminate; sizes; try (rewrite (SE g eq_refl) in E); injection E as <-; clear SE NC.
  - destruct (wrapped3_map X S W be g t u v w) as [E F]; auto. rewrite <- E in *. now split.
  - now contradiction (NG g).
  - now contradiction (NS sb sn g).
  - rewrite H2 in Hu, Hv, Hw. destruct (split2 _ _ _ Hu) as (o & o' & -> & Ho & Ho').
    destruct (split2 _ _ _ Hv) as (p & q & -> & Hp & Hq).
    destruct (split2 _ _ _ Hw) as (p' & q' & -> & Hp' & Hq').
    rewrite !union_parts_2 by auto. cbn [nth].
    destruct (wrapped3_map X S W be g h o p p') as [Ep Fp]; [congruence|auto|now rewrite H|now rewrite H|now rewrite H|].
    destruct (wrapped3_map X S W be g h o' q q') as [Eq Fq]; [congruence|auto|now rewrite H|now rewrite H|now rewrite H|].
    rewrite map3_app by (rewrite (proj1 Ho); symmetry; first [apply Hp|apply Hp']).
    rewrite <- Ep, <- Eq. rewrite H in Fp, Fq.
    assert (wf (vb t) (vn t) (wrapped3 X be g h o p p' ++ wrapped3 X be g h o' q q')) as R
      by (rewrite H2; now apply wf_app).
    split; [|exact R]. rewrite union_vec_concat; cbn [concat]; rewrite ?app_nil_r; auto.
  - rewrite H2 in Hu, Hv, Hw.
    destruct (split2 _ _ _ Hu) as (mn & oo & -> & Hmn & Hoo).
    destruct (split2 _ _ _ Hmn) as (m & n & -> & Hm & Hn).
    destruct (split2 _ _ _ Hoo) as (o & o' & -> & Ho & Ho').
    destruct (split2 _ _ _ Hv) as (pq & rs & -> & Hpq & Hrs).
    destruct (split2 _ _ _ Hpq) as (p & q & -> & Hp & Hq).
    destruct (split2 _ _ _ Hrs) as (r & s & -> & Hr & Hs).
    destruct (split2 _ _ _ Hw) as (pq' & rs' & -> & Hpq' & Hrs').
    destruct (split2 _ _ _ Hpq') as (p' & q' & -> & Hp' & Hq').
    destruct (split2 _ _ _ Hrs') as (r' & s' & -> & Hr' & Hs').
    rewrite !union_parts_4 by auto. cbn [nth].
    destruct (wrapped3_map X S W be g h m p p') as [Ep Fp]; [congruence|auto|now rewrite H|now rewrite H|now rewrite H|].
    destruct (wrapped3_map X S W be g h n q q') as [Eq Fq]; [congruence|auto|now rewrite H|now rewrite H|now rewrite H|].
    destruct (wrapped3_map X S W be g h o r r') as [Er Fr]; [congruence|auto|now rewrite H|now rewrite H|now rewrite H|].
    destruct (wrapped3_map X S W be g h o' s s') as [Es Fs]; [congruence|auto|now rewrite H|now rewrite H|now rewrite H|].
    rewrite (map3_app _ (m ++ n)) by (rewrite (proj1 Hmn); symmetry; first [apply Hpq|apply Hpq']).
    rewrite (map3_app _ m) by (rewrite (proj1 Hm); symmetry; first [apply Hp|apply Hp']).
    rewrite (map3_app _ o) by (rewrite (proj1 Ho); symmetry; first [apply Hr|apply Hr']).
    rewrite <- Ep, <- Eq, <- Er, <- Es. rewrite H in Fp, Fq, Fr, Fs.
    assert (wf (vb t) (vn t) ((wrapped3 X be g h m p p' ++ wrapped3 X be g h n q q') ++
                              (wrapped3 X be g h o r r' ++ wrapped3 X be g h o' s s'))) as R
      by (rewrite H2; apply wf_app; now apply wf_app).
    split; [|exact R]. rewrite union_vec_concat; cbn [concat]; rewrite ?app_nil_r, <- ?app_assoc in *; auto.
  - rewrite !union_twice_app by auto.
    destruct (wrapped3_map X S W be g h (u ++ junk) (v ++ junk') (w ++ junk'')) as [E F];
      [congruence|auto|rewrite H, H2; now apply wf_app|rewrite H, H2; now apply wf_app|rewrite H, H2; now apply wf_app|].
    rewrite E in *. rewrite map3_app in * by (rewrite (proj1 Hu); symmetry; first [apply Hv|apply Hw]). rewrite H, H2 in F.
    assert (wf (vb t) (vn t) (map3 (l3 S g) u v w) /\ wf (vb t) (vn t) (map3 (l3 S g) junk junk' junk'')) as [R R'].
    { destruct F as [_ F]. apply Forall_app in F as [F F'].
      split; (split; [apply map3_length; first [apply Hu|apply Hv|apply Hw|apply Hj|apply Hj'|apply Hj'']|auto]). }
    split; [|exact R]. f_equal. now apply union_elem_app.
Qed.

(** A sincos entry, the doubled-up one excepted. *)
Lemma pair_lanes t i f (v junk junk' : vec) tg :
  lookup (sin_cos_pi_table tg) t = Some i -> t_big_endian tg = be ->
  fits t i = true -> entry_ext i = Some f -> x_lib f = SLEEF -> (forall g, i <> IGen g) ->
  (forall a b g, i <> IScalar a b g) -> (forall h g, i <> ITwice h g) -> wf (vb t) (vn t) v ->
  sin_cos_pi X tg junk junk' t v = Some (map (lsin S f) v, map (lcos S f) v) /\
  wf (vb t) (vn t) (map (lsin S f) v) /\ wf (vb t) (vn t) (map (lcos S f) v).
Proof.
  intros Lk EB Fi E NC NG NS NT Hv. unfold sin_cos_pi. rewrite Lk, EB. clear Lk EB.
  assert (forall g, entry_ext i = Some (scalar_ext g) -> scalar_ext g = g) as SE.
  { intros g Eg. rewrite E in Eg. injection Eg as ->. unfold scalar_ext in *.
    destruct (x_lib g) eqn:Lg; auto. cbn in NC. congruence. }
  destruct i as [g|g|sb sn g|h g|h g|h g| |]; cbn [fits entry_ext] in *;
    try discriminate; sizes; try (rewrite (SE g eq_refl) in E); injection E as <-; clear SE NC.
  - destruct (wrapped_p_map X S W be g t v) as (E & F & F'); auto. rewrite E. auto.
  - now contradiction (NG g).
  - now contradiction (NS sb sn g).
  - rewrite H2 in Hv. destruct (split2 _ _ _ Hv) as (p & q & -> & Hp & Hq).
    rewrite union_parts_2 by auto. cbn [nth].
    destruct (wrapped_p_map X S W be g h p) as (Ep & Fp & Gp); [congruence|auto|now rewrite H|].
    destruct (wrapped_p_map X S W be g h q) as (Eq & Fq & Gq); [congruence|auto|now rewrite H|].
    rewrite Ep, Eq. cbn [fst snd]. rewrite H in *. rewrite !map_app.
    assert (wf (vb t) (vn t) (map (lsin S g) p ++ map (lsin S g) q)) as R by (rewrite H2; now apply wf_app).
    assert (wf (vb t) (vn t) (map (lcos S g) p ++ map (lcos S g) q)) as R' by (rewrite H2; now apply wf_app).
    rewrite !union_vec_concat; cbn [concat]; rewrite ?app_nil_r; auto.
  - rewrite H2 in Hv. destruct (split2 _ _ _ Hv) as (pq & rs & -> & Hpq & Hrs).
    destruct (split2 _ _ _ Hpq) as (p & q & -> & Hp & Hq).
    destruct (split2 _ _ _ Hrs) as (r & s & -> & Hr & Hs).
    rewrite union_parts_4 by auto. cbn [nth].
    destruct (wrapped_p_map X S W be g h p) as (Ep & Fp & Gp); [congruence|auto|now rewrite H|].
    destruct (wrapped_p_map X S W be g h q) as (Eq & Fq & Gq); [congruence|auto|now rewrite H|].
    destruct (wrapped_p_map X S W be g h r) as (Er & Fr & Gr); [congruence|auto|now rewrite H|].
    destruct (wrapped_p_map X S W be g h s) as (Es & Fs & Gs); [congruence|auto|now rewrite H|].
    rewrite Ep, Eq, Er, Es. cbn [fst snd]. rewrite H in *. rewrite !map_app.
    assert (forall k, wf (vb t) (vn h) (map k p) -> wf (vb t) (vn h) (map k q) ->
              wf (vb t) (vn h) (map k r) -> wf (vb t) (vn h) (map k s) ->
              wf (vb t) (vn t) ((map k p ++ map k q) ++ (map k r ++ map k s))) as R
      by (intros; rewrite H2; apply wf_app; now apply wf_app).
    pose proof (R _ Fp Fq Fr Fs) as R1. pose proof (R _ Gp Gq Gr Gs) as R2.
    split; [|split; assumption].
    rewrite !union_vec_concat; cbn [concat]; rewrite ?app_nil_r, <- ?app_assoc in *; auto.
  - now contradiction (NT h g).
Qed.

(** The doubled-up entry: both results come from the sine. *)
Lemma pair_twice t h f (v junk junk' : vec) tg :
  lookup (sin_cos_pi_table tg) t = Some (ITwice h f) -> t_big_endian tg = be ->
  fits t (ITwice h f) = true -> wf (vb t) (vn t) v -> wf (vb t) (vn t) junk ->
  sin_cos_pi X tg junk junk' t v = Some (map (lsin S f) v, map (lsin S f) junk) /\
  wf (vb t) (vn t) (map (lsin S f) v) /\ wf (vb t) (vn t) (map (lsin S f) junk).
Proof.
  intros Lk EB Fi Hv Hj. unfold sin_cos_pi. rewrite Lk, EB. cbn [fits] in Fi. sizes.
  rewrite union_twice_app by auto.
  destruct (wrapped_p_map X S W be f h (v ++ junk)) as (E & F & _);
    [congruence|auto|rewrite H, H2; now apply wf_app|].
  rewrite E. cbn [fst snd]. rewrite map_app in *. rewrite H, H2 in F.
  assert (wf (vb t) (vn t) (map (lsin S f) v) /\ wf (vb t) (vn t) (map (lsin S f) junk)) as [R R'].
  { destruct F as [_ F]. apply Forall_app in F as [F F'].
    split; (split; [rewrite map_length; first [apply Hv|apply Hj]|auto]). }
  destruct (union_elem_app be t h _ _ H R R') as [-> ->]. auto.
Qed.
End Wrappers.
