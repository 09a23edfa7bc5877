(** The nearest intersection, for single rays and packets. *)
From Coq Require Import ZArith List Bool Lia Reals Lra.
From Flocq Require Import Core.
From Verif.Model Require Import Base FloatLane Llvm Tables MathTables Math Minimal MaskReduce Ops Cmp Float ExStencil ExRandom ExGeometry ExIntersect.
From Verif.Spec Require Import Spec Floats MathSpec Stencil Rays.
From Verif.Proofs Require Import Lib MinimalP OpsP2 MaskReduceP FloatP FloatOpsP FloatVecP FloatApiP FloatConstsP MathApiP MathLlvmP ExMandelbrotP ExPacketP ExIntersectP ExIntersectMainP.
Import ListNotations.
Open Scope Z_scope.
Local Notation pat := (pattern 4).
Local Notation dat := f32_datum.

Local Opaque fl_add fl_sub fl_mul fl_div fl_sqrt fl_lt fl_gt fl_ge fl_abs f32_neg.

(** *** One ray *)
Lemma scale_ok s a : pat s -> pat3 a -> pat3 (scale_v3 s a) /\ times (dat s) (point_of a) (point_of (scale_v3 s a)).
Proof.
  intros S (A1 & A2 & A3). unfold scale_v3, v3_scale, times, each1, point_of. cbn [vx vy vz]. split.
  - split; [|split]; cbn [vx vy vz]; apply p_mul; assumption.
  - split; [|split]; apply ieee_mul_comm; apply d_mul; assumption.
Qed.
Lemma neg_ok p : pat p -> pat (f32_neg p) /\ dat (f32_neg p) = negated (dat p).
Proof. intros P. split; [now apply p_neg|now apply d_neg]. Qed.

Lemma lt_not_ge p q : pat p -> pat q -> fl_lt 4 p q = true -> fl_ge 4 p q = false.
Proof.
  intros P Q H. apply d_lt in H; [|assumption|assumption]. destruct (fl_ge 4 p q) eqn:G; [|reflexivity].
  apply d_ge in G; [|assumption|assumption]. exfalso. unfold ieee_le in G.
  destruct (dat p) as [|[]|], (dat q) as [|[]|]; cbn [ieee_lt ieee_eq] in H, G; try tauto; try (destruct G; congruence); lra.
Qed.
Lemma nan_or_ge p q : pat p -> pat q -> dat q <> NaN -> fl_lt 4 p q = false -> dat p = NaN \/ fl_ge 4 p q = true.
Proof.
  intros P Q N H. assert (L : ~ ieee_lt (dat p) (dat q)) by (rewrite <- d_lt by assumption; congruence).
  rewrite (d_ge p q P Q). unfold ieee_le.
  destruct (dat p) as [|[]|s u], (dat q) as [|[]|s' u']; cbn [ieee_lt ieee_eq] in *; auto; try tauto.
  right. destruct (Rle_lt_or_eq_dec u' u); [lra|left; assumption|right; assumption].
Qed.

Theorem plane_scalar r pl i : is_ray r -> is_plane pl -> is_isect i ->
  intersected left_to_right rounded_twice r (APlane pl) i (intersect_plane r pl i) /\ is_isect (intersect_plane r pl i).
Proof.
  intros (PO & PD) (PP & PN) (PT & PI & PI').
  set (v := dot (r_dir r) (p_n pl)). set (w := dot (r_origin r) (p_n pl)).
  set (t := fl_div 4 (f32_neg (fl_add 4 w (f32_neg (dot (p_p pl) (p_n pl))))) v).
  set (new := Isect t (v3_add (r_origin r) (scale_v3 t (r_dir r))) (p_n pl) true).
  assert (V1 : pat v) by (apply ldot_scalar; assumption). assert (W1 : pat w) by (apply ldot_scalar; assumption).
  assert (K1 : pat (dot (p_p pl) (p_n pl))) by (apply ldot_scalar; assumption).
  assert (T1 : pat t) by (unfold t; auto with pats).
  destruct (abs_pat v V1) as [A1 A2].
  set (c := fl_ge 4 (fl_abs 4 v) f32_1em17 && fl_gt 4 t f32_0).
  assert (E : intersect_plane r pl i = if c && fl_lt 4 t (i_t i) then new else i).
  { unfold intersect_plane. fold v w. cbv zeta. fold t. fold new. unfold c.
    destruct (fl_lt 4 (fl_abs 4 v) f32_1em17) eqn:L.
    - rewrite (lt_not_ge _ _ A1 p_tiny L). reflexivity.
    - destruct (nan_or_ge _ _ A1 p_tiny) as [N|G].
      + rewrite d_tiny. unfold tiny. discriminate.
      + exact L.
      + assert (G : fl_gt 4 t f32_0 = false).
        { destruct (fl_gt 4 t f32_0) eqn:G; [|reflexivity]. apply d_gt in G; [|exact T1|exact p_0]. exfalso.
          assert (Nt : dat t = NaN).
          { pose proof (d_div _ v (p_neg _ (p_add _ _ W1 (p_neg _ K1))) V1) as H. fold t in H.
            rewrite A2 in N. destruct (dat v) as [|z|z u]; [|discriminate N|discriminate N].
            revert H. generalize (dat (f32_neg (fl_add 4 w (f32_neg (dot (p_p pl) (p_n pl)))))) (dat t). intros [] y H; exact H. }
          rewrite Nt in G. destruct (dat f32_0) as [|[]|]; exact G. }
        rewrite G, andb_false_r. reflexivity.
      + rewrite G. cbn [andb]. reflexivity. }
  split.
  - refine (plane_intersected left_to_right rounded_twice dot scale_v3 ldot_scalar scale_ok r pl i _ f32_neg v w t new c
      neg_ok PO PD PP PN PT eq_refl eq_refl eq_refl _ eq_refl E).
    unfold c. rewrite andb_true_iff. reflexivity.
  - rewrite E. match goal with |- context [if ?e then _ else _] => destruct e end; [|exact (conj PT (conj PI PI'))].
    split; [exact T1|]. split; [|exact PN]. apply p3_add; [exact PO|apply scale_ok; assumption].
Qed.

Theorem sphere_scalar r s i : is_ray r -> is_sphere s -> is_isect i ->
  intersected left_to_right rounded_twice r (ASphere s) i (intersect_sphere r s i) /\ is_isect (intersect_sphere r s i).
Proof.
  intros (PO & PD) (PC & PR) (PT & PI & PI').
  set (rs := v3_sub (r_origin r) (s_center s)). assert (PS : pat3 rs) by (apply p3_sub; assumption).
  set (b := dot rs (r_dir r)). assert (B1 : pat b) by (apply ldot_scalar; assumption).
  set (rr := dot rs rs). assert (R1 : pat rr) by (apply ldot_scalar; assumption).
  set (c := fl_sub 4 rr (fl_mul 4 (s_radius s) (s_radius s))). assert (C1 : pat c) by (unfold c; auto with pats).
  set (d := fl_sub 4 (fl_mul 4 b b) c). assert (D1 : pat d) by (unfold d; auto with pats).
  set (t := fl_sub 4 (f32_neg b) (fl_sqrt 4 d)). assert (T1 : pat t) by (unfold t; auto with pats).
  set (p := v3_add (r_origin r) (scale_v3 t (r_dir r))).
  assert (P1 : pat3 p) by (apply p3_add; [exact PO|apply scale_ok; assumption]).
  set (h := fl_gt 4 d f32_0 && fl_gt 4 t f32_0).
  assert (E : intersect_sphere r s i = if h && fl_lt 4 t (i_t i) then Isect t p (normalized (v3_sub p (s_center s))) true else i).
  { unfold intersect_sphere. cbv zeta. fold rs b rr. fold c. fold d. fold t. fold p. unfold h. destruct (fl_gt 4 d f32_0); cbn [andb]; reflexivity. }
  split.
  - refine (sphere_intersected left_to_right rounded_twice dot scale_v3 ldot_scalar scale_ok r s i _ b rr (dat c) d (dat (fl_sqrt 4 d)) t
      _ h PO PD PC PT eq_refl eq_refl _ _ D1 _ _ T1 _ _ E).
    + exists (negated (dat (fl_mul 4 (s_radius s) (s_radius s)))). split; [apply ieee_mul_neg; apply d_mul; assumption|].
      apply ieee_add_comm. apply d_sub; auto with pats.
    + exists (dat (fl_mul 4 b b)). split; [apply d_mul; assumption|]. apply d_sub; auto with pats.
    + apply d_sqrt; assumption.
    + rewrite <- d_neg by assumption. apply d_sub; auto with pats.
    + unfold h. rewrite andb_true_iff. reflexivity.
    + reflexivity.
  - rewrite E. match goal with |- context [if ?e then _ else _] => destruct e end; [|exact (conj PT (conj PI PI'))].
    split; [exact T1|]. split; [exact P1|].
    apply (nrm_ok left_to_right dot scale_v3 ldot_scalar scale_ok). apply p3_sub; assumption.
Qed.

(** *** A lane of a packet *)
Section Lane.
  Variables (wide : bool) (X : externals) (tg : target) (junk : vec) (mad : mul_adder).
  Variables (M : Z -> Z -> Z -> Z) (Q : Z -> Z).
  Hypothesis HO : lane_ops wide X tg junk mad M Q.

  Lemma HM p q s : pat p -> pat q -> pat s -> pat (M p q s) /\ mad (dat p) (dat q) (dat s) (dat (M p q s)).
  Proof. destruct HO as (_ & _ & _ & H & _). apply H. Qed.
  Lemma HQ p : pat p -> pat (Q p) /\ ieee_sqrt 4 (dat p) (dat (Q p)).
  Proof. destruct HO as (_ & _ & _ & _ & H). apply H. Qed.
  Lemma lane_dot a b : pat3 a -> pat3 b -> pat (ldot M a b) /\ nested mad (point_of a) (point_of b) (dat (ldot M a b)).
  Proof.
    intros (A1 & A2 & A3) (B1 & B2 & B3). unfold ldot, nested, point_of.
    assert (Z1 : pat (fl_mul 4 (vz a) (vz b))) by auto with pats.
    destruct (HM _ _ _ A2 B2 Z1) as [Y1 Y2]. destruct (HM _ _ _ A1 B1 Y1) as [X1 X2].
    split; [exact X1|]. eexists _, _. split; [apply d_mul; assumption|]. split; [exact Y2|exact X2].
  Qed.
  Lemma lane_scale s a : pat s -> pat3 a -> pat3 (lscale s a) /\ times (dat s) (point_of a) (point_of (lscale s a)).
  Proof.
    intros S A. split; [now apply p3_scale|]. destruct A as (A1 & A2 & A3). unfold lscale, times, each1, point_of. cbn [vx vy vz].
    auto using d_mul.
  Qed.
  Lemma lneg_ok p : pat p -> pat (lneg p) /\ dat (lneg p) = negated (dat p).
  Proof. intros P. split; [now apply p_lneg|now apply d_lneg]. Qed.

  Lemma lane_plane r pl i : is_ray r -> is_plane pl -> is_isect i ->
    intersected (nested mad) mad r (APlane pl) i (lplane M r pl i) /\ is_isect (lplane M r pl i).
  Proof.
    intros (PO & PD) (PP & PN) (PT & PI & PI').
    set (v := ldot M (r_dir r) (p_n pl)). set (w := ldot M (r_origin r) (p_n pl)).
    set (t := fl_div 4 (lneg (fl_add 4 w (f32_neg (dot (p_p pl) (p_n pl))))) v).
    set (new := Isect t (v3_add (r_origin r) (lscale t (r_dir r))) (p_n pl) true).
    assert (V1 : pat v) by (apply lane_dot; assumption). assert (W1 : pat w) by (apply lane_dot; assumption).
    assert (K1 : pat (dot (p_p pl) (p_n pl))) by (apply ldot_scalar; assumption).
    assert (T1 : pat t) by (unfold t; auto with pats).
    set (c := fl_ge 4 (fl_abs 4 v) f32_1em17 && fl_gt 4 t f32_0).
    assert (E : lplane M r pl i = if c && fl_lt 4 t (i_t i) then new else i) by reflexivity.
    split.
    - refine (plane_intersected (nested mad) mad (ldot M) lscale lane_dot lane_scale r pl i _ lneg v w t new c
        lneg_ok PO PD PP PN PT eq_refl eq_refl eq_refl _ eq_refl E).
      unfold c. rewrite andb_true_iff. reflexivity.
    - rewrite E. match goal with |- context [if ?e then _ else _] => destruct e end; [|exact (conj PT (conj PI PI'))].
      split; [exact T1|]. split; [|exact PN]. apply p3_add; [exact PO|apply p3_scale; assumption].
  Qed.

  Lemma lane_sphere r s i : is_ray r -> is_sphere s -> is_isect i ->
    intersected (nested mad) mad r (ASphere s) i (lsphere M Q r s i) /\ is_isect (lsphere M Q r s i).
  Proof.
    intros (PO & PD) (PC & PR) (PT & PI & PI').
    set (rs := v3_sub (r_origin r) (s_center s)). assert (PS : pat3 rs) by (apply p3_sub; assumption).
    set (b := ldot M rs (r_dir r)). assert (B1 : pat b) by (apply lane_dot; assumption).
    set (rr := ldot M rs rs). assert (R1 : pat rr) by (apply lane_dot; assumption).
    set (c := M (s_radius s) (lneg (s_radius s)) rr).
    destruct (HM (s_radius s) (lneg (s_radius s)) rr PR (p_lneg _ PR) R1) as [C1 C2]. fold c in C1, C2.
    set (d := M b b (lneg c)). destruct (HM b b (lneg c) B1 B1 (p_lneg _ C1)) as [D1 D2]. fold d in D1, D2.
    destruct (HQ d D1) as [Q1 Q2].
    set (t := fl_sub 4 (lneg b) (Q d)). assert (T1 : pat t) by (unfold t; auto with pats).
    set (p := v3_add (r_origin r) (lscale t (r_dir r))).
    assert (P1 : pat3 p) by (apply p3_add; [exact PO|apply p3_scale; assumption]).
    set (h := fl_gt 4 d f32_0 && fl_gt 4 t f32_0).
    assert (E : lsphere M Q r s i = if h && fl_lt 4 t (i_t i) then Isect t p (lnormalized M (v3_sub p (s_center s))) true else i)
      by reflexivity.
    split.
    - refine (sphere_intersected (nested mad) mad (ldot M) lscale lane_dot lane_scale r s i _ b rr (dat c) d (dat (Q d)) t
        _ h PO PD PC PT eq_refl eq_refl _ _ D1 Q2 _ T1 _ _ E).
      + rewrite <- d_lneg by assumption. exact C2.
      + rewrite <- d_lneg by assumption. exact D2.
      + rewrite <- d_lneg by assumption. apply d_sub; auto with pats.
      + unfold h. rewrite andb_true_iff. reflexivity.
      + reflexivity.
    - rewrite E. match goal with |- context [if ?e then _ else _] => destruct e end; [|exact (conj PT (conj PI PI'))].
      split; [exact T1|]. split; [exact P1|].
      apply (nrm_ok (nested mad) (ldot M) lscale lane_dot lane_scale). apply p3_sub; assumption.
  Qed.
End Lane.

(** *** The nearest of several objects *)
Lemma lt_irrefl x : ~ ieee_lt x x.
Proof. destruct x as [|[]|]; cbn [ieee_lt]; auto. lra. Qed.
Lemma lt_trans x y z : ieee_lt x y -> ieee_lt y z -> ieee_lt x z.
Proof. destruct x as [|[]|], y as [|[]|], z as [|[]|]; cbn [ieee_lt]; intros; try tauto; try congruence; lra. Qed.
Lemma lt_total x y z : x <> NaN -> ~ ieee_lt x z -> ieee_lt y z -> ieee_lt y x.
Proof.
  destruct x as [|[]|], y as [|[]|], z as [|[]|]; cbn [ieee_lt]; intros N H1 H2; try tauto; try congruence; lra.
Qed.

Section Nearest.
  Variables (D : dotter) (mad : mul_adder) (r : ray).
  Inductive chain : list object -> isect -> isect -> Prop :=
  | chain_nil i : chain [] i i
  | chain_cons ob obs i i1 i' : intersected D mad r ob i i1 -> chain obs i1 i' -> chain (ob :: obs) i i'.
  Lemma chain_app a b i i1 i' : chain a i i1 -> chain b i1 i' -> chain (a ++ b) i i'.
  Proof. induction 1; cbn [app]; eauto using chain_cons. Qed.

  Lemma meets_positive ob t : meets D mad r ob (Some t) -> t <> NaN.
  Proof.
    destruct ob; cbn [meets].
    - intros (k & v & w & q & u & _ & _ & _ & _ & _ & [[[_ H] E]|[_ E]]); [|discriminate].
      injection E as ->. now intros ->.
    - intros (rs & b & rr & c & d & e & u & _ & _ & _ & _ & _ & _ & _ & [[[_ H] E]|[_ E]]); [|discriminate].
      injection E as ->. now intros ->.
  Qed.

  Lemma chain_nearest obs i i' : chain obs i i' -> nearest D mad r obs i i'.
  Proof.
    induction 1 as [i|ob obs i i1 i' (res & HM & HR) _ (ts & F & IH)].
    - exists []. split; [constructor|]. left. split; [reflexivity|]. intros t [].
    - exists (res :: ts). split; [constructor; assumption|]. destruct res as [t|].
      + destruct HR as [(L & Ds)|(L & ->)].
        * pose proof (proj1 Ds) as Et. destruct IH as [(-> & Hn)|(k & ob' & t' & O & T & L' & Ds' & Hn)].
          -- right. exists 0%nat, ob, t. split; [reflexivity|]. split; [reflexivity|]. split; [exact L|]. split; [exact Ds|].
             intros [|j] u Hu; cbn [nth_error] in Hu.
             ++ assert (u = t) as -> by congruence. split; [apply lt_irrefl|lia].
             ++ split; [|lia]. apply nth_error_In in Hu. apply Hn in Hu. rewrite Et in Hu. exact Hu.
          -- right. rewrite Et in L'. exists (S k), ob', t'. split; [exact O|]. split; [exact T|].
             split; [exact (lt_trans _ _ _ L' L)|]. split; [exact Ds'|].
             intros [|j] u Hu; cbn [nth_error] in Hu.
             ++ assert (u = t) as -> by congruence. split; [|intros _; exact L'].
                intros H. apply (lt_irrefl t). exact (lt_trans _ _ _ H L').
             ++ destruct (Hn j u Hu) as [H1 H2]. split; [exact H1|]. intros Hj. apply H2. lia.
        * destruct IH as [(-> & Hn)|(k & ob' & t' & O & T & L' & Ds' & Hn)].
          -- left. split; [reflexivity|]. intros u [Hu|Hu]; [|auto]. now assert (u = t) as -> by congruence.
          -- right. exists (S k), ob', t'. split; [exact O|]. split; [exact T|]. split; [exact L'|]. split; [exact Ds'|].
             intros [|j] u Hu; cbn [nth_error] in Hu.
             ++ assert (u = t) as -> by congruence. split.
                ** intros H. apply L. exact (lt_trans _ _ _ H L').
                ** intros _. exact (lt_total _ _ _ (meets_positive _ _ HM) L L').
             ++ destruct (Hn j u Hu) as [H1 H2]. split; [exact H1|]. intros Hj. apply H2. lia.
      + subst i1. destruct IH as [(-> & Hn)|(k & ob' & t' & O & T & L' & Ds' & Hn)].
        * left. split; [reflexivity|]. intros u [Hu|Hu]; [discriminate|auto].
        * right. exists (S k), ob', t'. split; [exact O|]. split; [exact T|]. split; [exact L'|]. split; [exact Ds'|].
          intros [|j] u Hu; cbn [nth_error] in Hu; [discriminate|].
          destruct (Hn j u Hu) as [H1 H2]. split; [exact H1|]. intros Hj. apply H2. lia.
  Qed.
End Nearest.

Lemma fold_chain D mad r (step : isect -> sphere -> isect) :
  (forall i s, is_sphere s -> is_isect i -> intersected D mad r (ASphere s) i (step i s) /\ is_isect (step i s)) ->
  forall spheres i, Forall is_sphere spheres -> is_isect i ->
    chain D mad r (map ASphere spheres) i (fold_left step spheres i) /\ is_isect (fold_left step spheres i).
Proof.
  intros H spheres i HS. revert i. induction HS as [|s l Hs _ IH]; intros i HI; cbn [map fold_left]; [split; [constructor|exact HI]|].
  destruct (H i s Hs HI) as [A B]. destruct (IH _ B) as [A' B']. split; [|exact B'].
  econstructor; eassumption.
Qed.
Lemma scene_chain D mad r (step : isect -> sphere -> isect) (last : isect -> isect) pl :
  (forall i s, is_sphere s -> is_isect i -> intersected D mad r (ASphere s) i (step i s) /\ is_isect (step i s)) ->
  (forall i, is_isect i -> intersected D mad r (APlane pl) i (last i) /\ is_isect (last i)) ->
  forall spheres i, Forall is_sphere spheres -> is_isect i ->
    nearest D mad r (map ASphere spheres ++ [APlane pl]) i (last (fold_left step spheres i)) /\
    is_isect (last (fold_left step spheres i)).
Proof.
  intros H1 H2 spheres i HS HI. destruct (fold_chain D mad r step H1 spheres i HS HI) as [C1 C2].
  destruct (H2 _ C2) as [A B]. split; [|exact B].
  apply chain_nearest. apply (chain_app _ _ _ _ _ _ _ _ C1). econstructor; [exact A|constructor].
Qed.

Theorem scene_scalar spheres pl r i : is_ray r -> is_plane pl -> Forall is_sphere spheres -> is_isect i ->
  nearest left_to_right rounded_twice r (map ASphere spheres ++ [APlane pl]) i (intersect_scene spheres pl r i) /\
  is_isect (intersect_scene spheres pl r i).
Proof.
  intros HR HP HS HI.
  exact (scene_chain left_to_right rounded_twice r (fun i s => intersect_sphere r s i) (intersect_plane r pl) pl
    (fun i s Hs => sphere_scalar r s i HR Hs) (fun i => plane_scalar r pl i HR HP) spheres i HS HI).
Qed.

(** *** Packets *)
Section Decode.
  Variable wide : bool.
  Local Notation n := (vn (f32xN wide)).
  Definition Ls : list nat := seq 0 n.
  Lemma Ls_len : length Ls = vn (f32xN wide).
  Proof. apply seq_length. Qed.
  Lemma Ls_lane v : length v = n -> v = map (fun k => nth k v 0) Ls.
  Proof.
    intros H. unfold Ls. rewrite <- H. clear H. induction v as [|a v IH]; [reflexivity|]. cbn [length seq map nth]. f_equal.
    rewrite <- seq_shift, map_map. exact IH.
  Qed.
  Lemma Ls_nth {A} (g : nat -> A) k : (k < n)%nat -> nth_error (map g Ls) k = Some (g k).
  Proof.
    intros H. rewrite nth_error_map. unfold Ls. rewrite (nth_error_nth' (seq 0 n) 0%nat) by now rewrite seq_length.
    rewrite seq_nth by exact H. reflexivity.
  Qed.
  Lemma Ls_In k : In k Ls -> (k < n)%nat.
  Proof. unfold Ls. rewrite in_seq. lia. Qed.
  Definition v3_at (v : v3s) (k : nat) : v3 := V3 (nth k (xs v) 0) (nth k (ys v) 0) (nth k (zs v) 0).
  Definition ray_at (r : rays) (k : nat) : ray := Ray (v3_at (rs_origin r) k) (v3_at (rs_dir r) k).
  Definition isect_at (i : isects) (k : nat) : isect :=
    Isect (nth k (is_t i) 0) (v3_at (is_p i) k) (v3_at (is_n i) k) (truth (nth k (is_hit i) 0)).

  Lemma at_pat v k : is_vector (f32xN wide) v -> (k < n)%nat -> pat (nth k v 0).
  Proof.
    intros [V F] K. rewrite Forall_forall in F. unfold width in F. rewrite f_b in F. apply F. apply nth_In. rewrite V. exact K.
  Qed.
  Lemma v3_at_pat v k : is_v3s wide v -> (k < n)%nat -> pat3 (v3_at v k).
  Proof. intros (A & B & C) K. repeat split; cbn [v3_at vx vy vz]; now apply at_pat. Qed.
  Lemma v3s_at v : is_v3s wide v -> v = v3s_of Ls (v3_at v).
  Proof.
    intros ((A & _) & (B & _) & (C & _)). destruct v as [a b c]. unfold v3s_of. cbn [v3_at vx vy vz xs ys zs] in *.
    f_equal; now apply Ls_lane.
  Qed.
  Lemma rays_at r : is_rays wide r -> r = rays_of Ls (ray_at r).
  Proof.
    intros (A & B). destruct r as [o d]. unfold rays_of. cbn [ray_at r_origin r_dir rs_origin rs_dir] in *.
    f_equal; now apply v3s_at.
  Qed.
  Lemma hit_at h : canonical (m32xN wide) h -> h = map (fun k => mlane 4 (truth (nth k h 0))) Ls.
  Proof.
    intros [V F]. rewrite m_n in V. rewrite (Ls_lane h V) at 1. apply map_ext_in. intros k K. apply Ls_In in K.
    rewrite Forall_forall in F. assert (I : In (nth k h 0) h) by (apply nth_In; rewrite V; exact K).
    destruct (F _ I) as [-> | ->]; [unfold true_lane, width; rewrite m_b|]; reflexivity.
  Qed.
  Lemma isects_at i : is_isects wide i -> i = isects_of Ls (isect_at i).
  Proof.
    intros ((A & _) & B & C & H). destruct i as [t p m h]. unfold isects_of. cbn [isect_at i_t i_p i_n i_hit is_t is_p is_n is_hit] in *.
    f_equal; [now apply Ls_lane|now apply v3s_at|now apply v3s_at|now apply hit_at].
  Qed.

  Lemma lane_eq v k p : length v = n -> lane v k p -> (k < n)%nat /\ p = nth k v 0.
  Proof.
    unfold lane. intros V H. assert (K : (k < length v)%nat) by (apply nth_error_Some; congruence). rewrite V in K.
    split; [exact K|]. symmetry. apply nth_error_nth. exact H.
  Qed.
  Lemma v3_lane_eq v k a : is_v3s wide v -> v3_lane v k a -> (k < n)%nat /\ a = v3_at v k.
  Proof.
    intros ((A & _) & (B & _) & (C & _)) (L1 & L2 & L3). destruct a as [x y z]. cbn [vx vy vz] in *.
    apply lane_eq in L1 as [K ->]; [|exact A]. apply lane_eq in L2 as [_ ->]; [|exact B]. apply lane_eq in L3 as [_ ->]; [|exact C].
    auto.
  Qed.
  Lemma ray_lane_eq r k a : is_rays wide r -> ray_lane r k a -> (k < n)%nat /\ a = ray_at r k.
  Proof.
    intros (A & B) (L1 & L2). destruct a as [o d]. cbn [r_origin r_dir] in *.
    apply v3_lane_eq in L1 as [K ->]; [|exact A]. apply v3_lane_eq in L2 as [_ ->]; [|exact B]. auto.
  Qed.
  Lemma isect_lane_eq i k b : is_isects wide i -> isect_lane i k b -> (k < n)%nat /\ b = isect_at i k.
  Proof.
    intros ((A & _) & B & C & (H & _)) (L1 & L2 & L3 & h & L4 & L5). destruct b as [t p m u]. cbn [i_t i_p i_n i_hit] in *.
    rewrite m_n in H.
    apply lane_eq in L1 as [K ->]; [|exact A]. apply v3_lane_eq in L2 as [_ ->]; [|exact B]. apply v3_lane_eq in L3 as [_ ->]; [|exact C].
    apply lane_eq in L4 as [_ ->]; [|exact H]. subst u. auto.
  Qed.
  Lemma of_v3_lane g k : (k < n)%nat -> v3_lane (v3s_of Ls g) k (g k).
  Proof. intros K. unfold v3_lane, v3s_of, lane. cbn [xs ys zs]. repeat split; apply (Ls_nth (fun k => _ (g k))); exact K. Qed.
  Lemma of_isect_lane g k : (k < n)%nat -> isect_lane (isects_of Ls g) k (g k).
  Proof.
    intros K. unfold isect_lane, isects_of. cbn [is_t is_p is_n is_hit].
    split; [apply (Ls_nth (fun k => i_t (g k))); exact K|]. split; [apply (of_v3_lane (fun k => i_p (g k))); exact K|].
    split; [apply (of_v3_lane (fun k => i_n (g k))); exact K|].
    exists (mlane 4 (i_hit (g k))). split; [apply (Ls_nth (fun k => mlane 4 (i_hit (g k)))); exact K|].
    rewrite truth_mlane by lia. reflexivity.
  Qed.
  Lemma of_v3s g : (forall k, In k Ls -> pat3 (g k)) -> is_v3s wide (v3s_of Ls g).
  Proof. intros H. unfold is_v3s, v3s_of. cbn [xs ys zs]. repeat split; try now rewrite map_length, Ls_len.
    all: apply vector_map; [exact Ls_len|]; intros k K; apply H; exact K.
  Qed.
  Lemma of_isects g : (forall k, In k Ls -> is_isect (g k)) -> is_isects wide (isects_of Ls g).
  Proof.
    intros H. unfold is_isects, isects_of. cbn [is_t is_p is_n is_hit].
    split; [apply vector_map; [exact Ls_len|]; intros k K; apply H; exact K|].
    split; [apply of_v3s; intros k K; apply H; exact K|]. split; [apply of_v3s; intros k K; apply H; exact K|].
    split; [now rewrite map_length, m_n, Ls_len|]. apply Forall_forall. intros p Hp. apply in_map_iff in Hp as (k & <- & _).
    unfold mlane, true_lane, width. rewrite m_b. destruct (i_hit (g k)); [left|right]; reflexivity.
  Qed.
  Lemma ray_at_ok r k : is_rays wide r -> (k < n)%nat -> is_ray (ray_at r k).
  Proof. intros (A & B) K. split; cbn [ray_at r_origin r_dir]; now apply v3_at_pat. Qed.
  Lemma isect_at_ok i k : is_isects wide i -> (k < n)%nat -> is_isect (isect_at i k).
  Proof. intros (A & B & C & _) K. split; [now apply at_pat|]. split; cbn [isect_at i_p i_n]; now apply v3_at_pat. Qed.
End Decode.

Section Packet.
  Variables (wide : bool) (X : externals) (Sx : lane_functions) (tg : target) (junk : vec) (mad : mul_adder).
  Hypothesis HW : works_lanewise X Sx.
  Hypothesis HF : follows_llvm Sx.
  Hypothesis HS : ~ uses_sleef tg.
  Hypothesis HM : mul_adde_is tg Sx mad.
  Hypothesis HJ : is_vector (f32xN wide) junk.

  Definition lane_related (rel : ray -> isect -> isect -> Prop) (r : rays) (i i' : isects) : Prop :=
    forall k a b, ray_lane r k a -> isect_lane i k b -> exists b', isect_lane i' k b' /\ rel a b b'.

  Lemma lanes_related (rel : ray -> isect -> isect -> Prop) g r i : is_rays wide r -> is_isects wide i ->
    (forall k, In k (Ls wide) -> rel (ray_at r k) (isect_at i k) (g k)) ->
    lane_related rel r i (isects_of (Ls wide) g).
  Proof.
    intros R I H k a b La Lb. apply (ray_lane_eq wide) in La as [K ->]; [|exact R]. apply (isect_lane_eq wide) in Lb as [_ ->]; [|exact I].
    exists (g k). split; [now apply of_isect_lane|]. apply H. unfold Ls. apply in_seq. lia.
  Qed.

  (** The packet in release builds, as a function on lanes. *)
  Lemma packet_fun : exists (fp : plane -> ray -> isect -> isect) (fs : sphere -> ray -> isect -> isect),
    (forall r i pl, is_rays wide r -> is_isects wide i -> is_plane pl ->
       intersects_plane wide false X tg junk r pl i = Ok (isects_of (Ls wide) (fun k => fp pl (ray_at r k) (isect_at i k)))) /\
    (forall r i s, is_rays wide r -> is_isects wide i -> is_sphere s ->
       intersects_sphere wide false X tg junk r s i = Ok (isects_of (Ls wide) (fun k => fs s (ray_at r k) (isect_at i k)))) /\
    (forall pl r i, is_plane pl -> is_ray r -> is_isect i ->
       intersected (nested mad) mad r (APlane pl) i (fp pl r i) /\ is_isect (fp pl r i)) /\
    (forall s r i, is_sphere s -> is_ray r -> is_isect i ->
       intersected (nested mad) mad r (ASphere s) i (fs s r i) /\ is_isect (fs s r i)).
  Proof.
    destruct (find_lane_ops wide X Sx tg junk mad HW HF HS HM HJ) as (M & Q & HO).
    exists (fun pl r i => lplane M r pl i), (fun s r i => lsphere M Q r s i).
    split; [|split; [|split]].
    - intros r i pl R I (PP & PN). rewrite (rays_at wide r R) at 1. rewrite (isects_at wide i I) at 1.
      apply (plane_lanes wide X tg junk mad M Q HO (Ls wide) (Ls_len wide)); [| |exact PP|exact PN];
        intros k K; apply Ls_In in K; destruct (ray_at_ok wide r k R K) as [A B]; assumption.
    - intros r i s R I (PC & PR). rewrite (rays_at wide r R) at 1. rewrite (isects_at wide i I) at 1.
      apply (sphere_lanes wide X tg junk mad M Q HO (Ls wide) (Ls_len wide)); [| | | |exact PC|exact PR];
        intros k K; apply Ls_In in K.
      1, 2: destruct (ray_at_ok wide r k R K) as [A B]; assumption.
      all: destruct (isect_at_ok wide i k I K) as (A & B & C); assumption.
    - intros pl r i P R I. now apply (lane_plane wide X tg junk mad M Q HO).
    - intros s r i P R I. now apply (lane_sphere wide X tg junk mad M Q HO).
  Qed.

  Theorem plane_packet r i pl : is_rays wide r -> is_isects wide i -> is_plane pl ->
    exists i', intersects_plane wide false X tg junk r pl i = Ok i' /\ is_isects wide i' /\
      lane_related (fun a b b' => intersected (nested mad) mad a (APlane pl) b b') r i i'.
  Proof.
    intros R I P. destruct packet_fun as (fp & fs & H & _ & HP & _). eexists. split; [apply H; assumption|]. split.
    - apply of_isects. intros k K. apply Ls_In in K. apply HP; [exact P|now apply (ray_at_ok wide)|now apply (isect_at_ok wide)].
    - apply lanes_related; [exact R|exact I|]. intros k K. apply Ls_In in K.
      apply HP; [exact P|now apply (ray_at_ok wide)|now apply (isect_at_ok wide)].
  Qed.
  Theorem sphere_packet r i s : is_rays wide r -> is_isects wide i -> is_sphere s ->
    exists i', intersects_sphere wide false X tg junk r s i = Ok i' /\ is_isects wide i' /\
      lane_related (fun a b b' => intersected (nested mad) mad a (ASphere s) b b') r i i'.
  Proof.
    intros R I P. destruct packet_fun as (fp & fs & _ & H & _ & HP). eexists. split; [apply H; assumption|]. split.
    - apply of_isects. intros k K. apply Ls_In in K. apply HP; [exact P|now apply (ray_at_ok wide)|now apply (isect_at_ok wide)].
    - apply lanes_related; [exact R|exact I|]. intros k K. apply Ls_In in K.
      apply HP; [exact P|now apply (ray_at_ok wide)|now apply (isect_at_ok wide)].
  Qed.

  Theorem scene_packet r i spheres pl : is_rays wide r -> is_isects wide i -> Forall is_sphere spheres -> is_plane pl ->
    exists i', intersects_scene wide false X tg junk spheres pl r i = Ok i' /\ is_isects wide i' /\
      lane_related (fun a b b' => nearest (nested mad) mad a (map ASphere spheres ++ [APlane pl]) b b') r i i'.
  Proof.
    intros R I HSp P. unfold intersects_scene.
    assert (C : exists i', intersects_spheres wide false X tg junk r spheres i = Ok i' /\ is_isects wide i' /\
      lane_related (fun a b b' => chain (nested mad) mad a (map ASphere spheres) b b') r i i').
    { revert i I. induction HSp as [|s l Hs _ IH]; intros i I; cbn [intersects_spheres map].
      - exists i. split; [reflexivity|]. split; [exact I|]. intros k a b _ Lb. exists b. split; [exact Lb|constructor].
      - destruct (sphere_packet r i s R I Hs) as (i1 & E1 & I1 & L1). rewrite E1. cbn [bind].
        destruct (IH i1 I1) as (i' & E & I' & L'). exists i'. split; [exact E|]. split; [exact I'|].
        intros k a b La Lb. destruct (L1 k a b La Lb) as (b1 & Lb1 & H1). destruct (L' k a b1 La Lb1) as (b' & Lb' & H').
        exists b'. split; [exact Lb'|]. econstructor; eassumption. }
    destruct C as (i1 & E1 & I1 & L1). rewrite E1. cbn [bind].
    destruct (plane_packet r i1 pl R I1 P) as (i' & E & I' & L'). exists i'. split; [exact E|]. split; [exact I'|].
    intros k a b La Lb. destruct (L1 k a b La Lb) as (b1 & Lb1 & H1). destruct (L' k a b1 La Lb1) as (b' & Lb' & H').
    exists b'. split; [exact Lb'|]. apply chain_nearest. apply (chain_app _ _ _ _ _ _ _ _ H1). econstructor; [exact H'|constructor].
  Qed.
End Packet.
