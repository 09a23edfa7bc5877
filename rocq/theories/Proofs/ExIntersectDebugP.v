(** The assertions of debug builds, and planes parallel to the ground. *)
From Coq Require Import ZArith List Bool Lia Reals Lra.
From Flocq Require Import Core.
From Verif.Model Require Import Base FloatLane Llvm Tables MathTables Math Minimal MaskReduce Ops Cmp Float ExStencil ExRandom ExGeometry ExIntersect.
From Verif.Spec Require Import Spec Floats MathSpec Stencil Rays.
From Verif.Proofs Require Import Lib MinimalP OpsP2 MaskReduceP FloatP FloatOpsP FloatVecP FloatApiP FloatConstsP MathApiP MathLlvmP ExMandelbrotP ExPacketP ExIntersectP ExIntersectMainP ExIntersectTopP.
Import ListNotations.
Open Scope Z_scope.
Local Notation pat := (pattern 4).
Local Notation dat := f32_datum.
Local Opaque fl_add fl_sub fl_mul fl_div fl_sqrt fl_lt fl_gt fl_ge fl_abs f32_neg.

(** *** almost_eq *)
Lemma p_milli : pat f32_1em3.
Proof. apply p_lit. unfold f32_1em3. lia. Qed.
Lemma d_milli : dat f32_1em3 = Fin false (rounded 4 (/ 1000)).
Proof.
  assert (E : rounded 4 (/ 1000) = (IZR 8589935 * bpow radix2 (-33))%R).
  { apply rounded_near; [exact fs4|reflexivity|reflexivity|vm_compute; discriminate|].
    change (Zneg 33) with (Z.opp 33). rewrite (bpow_inv 33) by lia. change (2 ^ 33) with 8589934592. split; lra. }
  rewrite E. unfold f32_datum, datum_of, magnitude.
  change (exp_field 4 f32_1em3) with 117. change (sig_field 4 f32_1em3) with 201327.
  change (sign_field 4 f32_1em3) with false. change (2 ^ exp_width 4 - 1) with 255. cbv beta iota. cbn [Z.eqb Pos.eqb].
  reflexivity.
Qed.

Lemma add_unique b x y r r' : ieee_add b x y r -> ieee_add b x y r' -> r = r'.
Proof.
  unfold ieee_add. destruct x, y; try congruence. intros (s & (A1 & A2 & A3) & ->) (s' & (B1 & B2 & B3) & ->).
  assert (s = s') as ->; [|reflexivity].
  destruct (Rtotal_order (x + x0) 0) as [H|[H|H]].
  - now rewrite A1, B1.
  - now rewrite A3, B3.
  - now rewrite A2, B2.
Qed.

Lemma close_iff a b : pat a -> pat b -> (ExGeometry.close a b = true <-> nearly (dat a) (dat b)).
Proof.
  intros A B. unfold ExGeometry.close, nearly. assert (S : pat (fl_sub 4 a b)) by auto with pats.
  destruct (abs_pat _ S) as [S1 S2]. rewrite d_lt by (assumption || exact p_milli). rewrite S2, d_milli. split.
  - intros H. exists (dat (fl_sub 4 a b)). split; [now apply d_sub|exact H].
  - intros (d & D & L). now rewrite (add_unique _ _ _ _ _ (d_sub a b A B) D).
Qed.
Lemma v3_close_iff a b : pat3 a -> pat3 b -> (v3_almost_eq a b = true <-> near_points (point_of a) (point_of b)).
Proof.
  intros (A1 & A2 & A3) (B1 & B2 & B3). unfold v3_almost_eq, near_points, point_of. rewrite !andb_true_iff, !close_iff by assumption. tauto.
Qed.
Lemma isect_close_iff i j : is_isect i -> is_isect j -> (isect_almost_eq i j = true <-> agree i j).
Proof.
  intros (A1 & A2 & A3) (B1 & B2 & B3). unfold isect_almost_eq, agree.
  rewrite !andb_true_iff, close_iff, !v3_close_iff by assumption. rewrite eqb_true_iff. tauto.
Qed.

(** *** The check *)
Lemma f_vt wide : vector_type (f32xN wide).
Proof. destruct wide; repeat split; cbn; lia. Qed.
Lemma m_vt wide : vector_type (m32xN wide).
Proof. destruct wide; repeat split; cbn; lia. Qed.
Lemma canonical_vector wide h : canonical (m32xN wide) h -> is_vector (m32xN wide) h.
Proof.
  intros [V F]. split; [exact V|]. eapply Forall_impl; [|exact F]. intros p [-> | ->]; unfold true_lane, false_lane, width; rewrite m_b;
    vm_compute; split; congruence.
Qed.

Section Check.
  Variable wide : bool.
  Local Notation n := (vn (f32xN wide)).
  Lemma at_lane v k : length v = n -> (k < n)%nat -> lane v k (nth k v 0).
  Proof. intros V K. apply nth_error_nth'. rewrite V. exact K. Qed.
  Lemma get_v3 v k : is_v3s wide v -> (k < n)%nat -> v3s_get wide v (Z.of_nat k) = Ok (v3_at v k).
  Proof.
    intros (A & B & C) K. unfold v3s_get.
    rewrite (extract_lane _ _ k _ (f_vt wide) A (at_lane _ k (proj1 A) K)). cbn [bind].
    rewrite (extract_lane _ _ k _ (f_vt wide) B (at_lane _ k (proj1 B) K)). cbn [bind].
    rewrite (extract_lane _ _ k _ (f_vt wide) C (at_lane _ k (proj1 C) K)). reflexivity.
  Qed.
  Lemma get_ray r k : is_rays wide r -> (k < n)%nat -> rays_get wide r (Z.of_nat k) = Ok (ray_at r k).
  Proof. intros (A & B) K. unfold rays_get. rewrite !get_v3 by assumption. reflexivity. Qed.
  Lemma get_isect i k : is_isects wide i -> (k < n)%nat -> isects_get wide i (Z.of_nat k) = Ok (isect_at i k).
  Proof.
    intros (A & B & C & H) K. unfold isects_get.
    rewrite (extract_lane _ _ k _ (f_vt wide) A (at_lane _ k (proj1 A) K)). cbn [bind]. rewrite !get_v3 by assumption. cbn [bind].
    assert (Hl : lane (is_hit i) k (nth k (is_hit i) 0)) by (apply at_lane; [rewrite <- m_n; apply H|exact K]).
    rewrite (mask_extract_lane _ _ k _ (m_vt wide) (canonical_vector wide _ H) Hl). reflexivity.
  Qed.

  Lemma check_eq one r old new ks : is_rays wide r -> is_isects wide old -> is_isects wide new -> (forall k, In k ks -> (k < n)%nat) ->
    ExIntersect.check wide one r old new ks =
    if forallb (fun k => isect_almost_eq (one (ray_at r k) (isect_at old k)) (isect_at new k)) ks then Ok tt else Panic.
  Proof.
    intros R O N. induction ks as [|k ks IH]; intros H; [reflexivity|]. cbn [ExIntersect.check forallb].
    assert (K : (k < n)%nat) by (apply H; now left).
    rewrite (get_isect old k O K), (get_ray r k R K), (get_isect new k N K). cbn [bind]. unfold assert.
    destruct (isect_almost_eq _ _); cbn [bind andb]; [|reflexivity]. apply IH. intros j J. apply H. now right.
  Qed.
  Lemma checked_eq one r old new : is_rays wide r -> is_isects wide old -> is_isects wide new ->
    (forall r i, is_ray r -> is_isect i -> is_isect (one r i)) ->
    (checked wide true one r old new = Ok new \/ checked wide true one r old new = Panic) /\
    (checked wide true one r old new = Ok new <->
     forall k a b b', ray_lane r k a -> isect_lane old k b -> isect_lane new k b' -> agree (one a b) b').
  Proof.
    intros R O N H1. unfold checked. rewrite check_eq by (try assumption; intros k K; apply in_seq in K; unfold lanes in K; lia).
    destruct (forallb _ _) eqn:E; cbn [bind].
    - split; [now left|]. split; [|reflexivity]. intros _ k a b b' La Lb Lb'.
      apply (ray_lane_eq wide) in La as [K ->]; [|exact R]. apply (isect_lane_eq wide) in Lb as [_ ->]; [|exact O].
      apply (isect_lane_eq wide) in Lb' as [_ ->]; [|exact N].
      rewrite forallb_forall in E. specialize (E k). rewrite in_seq in E. unfold lanes in E. specialize (E ltac:(lia)).
      apply isect_close_iff; [|now apply (isect_at_ok wide)|exact E].
      apply H1; [now apply (ray_at_ok wide)|now apply (isect_at_ok wide)].
    - split; [now right|]. split; [discriminate|]. intros H. exfalso.
      apply (not_true_iff_false) in E. apply E. apply forallb_forall. intros k K. apply in_seq in K. unfold lanes in K.
      assert (K' : (k < n)%nat) by lia.
      apply isect_close_iff; [apply H1; [now apply (ray_at_ok wide)|now apply (isect_at_ok wide)]|now apply (isect_at_ok wide)|].
      apply (H k).
      + rewrite (rays_at wide r R) at 1. unfold ray_lane, rays_of. cbn [rs_origin rs_dir].
        split; [apply (of_v3_lane wide (fun k => r_origin (ray_at r k)))|apply (of_v3_lane wide (fun k => r_dir (ray_at r k)))]; exact K'.
      + rewrite (isects_at wide old O) at 1. now apply of_isect_lane.
      + rewrite (isects_at wide new N) at 1. now apply of_isect_lane.
  Qed.
End Check.

Section Debug.
  Variables (wide : bool) (X : externals) (tg : target) (junk : vec).
  Lemma plane_debug_eq r pl i : intersects_plane wide true X tg junk r pl i =
    (new <- intersects_plane wide false X tg junk r pl i ;; checked wide true (fun r i => intersect_plane r pl i) r i new).
  Proof.
    unfold intersects_plane. cbv zeta.
    destruct (dots1 wide X tg (rs_dir r) (p_n pl)) as [v| |]; cbn [bind]; [|reflexivity|reflexivity].
    destruct (vabs _ _ _ _ v) as [a| |]; cbn [bind]; [|reflexivity|reflexivity].
    destruct (any tg _ _) as [some| |]; cbn [bind]; [|reflexivity|reflexivity].
    match goal with |- bind ?e _ = _ => destruct e as [new| |] end; cbn [bind]; reflexivity.
  Qed.
  Lemma sphere_debug_eq r s i : intersects_sphere wide true X tg junk r s i =
    (new <- intersects_sphere wide false X tg junk r s i ;; checked wide true (fun r i => intersect_sphere r s i) r i new).
  Proof.
    unfold intersects_sphere. cbv zeta.
    destruct (dots wide X tg _ (rs_dir r)) as [b| |]; cbn [bind]; [|reflexivity|reflexivity].
    destruct (dots wide X tg _ _) as [rr| |]; cbn [bind]; [|reflexivity|reflexivity].
    destruct (madd wide X tg _ _ rr) as [c| |]; cbn [bind]; [|reflexivity|reflexivity].
    destruct (madd wide X tg b b _) as [d| |]; cbn [bind]; [|reflexivity|reflexivity].
    destruct (any tg _ _) as [some| |]; cbn [bind]; [|reflexivity|reflexivity].
    match goal with |- bind ?e _ = _ => destruct e as [new| |] end; cbn [bind]; reflexivity.
  Qed.

  Theorem plane_debug r pl i i' : is_rays wide r -> is_isects wide i -> is_plane pl -> is_isects wide i' ->
    intersects_plane wide false X tg junk r pl i = Ok i' ->
    (intersects_plane wide true X tg junk r pl i = Ok i' \/ intersects_plane wide true X tg junk r pl i = Panic) /\
    (intersects_plane wide true X tg junk r pl i = Ok i' <->
     forall k a b b', ray_lane r k a -> isect_lane i k b -> isect_lane i' k b' -> agree (intersect_plane a pl b) b').
  Proof.
    intros R I P I' E. rewrite plane_debug_eq, E. cbn [bind]. apply checked_eq; try assumption.
    intros a b A B. now apply plane_scalar.
  Qed.
  Theorem sphere_debug r s i i' : is_rays wide r -> is_isects wide i -> is_sphere s -> is_isects wide i' ->
    intersects_sphere wide false X tg junk r s i = Ok i' ->
    (intersects_sphere wide true X tg junk r s i = Ok i' \/ intersects_sphere wide true X tg junk r s i = Panic) /\
    (intersects_sphere wide true X tg junk r s i = Ok i' <->
     forall k a b b', ray_lane r k a -> isect_lane i k b -> isect_lane i' k b' -> agree (intersect_sphere a s b) b').
  Proof.
    intros R I P I' E. rewrite sphere_debug_eq, E. cbn [bind]. apply checked_eq; try assumption.
    intros a b A B. now apply sphere_scalar.
  Qed.
End Debug.

(** *** Exact operations *)
Definition real (d : datum) (x : R) : Prop := exists s, d = Fin s x.
Definition rep (x : R) : Prop := rounded 4 x = x /\ (Rabs x < bpow radix2 (bias 4 + 1))%R.
Lemma rounds_real x z r : rep x -> rounds_to 4 x z r -> real r x.
Proof. intros [E L] (s & _ & ->). rewrite E, Rlt_bool_true by exact L. now exists s. Qed.
Lemma rep_pat p x : pat p -> real (dat p) x -> rep x.
Proof. intros P (s & E). destruct (finite_datum 4 fs4 p s x P E) as (A & B & _). now split. Qed.
Lemma rep_0 : rep 0.
Proof. apply (rep_pat f32_0); [exact p_0|]. exists false. exact d_0. Qed.
Lemma mul_0 a b x r : real a x -> real b 0 -> ieee_mul 4 a b r -> real r 0.
Proof. intros (s & ->) (s' & ->). cbn [ieee_mul]. rewrite Rmult_0_r. apply rounds_real. exact rep_0. Qed.
Lemma mul_1 a b x r : real a x -> rep x -> real b 1 -> ieee_mul 4 a b r -> real r x.
Proof. intros (s & ->) H (s' & ->). cbn [ieee_mul]. rewrite Rmult_1_r. now apply rounds_real. Qed.
Lemma add_0 a b x r : real a x -> rep x -> real b 0 -> ieee_add 4 a b r -> real r x.
Proof. intros (s & ->) H (s' & ->). cbn [ieee_add]. rewrite Rplus_0_r. now apply rounds_real. Qed.

Definition rounds (mad : mul_adder) : Prop := mad = rounded_twice \/ mad = rounded_once.
Lemma mad_0 mad a b c x y r : rounds mad -> real a x -> real b 0 -> real c y -> rep y -> mad a b c r -> real r y.
Proof.
  intros [-> | ->] A B C H.
  - intros (q & Q & S). apply (mul_0 a b x q A B) in Q. apply ieee_add_comm in S. exact (add_0 c q y r C H Q S).
  - destruct A as (s & ->), B as (s' & ->), C as (s'' & ->). unfold rounded_once. cbn [ieee_fma].
    rewrite Rmult_0_r, Rplus_0_l. now apply rounds_real.
Qed.
Lemma mad_1 mad a b c x r : rounds mad -> real a x -> rep x -> real b 1 -> real c 0 -> mad a b c r -> real r x.
Proof.
  intros [-> | ->] A H B C.
  - intros (q & Q & S). apply (mul_1 a b x q A H B) in Q. exact (add_0 q c x r Q H C S).
  - destruct A as (s & ->), B as (s' & ->), C as (s'' & ->). unfold rounded_once. cbn [ieee_fma].
    rewrite Rmult_1_r, Rplus_0_r. now apply rounds_real.
Qed.
Lemma real_same p q x : pat p -> pat q -> real (dat p) x -> real (dat q) x -> x <> 0%R -> p = q.
Proof.
  intros P Q (s & E) (s' & E') N.
  destruct (finite_datum 4 fs4 p s x P E) as (_ & _ & A1 & A2). destruct (finite_datum 4 fs4 q s' x Q E') as (_ & _ & B1 & B2).
  apply (datum_inj 4 p q fs4 P Q); change (datum_of 4) with f32_datum; rewrite E; [|discriminate]. rewrite E'. f_equal.
  destruct (Rtotal_order x 0) as [H|[H|H]]; [now rewrite A1, B1|contradiction|now rewrite A2, B2].
Qed.
Lemma same_datum p q : pat p -> pat q -> dat p = dat q -> dat p <> NaN -> p = q.
Proof. intros P Q E N. exact (datum_inj 4 p q fs4 P Q E N). Qed.

(** *** Planes parallel to the ground *)
Section Ground.
  Variables (wide : bool) (X : externals) (tg : target) (junk : vec) (mad : mul_adder).
  Variables (M : Z -> Z -> Z -> Z) (Q : Z -> Z).
  Hypothesis HO : lane_ops wide X tg junk mad M Q.
  Hypothesis HR : rounds mad.
  Definition up : v3 := V3 f32_0 f32_1 f32_0.
  Lemma up_pat : pat3 up.
  Proof. repeat split; try apply p_0; try apply p_1. Qed.

  Lemma real_0 : real (dat f32_0) 0.
  Proof. exists false. exact d_0. Qed.
  Lemma real_1 : real (dat f32_1) 1.
  Proof. exists false. exact d_1. Qed.

  Lemma dot_up a x : pat3 a -> finite3 a -> real (dat (vy a)) x -> real (dat (dot a up)) x.
  Proof.
    intros (A1 & A2 & A3) ((s1 & x1 & F1) & _ & (s3 & x3 & F3)) Y. pose proof (rep_pat _ _ A2 Y) as H. unfold dot, up. cbn [vx vy vz].
    assert (R1 : real (dat (fl_mul 4 (vx a) f32_0)) 0) by (eapply mul_0; [exists s1; exact F1|exact real_0|apply d_mul; [exact A1|exact p_0]]).
    assert (R2 : real (dat (fl_mul 4 (vy a) f32_1)) x) by (eapply mul_1; [exact Y|exact H|exact real_1|apply d_mul; [exact A2|exact p_1]]).
    assert (R3 : real (dat (fl_mul 4 (vz a) f32_0)) 0) by (eapply mul_0; [exists s3; exact F3|exact real_0|apply d_mul; [exact A3|exact p_0]]).
    pose proof p_0. pose proof p_1.
    eapply add_0; [|exact H|exact R3|apply d_add; auto with pats].
    eapply add_0; [exact R2|exact H|exact R1|apply ieee_add_comm; apply d_add; auto with pats].
  Qed.
  Lemma ldot_up a x : pat3 a -> finite3 a -> real (dat (vy a)) x -> real (dat (ldot M a up)) x.
  Proof.
    intros (A1 & A2 & A3) ((s1 & x1 & F1) & _ & (s3 & x3 & F3)) Y. pose proof (rep_pat _ _ A2 Y) as H. unfold ldot, up. cbn [vx vy vz].
    pose proof p_0. pose proof p_1.
    assert (R3 : real (dat (fl_mul 4 (vz a) f32_0)) 0) by (eapply mul_0; [exists s3; exact F3|exact real_0|apply d_mul; [exact A3|exact p_0]]).
    destruct (HM wide X tg junk mad M Q HO (vy a) f32_1 (fl_mul 4 (vz a) f32_0)) as [M1 M2]; auto with pats.
    destruct (HM wide X tg junk mad M Q HO (vx a) f32_0 (M (vy a) f32_1 (fl_mul 4 (vz a) f32_0))) as [M3 M4]; auto with pats.
    eapply (mad_0 mad); [exact HR|exists s1; exact F1|exact real_0| |exact H|exact M4].
    eapply (mad_1 mad); [exact HR|exact Y|exact H|exact real_1|exact R3|exact M2].
  Qed.

  Lemma zero_quotient p v : pat p -> pat v -> real (dat p) 0 -> fl_gt 4 (fl_div 4 p v) f32_0 = false.
  Proof.
    intros P V (s & E). destruct (fl_gt 4 (fl_div 4 p v) f32_0) eqn:G; [|reflexivity]. exfalso.
    apply d_gt in G; [|auto with pats|exact p_0]. pose proof (d_div p v P V) as D. rewrite E in D. rewrite d_0 in G.
    destruct (dat v) as [|s'|s' x]; cbn [ieee_div] in D.
    - rewrite D in G. exact G.
    - rewrite D in G. cbn in G. lra.
    - rewrite (Req_bool_true 0 0) in D by reflexivity. destruct (Req_bool x 0).
      + rewrite D in G. exact G.
      + unfold Rdiv in D. rewrite Rmult_0_l in D. apply rounds_real in D; [|exact rep_0]. destruct D as (s'' & D). rewrite D in G.
        cbn in G. lra.
  Qed.

  (** The same real numbers give the same sum, or two zeros. *)
  Lemma same_sum w w' d x y : pat w -> pat w' -> pat d -> real (dat w) x -> real (dat w') x -> real (dat d) y ->
    fl_add 4 w d = fl_add 4 w' d \/ real (dat (fl_add 4 w d)) 0 /\ real (dat (fl_add 4 w' d)) 0.
  Proof.
    intros W W' Dd Rw Rw' Rd.
    pose proof (d_add w d W Dd) as S. pose proof (d_add w' d W' Dd) as S'.
    destruct (Req_dec x 0) as [-> | Nx].
    - pose proof (rep_pat _ _ Dd Rd) as H. apply ieee_add_comm in S. apply ieee_add_comm in S'.
      apply (add_0 (dat d) (dat w) y _ Rd H Rw) in S. apply (add_0 (dat d) (dat w') y _ Rd H Rw') in S'.
      destruct (Req_dec y 0) as [-> | Ny]; [now right|]. left. apply (real_same _ _ y); auto with pats.
    - left. now rewrite (real_same w w' x W W' Rw Rw' Nx).
  Qed.

  Lemma absolute_real p x : pat p -> real (dat p) x -> real (dat (fl_abs 4 p)) (Rabs x).
  Proof. intros P (s & E). destruct (abs_pat p P) as [_ ->]. rewrite E. now exists false. Qed.
  Lemma zero_is_tiny p : pat p -> real (dat p) 0 -> fl_lt 4 (fl_abs 4 p) f32_1em17 = true /\ fl_ge 4 (fl_abs 4 p) f32_1em17 = false.
  Proof.
    intros P H. destruct (abs_pat p P) as [A _].
    assert (L : fl_lt 4 (fl_abs 4 p) f32_1em17 = true).
    { apply d_lt; [exact A|exact p_tiny|]. apply absolute_real in H; [|exact P]. destruct H as (s & ->). rewrite Rabs_R0, d_tiny.
      unfold tiny. cbn [ieee_lt].
      rewrite (rounded_near 4 12089258 (-80)); [|exact fs4|reflexivity|reflexivity|vm_compute; discriminate|].
      - apply Rmult_lt_0_compat; [lra|apply bpow_gt_0].
      - change (Zneg 80) with (Z.opp 80). rewrite (bpow_inv 80) by lia. change (2 ^ 80) with 1208925819614629174706176.
        rewrite (pow_IZR 10 17). change (10 ^ Z.of_nat 17) with 100000000000000000. split; lra. }
    split; [exact L|]. exact (lt_not_ge _ _ A p_tiny L).
  Qed.

  Lemma mul_same p q : pat p -> pat q -> finite p -> finite q -> fl_mul 4 p q = fl_mul 4 q p.
  Proof.
    intros P Q' (s & x & E) (s' & y & E'). pose proof (d_mul p q P Q') as A. pose proof (d_mul q p Q' P) as B.
    apply ieee_mul_comm in B.
    assert (D : dat (fl_mul 4 p q) = dat (fl_mul 4 q p) /\ dat (fl_mul 4 p q) <> NaN).
    { rewrite E, E' in A, B. cbn [ieee_mul] in A, B. destruct A as (u & (A1 & A2 & A3) & ->), B as (u' & (B1 & B2 & B3) & ->).
      assert (u = u') as ->.
      { destruct (Rtotal_order (x * y) 0) as [H|[H|H]]; [now rewrite A1, B1|now rewrite A3, B3|now rewrite A2, B2]. }
      split; [reflexivity|]. destruct (Rlt_bool _ _); discriminate. }
    apply same_datum; [auto with pats|auto with pats|apply D|apply D].
  Qed.

  Theorem lane_ground r pl i : is_ray r -> is_plane pl -> is_isect i ->
    finite3 (r_origin r) -> finite3 (r_dir r) -> finite3 (p_p pl) -> p_n pl = up ->
    lplane M r pl i = intersect_plane r pl i.
  Proof.
    intros (PO & PD) (PP & _) (PT & _) FO FD FP En. destruct pl as [p nn]. cbn [p_p p_n] in *. subst nn.
    unfold lplane, intersect_plane. cbv zeta. cbn [p_p p_n].
    destruct (proj1 (proj2 FD)) as (sd & y & Ed). destruct (proj1 (proj2 FO)) as (so & w & Eo). destruct (proj1 (proj2 FP)) as (sp & k & Ek).
    assert (RV : real (dat (dot (r_dir r) up)) y) by (apply dot_up; [exact PD|exact FD|exists sd; exact Ed]).
    assert (RV' : real (dat (ldot M (r_dir r) up)) y) by (apply ldot_up; [exact PD|exact FD|exists sd; exact Ed]).
    assert (RW : real (dat (dot (r_origin r) up)) w) by (apply dot_up; [exact PO|exact FO|exists so; exact Eo]).
    assert (RW' : real (dat (ldot M (r_origin r) up)) w) by (apply ldot_up; [exact PO|exact FO|exists so; exact Eo]).
    assert (RK : real (dat (dot p up)) k) by (apply dot_up; [exact PP|exact FP|exists sp; exact Ek]).
    assert (V : pat (dot (r_dir r) up)) by (apply ldot_scalar; [exact PD|exact up_pat]).
    assert (V' : pat (ldot M (r_dir r) up)) by (apply (p_dot wide X tg junk mad M Q HO); [exact PD|exact up_pat]).
    assert (W : pat (dot (r_origin r) up)) by (apply ldot_scalar; [exact PO|exact up_pat]).
    assert (W' : pat (ldot M (r_origin r) up)) by (apply (p_dot wide X tg junk mad M Q HO); [exact PO|exact up_pat]).
    assert (K : pat (dot p up)) by (apply ldot_scalar; [exact PP|exact up_pat]).
    destruct (Req_dec y 0) as [-> | Ny].
    - destruct (zero_is_tiny _ V RV) as [-> _]. destruct (zero_is_tiny _ V' RV') as [_ ->]. reflexivity.
    - rewrite (real_same _ _ y V' V RV' RV Ny). set (v := dot (r_dir r) up) in *.
      assert (RD : real (dat (f32_neg (dot p up))) (- k)).
      { destruct RK as (s & E). rewrite d_neg by exact K. rewrite E. now exists (negb s). }
      set (d := f32_neg (dot p up)) in *. assert (Pd : pat d) by (apply p_neg; exact K).
      destruct (abs_pat v V) as [A1 A2].
      assert (G : fl_ge 4 (fl_abs 4 v) f32_1em17 = negb (fl_lt 4 (fl_abs 4 v) f32_1em17)).
      { destruct (fl_lt 4 (fl_abs 4 v) f32_1em17) eqn:L; [exact (lt_not_ge _ _ A1 p_tiny L)|].
        destruct (nan_or_ge _ _ A1 p_tiny) as [N|H]; [rewrite d_tiny; unfold tiny; discriminate|exact L| |exact H].
        destruct RV as (s & E). rewrite A2, E in N. discriminate. }
      rewrite G. destruct (fl_lt 4 (fl_abs 4 v) f32_1em17); [reflexivity|]. cbn [negb andb].
      destruct (same_sum _ _ d w (- k) W W' Pd RW RW' RD) as [ES|[Z1 Z2]].
      + rewrite <- ES. set (q := fl_add 4 (dot (r_origin r) up) d) in *. assert (Pq : pat q) by (unfold q; auto with pats).
        assert (EN : lneg q = f32_neg q).
        { apply same_datum; [auto with pats|auto with pats|rewrite d_lneg, d_neg by exact Pq; reflexivity|].
          rewrite d_lneg by exact Pq. pose proof (d_add _ d W Pd) as S. fold q in S.
          destruct RW as (s & E). destruct RD as (s' & E'). rewrite E, E' in S. cbn [ieee_add] in S. destruct S as (s'' & _ & ->).
          destruct (Rlt_bool _ _); discriminate. }
        rewrite EN. set (t := fl_div 4 (f32_neg q) v). assert (Pt : pat t) by (unfold t; auto with pats).
        destruct (fl_gt 4 t f32_0) eqn:Gt; [|reflexivity]. destruct (fl_lt 4 t (i_t i)) eqn:Lt; [|reflexivity]. cbn [andb].
        assert (Ft : finite t).
        { apply d_gt in Gt; [|exact Pt|exact p_0]. apply d_lt in Lt; [|exact Pt|exact PT]. rewrite d_0 in Gt. unfold finite.
          destruct (dat t) as [|[]|s x]; cbn in Gt; try contradiction; try discriminate; [|eauto].
          destruct (dat (i_t i)) as [|[]|]; cbn in Lt; try contradiction; discriminate. }
        f_equal. f_equal. unfold lscale, scale_v3, v3_scale. destruct PD as (D1 & D2 & D3), FD as (F1 & F2 & F3).
        f_equal; apply mul_same; assumption.
      + rewrite !zero_quotient; [reflexivity| | | | | |]; auto with pats.
        * rewrite d_neg by auto with pats. destruct Z1 as (s & ->). exists (negb s). cbn [negated]. f_equal. apply Ropp_0.
        * rewrite d_lneg by auto with pats. destruct Z2 as (s & ->). exists (negb s). cbn [negated]. f_equal. apply Ropp_0.
  Qed.
End Ground.
