(** Packets against the ground, and a plane on which packets and single rays disagree. *)
From Coq Require Import ZArith List Bool Lia Reals Lra.
From Flocq Require Import Core.
From Verif.Model Require Import Base FloatLane Llvm Tables MathTables Math Minimal MaskReduce Ops Cmp Float ExStencil ExRandom ExGeometry ExIntersect.
From Verif.Spec Require Import Spec Floats MathSpec Stencil Rays.
From Verif.Proofs Require Import Lib MinimalP OpsP2 MaskReduceP FloatP FloatOpsP FloatVecP FloatApiP FloatConstsP MathApiP MathLlvmP ExMandelbrotP ExPacketP ExIntersectP ExIntersectMainP ExIntersectTopP ExIntersectDebugP.
Import ListNotations.
Open Scope Z_scope.
Local Notation pat := (pattern 4).
Local Notation dat := f32_datum.
Local Opaque fl_add fl_sub fl_mul fl_div fl_sqrt fl_lt fl_gt fl_ge fl_abs f32_neg.

Lemma nearly_self p : finite p -> nearly (dat p) (dat p).
Proof.
  intros (s & x & E). rewrite E. exists (Fin false 0). split.
  - unfold ieee_sub. cbn [negated ieee_add]. rewrite Rplus_opp_r. exists false. split.
    + repeat split; intros H; try lra. now destruct s.
    + destruct rep_0 as [-> L]. now rewrite Rlt_bool_true by exact L.
  - cbn [absolute ieee_lt]. rewrite Rabs_R0.
    rewrite (rounded_near 4 8589935 (-33)); [|exact fs4|reflexivity|reflexivity|vm_compute; discriminate|].
    + apply Rmult_lt_0_compat; [lra|apply bpow_gt_0].
    + change (Zneg 33) with (Z.opp 33). rewrite (bpow_inv 33) by lia. change (2 ^ 33) with 8589934592. split; lra.
Qed.
Lemma agree_self i : finite_isect i -> agree i i.
Proof.
  intros (T & (P1 & P2 & P3) & (N1 & N2 & N3)). unfold agree, near_points, point_of. repeat split; now apply nearly_self.
Qed.

Section Packet.
  Variables (wide : bool) (X : externals) (Sx : lane_functions) (tg : target) (junk : vec) (mad : mul_adder).
  Hypothesis HW : works_lanewise X Sx.
  Hypothesis HF : follows_llvm Sx.
  Hypothesis HS : ~ uses_sleef tg.
  Hypothesis HM : mul_adde_is tg Sx mad.
  Hypothesis HR : rounds mad.
  Hypothesis HJ : is_vector (f32xN wide) junk.

  Theorem ground_packet r i pl : is_rays wide r -> is_isects wide i -> is_plane pl -> finite3 (p_p pl) ->
    p_n pl = V3 f32_0 f32_1 f32_0 ->
    (forall k a, ray_lane r k a -> finite3 (r_origin a) /\ finite3 (r_dir a)) ->
    exists i', intersects_plane wide false X tg junk r pl i = Ok i' /\ is_isects wide i' /\
      (forall k a b, ray_lane r k a -> isect_lane i k b -> isect_lane i' k (intersect_plane a pl b)) /\
      ((forall k b, isect_lane i' k b -> finite_isect b) -> intersects_plane wide true X tg junk r pl i = Ok i').
  Proof.
    intros R I P FP En FR. destruct (find_lane_ops wide X Sx tg junk mad HW HF HS HM HJ) as (M & Q & HO).
    set (g := fun k => intersect_plane (ray_at r k) pl (isect_at i k)).
    assert (OK : forall k, In k (Ls wide) -> is_isect (g k)).
    { intros k K. apply Ls_In in K. exact (proj2 (plane_scalar _ pl _ (ray_at_ok wide r k R K) P (isect_at_ok wide i k I K))). }
    assert (RL : forall k, (k < vn (f32xN wide))%nat -> ray_lane r k (ray_at r k)).
    { intros k K. rewrite (rays_at wide r R) at 1. split; [apply (of_v3_lane wide (fun k => r_origin (ray_at r k)))|apply (of_v3_lane wide (fun k => r_dir (ray_at r k)))]; exact K. }
    assert (E : intersects_plane wide false X tg junk r pl i = Ok (isects_of (Ls wide) g)).
    { destruct P as [PP PN]. etransitivity.
      - rewrite (rays_at wide r R) at 1. rewrite (isects_at wide i I) at 1.
        apply (plane_lanes wide X tg junk mad M Q HO (Ls wide) (Ls_len wide)); [| |exact PP|exact PN];
          intros k K; apply Ls_In in K; destruct (ray_at_ok wide r k R K) as [A B]; assumption.
      - f_equal. apply isects_ext. intros k K. apply Ls_In in K. destruct (FR k _ (RL k K)) as [F1 F2].
        apply (lane_ground wide X tg junk mad M Q HO HR); try assumption; [now apply (ray_at_ok wide)|now split|now apply (isect_at_ok wide)]. }
    assert (I' : is_isects wide (isects_of (Ls wide) g)) by (apply of_isects; exact OK).
    assert (LN : forall k a b, ray_lane r k a -> isect_lane i k b -> isect_lane (isects_of (Ls wide) g) k (intersect_plane a pl b)).
    { intros k a b La Lb. apply (ray_lane_eq wide) in La as [K ->]; [|exact R]. apply (isect_lane_eq wide) in Lb as [_ ->]; [|exact I].
      exact (of_isect_lane wide g k K). }
    exists (isects_of (Ls wide) g). split; [exact E|]. split; [exact I'|]. split; [exact LN|].
    intros FI. apply (plane_debug wide X tg junk r pl i _ R I P I' E). intros k a b b' La Lb Lb'.
    pose proof (LN k a b La Lb) as L. apply (isect_lane_eq wide) in Lb' as [K ->]; [|exact I'].
    pose proof L as L'. apply (isect_lane_eq wide) in L' as [_ <-]; [|exact I']. apply agree_self. exact (FI k _ L).
  Qed.

  (** *** A plane on which they disagree *)
  Definition f32_1e8 : Z := 0x4cbebc20.
  Definition f32_m1e8 : Z := 0xccbebc20.
  Definition f32_m1 : Z := 0xbf800000.
  Definition odd_ray : ray := Ray (V3 f32_m1 f32_0 f32_0) (V3 f32_1 f32_1 f32_1).
  Definition odd_plane : plane := Plane v3_0 (V3 f32_1 f32_1e8 f32_m1e8).
  Definition odd_rays : rays := rays_of (Ls wide) (fun _ => odd_ray).
  Definition odd_isects : isects := isects_of (Ls wide) (fun _ => isect_0).

  Lemma d_1e8 : dat f32_1e8 = Fin false 100000000.
  Proof.
    unfold f32_datum, datum_of, magnitude. change (exp_field 4 f32_1e8) with 153. change (sig_field 4 f32_1e8) with 4111392.
    change (sign_field 4 f32_1e8) with false. change (2 ^ exp_width 4 - 1) with 255. cbv beta iota. cbn [Z.eqb Pos.eqb]. f_equal.
    change (153 - bias 4 - sig_width 4) with 3. change (2 ^ sig_width 4 + 4111392) with 12500000.
    change (bpow radix2 3) with 8%R. lra.
  Qed.
  Lemma d_m1e8 : dat f32_m1e8 = Fin true (-100000000).
  Proof.
    unfold f32_datum, datum_of, magnitude. change (exp_field 4 f32_m1e8) with 153. change (sig_field 4 f32_m1e8) with 4111392.
    change (sign_field 4 f32_m1e8) with true. change (2 ^ exp_width 4 - 1) with 255. cbv beta iota. cbn [Z.eqb Pos.eqb]. f_equal.
    change (153 - bias 4 - sig_width 4) with 3. change (2 ^ sig_width 4 + 4111392) with 12500000.
    change (bpow radix2 3) with 8%R. lra.
  Qed.
  Lemma d_m1 : dat f32_m1 = Fin true (-1).
  Proof. exact (of_small_int 4 fs4 (-1) ltac:(reflexivity)). Qed.
  Lemma p_1e8 : pat f32_1e8.
  Proof. apply p_lit. unfold f32_1e8. lia. Qed.
  Lemma p_m1e8 : pat f32_m1e8.
  Proof. apply p_lit. unfold f32_m1e8. lia. Qed.
  Lemma p_m1 : pat f32_m1.
  Proof. apply p_lit. unfold f32_m1. lia. Qed.

  Lemma odd_lane M Q : lane_ops wide X tg junk mad M Q -> i_hit (lplane M odd_ray odd_plane isect_0) = true.
  Proof.
    intros HO. pose proof p_0. pose proof p_1. pose proof p_1e8. pose proof p_m1e8. pose proof p_m1.
    pose proof (ExIntersectTopP.HM wide X tg junk mad M Q HO) as HMM.
    assert (V : ldot M (r_dir odd_ray) (p_n odd_plane) = f32_1).
    { unfold ldot, odd_ray, odd_plane. cbn [r_dir p_n vx vy vz].
      assert (fl_mul 4 f32_1 f32_m1e8 = f32_m1e8) as -> by (vm_compute; reflexivity).
      destruct (HMM f32_1 f32_1e8 f32_m1e8) as [A1 A2]; try assumption.
      destruct (HMM f32_1 f32_1 (M f32_1 f32_1e8 f32_m1e8)) as [B1 B2]; try assumption.
      assert (Z : real (dat (M f32_1 f32_1e8 f32_m1e8)) 0).
      { rewrite d_1, d_1e8, d_m1e8 in A2. destruct HR as [-> | ->].
        - destruct A2 as (q & A2 & A3). apply ieee_mul_comm in A2.
          assert (Q1 : real q 100000000).
          { eapply mul_1; [exists false; reflexivity| |exists false; reflexivity|exact A2].
            apply (rep_pat f32_1e8); [assumption|]. exists false. exact d_1e8. }
          destruct Q1 as (s & ->). cbn [ieee_add] in A3. replace (100000000 + -100000000)%R with 0%R in A3 by lra.
          apply rounds_real in A3; [exact A3|exact rep_0].
        - unfold rounded_once in A2. cbn [ieee_fma] in A2. replace (1 * 100000000 + -100000000)%R with 0%R in A2 by lra.
          apply rounds_real in A2; [exact A2|exact rep_0]. }
      apply (real_same _ _ 1 B1 p_1); [|exact real_1|lra].
      eapply (mad_1 mad); [exact HR|exact real_1| |exact real_1|exact Z|exact B2].
      apply (rep_pat f32_1); [assumption|exact real_1]. }
    assert (W : ldot M (r_origin odd_ray) (p_n odd_plane) = f32_m1).
    { unfold ldot, odd_ray, odd_plane. cbn [r_origin p_n vx vy vz].
      destruct (HMM f32_0 f32_1e8 (fl_mul 4 f32_0 f32_m1e8)) as [A1 A2]; auto with pats.
      destruct (HMM f32_m1 f32_1 (M f32_0 f32_1e8 (fl_mul 4 f32_0 f32_m1e8))) as [B1 B2]; try assumption.
      assert (Z0 : real (dat (fl_mul 4 f32_0 f32_m1e8)) 0).
      { eapply mul_0; [exists true; exact d_m1e8|exact real_0|]. apply ieee_mul_comm. apply d_mul; assumption. }
      assert (Z : real (dat (M f32_0 f32_1e8 (fl_mul 4 f32_0 f32_m1e8))) 0).
      { destruct HR as [-> | ->].
        - destruct A2 as (q & A2 & A3). apply ieee_mul_comm in A2.
          apply (mul_0 _ _ 100000000 q) in A2; [|exists false; exact d_1e8|exact real_0].
          exact (add_0 _ _ 0 _ A2 rep_0 Z0 A3).
        - destruct Z0 as (s & Z0). rewrite d_0, d_1e8, Z0 in A2. unfold zero, rounded_once in A2. cbn [ieee_fma] in A2.
          rewrite Rmult_0_l, Rplus_0_l in A2. apply rounds_real in A2; [exact A2|exact rep_0]. }
      assert (R1 : real (dat f32_m1) (-1)) by (exists true; exact d_m1).
      apply (real_same _ _ (-1) B1 p_m1); [|exact R1|lra].
      eapply (mad_1 mad); [exact HR|exact R1| |exact real_1|exact Z|exact B2].
      apply (rep_pat f32_m1); assumption. }
    unfold lplane. rewrite V, W. vm_compute. reflexivity.
  Qed.

  Lemma odd_ray_ok : is_ray odd_ray /\ finite3 (r_origin odd_ray) /\ finite3 (r_dir odd_ray).
  Proof.
    split; [vm_compute; intuition congruence|]. unfold odd_ray. cbn [r_origin r_dir]. unfold finite3, finite. cbn [vx vy vz].
    rewrite d_m1, d_0, d_1. unfold zero. repeat split; eauto.
  Qed.
  Lemma odd_plane_ok : is_plane odd_plane /\ finite3 (p_p odd_plane) /\ finite3 (p_n odd_plane).
  Proof.
    split; [vm_compute; intuition congruence|]. unfold odd_plane, v3_0. cbn [p_p p_n]. unfold finite3, finite. cbn [vx vy vz].
    rewrite d_1e8, d_m1e8, d_0, d_1. unfold zero. repeat split; eauto.
  Qed.

  Lemma d_1e17 : finite f32_1e17.
  Proof.
    unfold finite, f32_datum, datum_of. change (exp_field 4 f32_1e17) with 183. change (2 ^ exp_width 4 - 1) with 255. cbn [Z.eqb Pos.eqb]. eauto.
  Qed.
  Lemma odd_packet_ok : is_rays wide odd_rays /\ (forall k a, ray_lane odd_rays k a -> finite_ray a) /\
    is_isects wide odd_isects /\ (forall k b, isect_lane odd_isects k b -> finite_isect b).
  Proof.
    destruct odd_ray_ok as [R0 FR].
    assert (I0 : is_isect isect_0) by (vm_compute; intuition congruence).
    assert (R : is_rays wide odd_rays) by (split; apply of_v3s; intros k _; apply R0).
    assert (I : is_isects wide odd_isects) by (apply of_isects; intros k _; exact I0).
    split; [exact R|]. split; [|split; [exact I|]].
    - intros k a La. assert (K : (k < vn (f32xN wide))%nat) by exact (proj1 (ray_lane_eq wide _ _ _ R La)).
      assert (La' : ray_lane odd_rays k odd_ray).
      { split; [apply (of_v3_lane wide (fun _ => r_origin odd_ray))|apply (of_v3_lane wide (fun _ => r_dir odd_ray))]; exact K. }
      apply (ray_lane_eq wide _ _ _ R) in La as [_ ->]. apply (ray_lane_eq wide _ _ _ R) in La' as [_ <-]. exact FR.
    - intros k b Lb. assert (K : (k < vn (f32xN wide))%nat) by exact (proj1 (isect_lane_eq wide _ _ _ I Lb)).
      assert (Lb' : isect_lane odd_isects k isect_0) by (apply (of_isect_lane wide (fun _ => isect_0)); exact K).
      apply (isect_lane_eq wide _ _ _ I) in Lb as [_ ->]. apply (isect_lane_eq wide _ _ _ I) in Lb' as [_ <-].
      unfold finite_isect, isect_0, v3_0. cbn [i_t i_p i_n]. split; [exact d_1e17|]. unfold finite3, finite. cbn [vx vy vz].
      rewrite d_0. unfold zero. repeat split; eauto.
  Qed.

  Theorem odd_debug : intersects_plane wide true X tg junk odd_rays odd_plane odd_isects = Panic.
  Proof.
    destruct odd_ray_ok as [R0 _]. destruct odd_plane_ok as [P0 _].
    assert (I0 : is_isect isect_0) by (vm_compute; intuition congruence).
    assert (R : is_rays wide odd_rays) by (split; apply of_v3s; intros k _; apply R0).
    assert (I : is_isects wide odd_isects) by (apply of_isects; intros k _; exact I0).
    destruct (find_lane_ops wide X Sx tg junk mad HW HF HS HM HJ) as (M & Q & HO).
    assert (E : intersects_plane wide false X tg junk odd_rays odd_plane odd_isects =
                Ok (isects_of (Ls wide) (fun _ => lplane M odd_ray odd_plane isect_0))).
    { apply (plane_lanes wide X tg junk mad M Q HO (Ls wide) (Ls_len wide) (fun _ => odd_ray) (fun _ => isect_0));
        [intros k _; apply R0|intros k _; apply R0|apply P0|apply P0]. }
    assert (L0' : (0 < vn (f32xN wide))%nat) by (destruct wide; cbn; lia).
    assert (I' : is_isects wide (isects_of (Ls wide) (fun _ => lplane M odd_ray odd_plane isect_0))).
    { apply of_isects. intros k _. exact (proj2 (lane_plane wide X tg junk mad M Q HO odd_ray odd_plane isect_0 R0 P0 I0)). }
    destruct (plane_debug wide X tg junk odd_rays odd_plane odd_isects _ R I P0 I' E) as [[H|H] HA]; [|exact H].
    - exfalso. rewrite HA in H. specialize (H 0%nat odd_ray isect_0 (lplane M odd_ray odd_plane isect_0)).
      destruct H as (_ & _ & _ & H).
      + split; [apply (of_v3_lane wide (fun _ => r_origin odd_ray))|apply (of_v3_lane wide (fun _ => r_dir odd_ray))]; exact L0'.
      + apply (of_isect_lane wide (fun _ => isect_0)); exact L0'.
      + apply (of_isect_lane wide (fun _ => lplane M odd_ray odd_plane isect_0)); exact L0'.
      + rewrite (odd_lane M Q HO) in H. vm_compute in H. discriminate.
  Qed.
End Packet.
