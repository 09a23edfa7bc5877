(** The directions of the samples of the ambient occlusion example. *)
From Coq Require Import ZArith List Bool Lia Reals Lra.
From Flocq Require Import Core Mult_error.
From Verif.Model Require Import Base FloatLane Llvm Tables MathTables Math Minimal MaskReduce Ops Cmp Float ExStencil ExRandom ExGeometry ExIntersect ExOcclusion.
From Verif.Spec Require Import Spec Floats MathSpec Stencil Rays Occlusion.
From Verif.Proofs Require Import Lib FloatP FloatOpsP FloatVecP FloatConstsP MathApiP ExPacketP ExIntersectP ExIntersectMainP ExIntersectTopP ExIntersectDebugP ExBasisP.
Import ListNotations.
Open Scope Z_scope.
Local Notation pat := (pattern 4).
Local Notation dat := f32_datum.
Local Notation PI := Rtrigo1.PI.
Local Opaque fl_add fl_sub fl_mul fl_div fl_sqrt fl_lt fl_gt fl_ge fl_abs f32_neg.

(** *** The angle *)
Lemma p_PI : pat f32_PI.
Proof. apply p_lit. unfold f32_PI, elem_pi. cbn [Nat.eqb]. lia. Qed.
Lemma p_2 : pat f32_2.
Proof. apply p_lit. unfold f32_2. lia. Qed.
Lemma r_PI : rounded 4 PI = (IZR 13176795 * bpow radix2 (-22))%R.
Proof.
  apply rounded_near; [exact fs4|reflexivity|reflexivity|vm_compute; discriminate|].
  change (Zneg 22) with (Z.opp 22). rewrite (bpow_inv 22) by lia. change (2 ^ 22) with 4194304.
  destruct bounds_PI as [A B]. unfold lo_PI, hi_PI in A, B. unfold Q2R in A, B. cbn [QArith_base.Qnum QArith_base.Qden] in A, B.
  split; lra.
Qed.
Lemma d_PI : dat f32_PI = Fin false (rounded 4 PI).
Proof.
  rewrite r_PI. unfold f32_datum, datum_of, magnitude.
  change (exp_field 4 f32_PI) with 128. change (sig_field 4 f32_PI) with 4788187.
  change (sign_field 4 f32_PI) with false. change (2 ^ exp_width 4 - 1) with 255. cbv beta iota. cbn [Z.eqb Pos.eqb].
  reflexivity.
Qed.
Lemma d_2 : dat f32_2 = Fin false 2.
Proof. exact (of_small_int 4 fs4 2 ltac:(reflexivity)). Qed.
Lemma two_PI : fl_mul 4 f32_2 f32_PI = 0x40c90fdb.
Proof. vm_compute. reflexivity. Qed.
Lemma d_two_PI : dat (fl_mul 4 f32_2 f32_PI) = Fin false (2 * rounded 4 PI).
Proof.
  rewrite two_PI, r_PI. unfold f32_datum, datum_of, magnitude.
  change (exp_field 4 0x40c90fdb) with 129. change (sig_field 4 0x40c90fdb) with 4788187.
  change (sign_field 4 0x40c90fdb) with false. change (2 ^ exp_width 4 - 1) with 255. cbv beta iota. cbn [Z.eqb Pos.eqb].
  f_equal. change (bpow radix2 (129 - bias 4 - sig_width 4)) with (bpow radix2 (1 + - 22)). rewrite bpow_plus.
  change (bpow radix2 1) with 2%R. change (2 ^ sig_width 4 + 4788187) with 13176795. ring.
Qed.
Lemma PI_big : (3 <= rounded 4 PI)%R.
Proof. rewrite r_PI. change (Zneg 22) with (Z.opp 22). rewrite (bpow_inv 22) by lia. change (2 ^ 22) with 4194304. lra. Qed.

Lemma double_exact u : rounded 4 u = u -> rounded 4 (2 * u) = (2 * u)%R.
Proof.
  intros H. unfold rounded in *. set (fexp := FLT_exp _ _) in *.
  assert (V : Valid_exp fexp) by (apply FLT_exp_valid; reflexivity).
  apply round_generic; [apply valid_rnd_N|]. replace (2 * u)%R with (u * bpow radix2 1)%R by (change (bpow radix2 1) with 2%R; ring).
  apply mult_bpow_pos_exact_FLT; [|lia]. rewrite <- H. apply generic_format_round; [exact V|apply valid_rnd_N].
Qed.
Lemma bpow_rounded : rounded 4 (bpow radix2 (bias 4 + 1)) = bpow radix2 (bias 4 + 1).
Proof. unfold rounded. apply round_generic; [apply valid_rnd_N|]. apply generic_format_bpow. vm_compute. discriminate. Qed.
Lemma rounded_mono x y : (x <= y)%R -> (rounded 4 x <= rounded 4 y)%R.
Proof. unfold rounded. apply round_le; [apply FLT_exp_valid; reflexivity|apply valid_rnd_N]. Qed.
Lemma rounded_abs x : Rabs (rounded 4 x) = rounded 4 (Rabs x).
Proof.
  destruct (Rle_or_lt 0 x) as [H|H].
  - rewrite (Rabs_pos_eq x) by lra. apply Rabs_pos_eq. replace 0%R with (rounded 4 0); [now apply rounded_mono|].
    unfold rounded. apply round_0, valid_rnd_N.
  - rewrite (Rabs_left x) by lra. rewrite rounded_opp. rewrite Rabs_left1; [reflexivity|].
    replace 0%R with (rounded 4 0); [apply rounded_mono; lra|]. unfold rounded. apply round_0, valid_rnd_N.
Qed.

(** 2 (PI r) and (2 r) PI round to the same value. *)
Lemma angle_packet x : pat x -> ieee_mul 4 (Fin false (2 * rounded 4 PI)) (dat x) (dat (fl_mul 4 (fl_mul 4 f32_2 x) f32_PI)).
Proof.
  intros P. pose proof (d_mul _ _ p_2 P) as H1. pose proof (d_mul _ _ (p_mul _ _ p_2 P) p_PI) as H2.
  rewrite d_2 in H1. rewrite d_PI in H2. pose proof PI_big as PB.
  revert H1 H2. generalize (dat (fl_mul 4 f32_2 x)) (dat (fl_mul 4 (fl_mul 4 f32_2 x) f32_PI)). intros y r H1 H2.
  destruct (dat x) as [|s|s u] eqn:E; cbn [ieee_mul] in H1.
  - subst y. exact H2.
  - rewrite Req_bool_false in H1 by lra. subst y. cbn [ieee_mul] in *. rewrite Req_bool_false in H2 by lra. rewrite Req_bool_false by lra.
    rewrite H2. now destruct s.
  - destruct (rep_pat x u P (ex_intro _ s E)) as [R _].
    destruct H1 as (s' & (S1 & S2 & S3) & Y). rewrite (double_exact u R) in Y. cbn [ieee_mul].
    destruct (Rlt_bool_spec (Rabs (2 * u)) (bpow radix2 (bias 4 + 1))) as [B|B]; subst y; cbn [ieee_mul] in H2.
    + destruct H2 as (z & (Z1 & Z2 & Z3) & ->). exists z. split.
      * split; [|split]; intros H.
        -- apply Z1. nra.
        -- apply Z2. nra.
        -- assert (u = 0)%R by nra. subst u. rewrite Z3 by ring. rewrite S3 by ring. destruct s; reflexivity.
      * replace (2 * u * rounded 4 PI)%R with (2 * rounded 4 PI * u)%R by ring. reflexivity.
    + rewrite Req_bool_false in H2 by lra. rewrite xorb_false_r in H2. subst r.
      assert (U : u <> 0%R). { intros ->. rewrite Rmult_0_r, Rabs_R0 in B. pose proof (bpow_gt_0 radix2 (bias 4 + 1)). lra. }
      exists s'. split.
      * split; [|split]; intros H; [apply S1; nra|apply S2; nra|nra].
      * rewrite rounded_abs. rewrite Rlt_bool_false; [reflexivity|]. rewrite <- bpow_rounded. apply rounded_mono.
        rewrite Rabs_mult. rewrite Rabs_mult in B. rewrite (Rabs_pos_eq (2 * rounded 4 PI)) by lra. rewrite (Rabs_pos_eq 2) in B by lra.
        pose proof (Rabs_pos u). nra.
Qed.
Lemma angle_scalar x : pat x -> ieee_mul 4 (Fin false (2 * rounded 4 PI)) (dat x) (dat (fl_mul 4 (fl_mul 4 f32_2 f32_PI) x)).
Proof. intros P. rewrite <- d_two_PI. apply d_mul; [|exact P]. apply p_mul; [exact p_2|exact p_PI]. Qed.

(** *** The direction *)
Section Direction.
  Variables (cosine sine : datum -> datum -> Prop).
  Variables (qa qb angle cosf sinf : Z -> Z).
  Hypothesis HA : forall p, pat p -> pat (qa p) /\ ieee_sqrt 4 (dat p) (dat (qa p)).
  Hypothesis HB : forall p, pat p -> pat (qb p) /\ ieee_sqrt 4 (dat p) (dat (qb p)).
  Hypothesis HAn : forall p, pat p -> pat (angle p) /\ ieee_mul 4 (Fin false (2 * rounded 4 PI)) (dat p) (dat (angle p)).
  Hypothesis HC : forall p, pat p -> pat (cosf p) /\ cosine (dat p) (dat (cosf p)).
  Hypothesis HSi : forall p, pat p -> pat (sinf p) /\ sine (dat p) (dat (sinf p)).
  Definition hemi (r1 r2 : Z) : v3 :=
    V3 (fl_mul 4 (cosf (angle r2)) (qa r1)) (fl_mul 4 (sinf (angle r2)) (qa r1))
       (qb (fl_sub 4 f32_1 (fl_mul 4 (qa r1) (qa r1)))).
  Lemma hemi_ok r1 r2 : pat r1 -> pat r2 ->
    pat3 (hemi r1 r2) /\ hemisphere_point cosine sine (dat r1) (dat r2) (point_of (hemi r1 r2)).
  Proof.
    intros P1 P2. destruct (HA r1 P1) as [A1 A2]. destruct (HAn r2 P2) as [N1 N2]. destruct (HC _ N1) as [C1 C2]. destruct (HSi _ N1) as [S1 S2].
    assert (D1 : pat (fl_sub 4 f32_1 (fl_mul 4 (qa r1) (qa r1)))) by (apply p_sub; [exact p_1|apply p_mul; exact A1]).
    destruct (HB _ D1) as [B1 B2]. split; [apply p3_lit; [now apply p_mul|now apply p_mul|exact B1]|].
    eexists _, _, _, _, _, _, _, _, _. split; [exact A2|]. split; [exact N2|]. split; [exact C2|]. split; [exact S2|].
    split; [apply d_mul; [exact C1|exact A1]|]. split; [apply d_mul; [exact S1|exact A1]|]. split; [apply d_mul; exact A1|].
    split; [|split; [exact B2|reflexivity]]. pose proof (d_sub _ _ p_1 (p_mul _ _ A1 A1)) as H. rewrite d_1 in H. exact H.
  Qed.
End Direction.
