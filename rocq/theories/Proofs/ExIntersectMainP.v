(** Where rays meet planes and spheres. *)
From Coq Require Import ZArith List Bool Lia Reals Lra.
From Flocq Require Import Core.
From Verif.Model Require Import Base FloatLane Llvm Tables MathTables Math Minimal MaskReduce Ops Cmp Float ExStencil ExRandom ExGeometry ExIntersect.
From Verif.Spec Require Import Spec Floats MathSpec Stencil Rays.
From Verif.Proofs Require Import Lib MinimalP OpsP2 MaskReduceP FloatP FloatOpsP FloatVecP FloatApiP FloatConstsP MathApiP MathLlvmP ExMandelbrotP ExPacketP ExIntersectP.
Import ListNotations.
Open Scope Z_scope.
Local Notation pat := (pattern 4).
Local Notation dat := f32_datum.

(** *** Data *)
Lemma ieee_mul_comm b x y r : ieee_mul b x y r -> ieee_mul b y x r.
Proof.
  unfold ieee_mul. destruct x as [|s|s u], y as [|s'|s' v]; auto; rewrite ?(xorb_comm s' s), ?(Rmult_comm v u); auto.
Qed.
Lemma ieee_add_comm b x y r : ieee_add b x y r -> ieee_add b y x r.
Proof.
  unfold ieee_add. destruct x as [|s|s u], y as [|s'|s' v]; auto; rewrite ?(andb_comm s' s), ?(Rplus_comm v u); auto.
  destruct s, s'; auto.
Qed.
Lemma rounded_opp b x : rounded b (- x) = (- rounded b x)%R.
Proof. unfold rounded. apply round_NE_opp. Qed.
Lemma rounds_opp b x z r : rounds_to b x z r -> rounds_to b (- x) (negb z) (negated r).
Proof.
  intros (s & (H1 & H2 & H3) & ->). exists (negb s). split.
  - repeat split; intros H.
    + rewrite H2; [reflexivity|lra].
    + rewrite H1; [reflexivity|lra].
    + rewrite H3; [reflexivity|lra].
  - rewrite rounded_opp, Rabs_Ropp. destruct (Rlt_bool _ _); reflexivity.
Qed.
Lemma ieee_mul_neg b x y r : ieee_mul b x y r -> ieee_mul b x (negated y) (negated r).
Proof.
  unfold ieee_mul. destruct x as [|s|s u], y as [|s'|s' v]; cbn [negated]; try (intros ->; reflexivity).
  - intros ->. cbn [negated]. destruct s, s'; reflexivity.
  - intros ->. assert (Req_bool (- v) 0 = Req_bool v 0) as ->.
    { destruct (Req_bool_spec v 0), (Req_bool_spec (-v) 0); try reflexivity; lra. }
    destruct (Req_bool v 0); [reflexivity|]. destruct s, s'; reflexivity.
  - intros ->. destruct (Req_bool u 0); [reflexivity|]. destruct s, s'; reflexivity.
  - intros H. apply rounds_opp in H. replace (u * - v)%R with (- (u * v))%R by ring.
    replace (xorb s (negb s')) with (negb (xorb s s')) by (destruct s, s'; reflexivity). exact H.
Qed.

Lemma d_add p q : pat p -> pat q -> ieee_add 4 (dat p) (dat q) (dat (fl_add 4 p q)).
Proof. intros P Q. exact (proj2 (add_pattern 4 fs4 p q P Q)). Qed.
Lemma d_sub p q : pat p -> pat q -> ieee_sub 4 (dat p) (dat q) (dat (fl_sub 4 p q)).
Proof. intros P Q. exact (proj2 (sub_pattern 4 fs4 p q P Q)). Qed.
Lemma d_mul p q : pat p -> pat q -> ieee_mul 4 (dat p) (dat q) (dat (fl_mul 4 p q)).
Proof. intros P Q. exact (proj2 (mul_pattern 4 fs4 p q P Q)). Qed.
Lemma d_div p q : pat p -> pat q -> ieee_div 4 (dat p) (dat q) (dat (fl_div 4 p q)).
Proof. intros P Q. exact (proj2 (div_pattern 4 fs4 p q P Q)). Qed.
Lemma d_sqrt p : pat p -> ieee_sqrt 4 (dat p) (dat (fl_sqrt 4 p)).
Proof. intros P. exact (proj2 (sqrt_pattern 4 fs4 p P)). Qed.
Lemma d_lt p q : pat p -> pat q -> (fl_lt 4 p q = true <-> ieee_lt (dat p) (dat q)).
Proof. intros P Q. exact (fl_lt_iff 4 fs4 p q P Q). Qed.
Lemma d_gt p q : pat p -> pat q -> (fl_gt 4 p q = true <-> ieee_lt (dat q) (dat p)).
Proof. intros P Q. exact (fl_gt_iff 4 fs4 p q P Q). Qed.
Lemma d_ge p q : pat p -> pat q -> (fl_ge 4 p q = true <-> ieee_le (dat q) (dat p)).
Proof. intros P Q. exact (fl_ge_iff 4 fs4 p q P Q). Qed.
Lemma d_neg p : pat p -> dat (f32_neg p) = negated (dat p).
Proof. intros P. exact (proj2 (sign_flip 4 p fs4 P)). Qed.
Lemma d_lneg p : pat p -> dat (lneg p) = negated (dat p).
Proof.
  intros P. apply (minus_one_mul 4 fs4 (dat p) _ p P eq_refl). unfold lneg.
  replace (Fin true (-1)) with (dat (fl_of_int 4 (-1))); [apply d_mul; [exact minus1_pat|exact P]|].
  exact (of_small_int 4 fs4 (-1) ltac:(reflexivity)).
Qed.

Lemma abs_pat p : pat p -> pat (fl_abs 4 p) /\ dat (fl_abs 4 p) = absolute (dat p).
Proof.
  intros P. rewrite (abs_pattern 4 fs4 p P). pose proof (sign_flip 4 p fs4 P) as F. cbv zeta in F.
  assert (G : forall x : R, (0 <= magnitude 4 p)%R).
  { intros _. unfold magnitude. destruct (_ =? _); apply Rmult_le_pos; try apply bpow_ge_0; apply IZR_le.
    - apply Z.mod_pos_bound. reflexivity.
    - pose proof (Z.mod_pos_bound p (2 ^ sig_width 4) ltac:(reflexivity)). unfold sig_field.
      change (sig_width 4) with 23 in *. change (2 ^ 23) with 8388608 in *. lia. }
  specialize (G 0%R).
  destruct (sign_field 4 p) eqn:E.
  - split; [exact (proj1 F)|]. unfold f32_datum. rewrite (proj2 F). unfold datum_of. rewrite E.
    destruct (_ =? _); [destruct (_ =? _); reflexivity|]. cbn [negated absolute negb]. f_equal.
    rewrite Rabs_Ropp, Rabs_pos_eq by exact G. apply Ropp_involutive.
  - split; [exact P|]. unfold f32_datum, datum_of. rewrite E.
    destruct (_ =? _); [destruct (_ =? _); reflexivity|]. cbn [absolute]. f_equal.
    rewrite Rabs_pos_eq by exact G. reflexivity.
Qed.

Lemma d_0 : dat f32_0 = zero.
Proof.
  unfold f32_datum, datum_of, magnitude, f32_0. change (exp_field 4 0) with 0. change (sig_field 4 0) with 0.
  change (sign_field 4 0) with false. change (2 ^ exp_width 4 - 1) with 255. cbv beta iota. cbn [Z.eqb].
  unfold zero. f_equal. apply Rmult_0_l.
Qed.
Lemma d_1 : dat f32_1 = Fin false 1.
Proof. exact (of_small_int 4 fs4 1 ltac:(reflexivity)). Qed.
Lemma p_0 : pat f32_0.
Proof. apply p_lit. unfold f32_0. lia. Qed.
Lemma p_1 : pat f32_1.
Proof. apply p_lit. unfold f32_1. lia. Qed.
Lemma p_tiny : pat f32_1em17.
Proof. apply p_lit. unfold f32_1em17. lia. Qed.
Lemma d_tiny : dat f32_1em17 = tiny.
Proof.
  unfold tiny.
  assert (E : rounded 4 (/ 10 ^ 17) = (IZR 12089258 * bpow radix2 (-80))%R).
  { apply rounded_near; [exact fs4|reflexivity|reflexivity|vm_compute; discriminate|].
    change (Zneg 80) with (Z.opp 80). rewrite (bpow_inv 80) by lia. change (2 ^ 80) with 1208925819614629174706176.
    rewrite (pow_IZR 10 17). change (10 ^ Z.of_nat 17) with 100000000000000000.
    split; lra. }
  rewrite E. unfold f32_datum, datum_of, magnitude.
  change (exp_field 4 f32_1em17) with 70. change (sig_field 4 f32_1em17) with 3700650.
  change (sign_field 4 f32_1em17) with false. change (2 ^ exp_width 4 - 1) with 255. cbv beta iota. cbn [Z.eqb Pos.eqb].
  reflexivity.
Qed.

(** *** A ray and an object *)
Lemma decide_intersected dot mad r ob i i' t (c : bool) new :
  (forall res, (c = true /\ res = Some (dat t)) \/ (c = false /\ res = None) -> meets dot mad r ob res) ->
  (c = true -> describes dot r ob (dat t) new) ->
  i' = (if c && fl_lt 4 t (i_t i) then new else i) -> pat t -> pat (i_t i) -> intersected dot mad r ob i i'.
Proof.
  intros HM HD -> P PI. unfold intersected. destruct c eqn:C; cbn [andb].
  - exists (Some (dat t)). split; [apply HM; auto|]. pose proof (d_lt t (i_t i) P PI) as L.
    destruct (fl_lt 4 t (i_t i)); [left|right]; (split; [|auto]).
    + now apply L.
    + intros H. apply L in H. discriminate.
  - exists None. split; [apply HM; auto|reflexivity].
Qed.

Section One.
  (** A way to compute: dot product, multiply-add, change of sign, square root, scaling. *)
  Variables (D : dotter) (mad : mul_adder).
  Variables (dt : v3 -> v3 -> Z) (scale : Z -> v3 -> v3).
  Hypothesis HD : forall a b, pat3 a -> pat3 b -> pat (dt a b) /\ D (point_of a) (point_of b) (dat (dt a b)).
  Hypothesis HS : forall s a, pat s -> pat3 a -> pat3 (scale s a) /\ times (dat s) (point_of a) (point_of (scale s a)).

  Lemma add_each a b : pat3 a -> pat3 b -> each2 (ieee_add 4) (point_of a) (point_of b) (point_of (v3_add a b)).
  Proof. intros (A1 & A2 & A3) (B1 & B2 & B3). unfold each2, point_of, v3_add. cbn [vx vy vz]. auto using d_add. Qed.
  Lemma sub_each a b : pat3 a -> pat3 b -> difference (point_of a) (point_of b) (point_of (v3_sub a b)).
  Proof. intros (A1 & A2 & A3) (B1 & B2 & B3). unfold difference, each2, point_of, v3_sub. cbn [vx vy vz]. auto using d_sub. Qed.
  Lemma along_ok o d t : pat3 o -> pat3 d -> pat t ->
    along (point_of o) (point_of d) (dat t) (point_of (v3_add o (scale t d))).
  Proof.
    intros O Dd T. destruct (HS t d T Dd) as [S1 S2]. exists (point_of (scale t d)). split; [exact S2|].
    apply add_each; assumption.
  Qed.
  Definition nrm (a : v3) : v3 := scale (fl_div 4 f32_1 (fl_sqrt 4 (dt a a))) a.
  Lemma nrm_ok a : pat3 a -> pat3 (nrm a) /\ unit_vector D (point_of a) (point_of (nrm a)).
  Proof.
    intros A. destruct (HD a a A A) as [P1 P2].
    assert (Q : pat (fl_div 4 f32_1 (fl_sqrt 4 (dt a a)))) by (apply p_div; [exact p_1|apply p_sqrt; exact P1]).
    destruct (HS _ a Q A) as [S1 S2]. split; [exact S1|].
    exists (dat (dt a a)), (dat (fl_sqrt 4 (dt a a))), (dat (fl_div 4 f32_1 (fl_sqrt 4 (dt a a)))).
    split; [exact P2|]. split; [apply d_sqrt; exact P1|]. split; [|exact S2].
    rewrite <- d_1. apply d_div; [exact p_1|apply p_sqrt; exact P1].
  Qed.

  Lemma ldot_scalar a b : pat3 a -> pat3 b -> pat (dot a b) /\ left_to_right (point_of a) (point_of b) (dat (dot a b)).
  Proof.
    intros (A1 & A2 & A3) (B1 & B2 & B3). split; [unfold dot; auto with pats|].
    unfold left_to_right, point_of, dot. eexists _, _, _, _.
    split; [apply d_mul; assumption|]. split; [apply d_mul; assumption|]. split; [apply d_mul; assumption|].
    split; [apply d_add; auto with pats|]. apply d_add; auto with pats.
  Qed.

  (** *** Planes *)
  Lemma plane_intersected r pl i i' (ng : Z -> Z) v w t (new : isect) (c : bool) :
    (forall p, pat p -> pat (ng p) /\ dat (ng p) = negated (dat p)) ->
    pat3 (r_origin r) -> pat3 (r_dir r) -> pat3 (p_p pl) -> pat3 (p_n pl) -> pat (i_t i) ->
    v = dt (r_dir r) (p_n pl) -> w = dt (r_origin r) (p_n pl) ->
    t = fl_div 4 (ng (fl_add 4 w (f32_neg (dot (p_p pl) (p_n pl))))) v ->
    (c = true <-> fl_ge 4 (fl_abs 4 v) f32_1em17 = true /\ fl_gt 4 t f32_0 = true) ->
    new = Isect t (v3_add (r_origin r) (scale t (r_dir r))) (p_n pl) true ->
    i' = (if c && fl_lt 4 t (i_t i) then new else i) ->
    intersected D mad r (APlane pl) i i'.
  Proof.
    intros HN PO PD PP PN PI Ev Ew Et Hc En Ei.
    destruct (HD _ _ PD PN) as [V1 V2]. rewrite <- Ev in V1, V2.
    destruct (HD _ _ PO PN) as [W1 W2]. rewrite <- Ew in W1, W2.
    destruct (ldot_scalar _ _ PP PN) as [K1 K2].
    set (k := dot (p_p pl) (p_n pl)) in *. set (q := fl_add 4 w (f32_neg k)) in *.
    assert (Q1 : pat q) by (unfold q; auto with pats).
    assert (T1 : pat t) by (rewrite Et; apply p_div; [apply HN; exact Q1|exact V1]).
    apply (decide_intersected D mad r (APlane pl) i i' t c new); [|intros _; split|exact Ei|exact T1|exact PI].
    - intros res Hr. unfold meets. exists (dat k), (dat v), (dat w), (dat q), (dat t).
      split; [exact K2|]. split; [exact V2|]. split; [exact W2|].
      split; [unfold ieee_sub; rewrite <- d_neg by exact K1; apply d_add; auto with pats|].
      destruct (HN q Q1) as [N1 N2].
      split; [rewrite <- N2, Et; apply d_div; assumption|].
      rewrite <- d_tiny, <- d_0. destruct (abs_pat v V1) as [A1 A2]. rewrite <- A2.
      pose proof (d_ge _ _ A1 p_tiny) as Hg. pose proof (d_gt _ _ T1 p_0) as Hz. rewrite <- Hg, <- Hz.
      destruct Hr as [[Hr ->]|[Hr ->]]; [left|right]; (split; [|reflexivity]).
      + now apply Hc.
      + rewrite <- Hc. congruence.
    - rewrite En. reflexivity.
    - rewrite En. cbn [i_p i_n i_hit]. split; [apply along_ok; assumption|]. split; reflexivity.
  Qed.

  (** *** Spheres *)
  Lemma sphere_intersected r s i i' b rr c disc e t (new : isect) (h : bool) :
    let rs := v3_sub (r_origin r) (s_center s) in
    pat3 (r_origin r) -> pat3 (r_dir r) -> pat3 (s_center s) -> pat (i_t i) ->
    b = dt rs (r_dir r) -> rr = dt rs rs ->
    mad (dat (s_radius s)) (negated (dat (s_radius s))) (dat rr) c ->
    mad (dat b) (dat b) (negated c) (dat disc) -> pat disc ->
    ieee_sqrt 4 (dat disc) e -> ieee_sub 4 (negated (dat b)) e (dat t) -> pat t ->
    (h = true <-> fl_gt 4 disc f32_0 = true /\ fl_gt 4 t f32_0 = true) ->
    (let p := v3_add (r_origin r) (scale t (r_dir r)) in new = Isect t p (nrm (v3_sub p (s_center s))) true) ->
    i' = (if h && fl_lt 4 t (i_t i) then new else i) ->
    intersected D mad r (ASphere s) i i'.
  Proof.
    intros rs PO PD PC PI Eb Er Hc Hd Pd He Ht Pt Hh En Ei.
    assert (PS : pat3 rs) by (apply p3_sub; assumption).
    apply (decide_intersected D mad r (ASphere s) i i' t h new); [|intros _; split|exact Ei|exact Pt|exact PI].
    - intros res Hr. unfold meets. exists (point_of rs), (dat b), (dat rr), c, (dat disc), e, (dat t).
      split; [apply sub_each; assumption|]. rewrite Eb, Er in *.
      split; [apply HD; assumption|]. split; [apply HD; assumption|]. split; [exact Hc|]. split; [exact Hd|].
      split; [exact He|]. split; [exact Ht|]. rewrite <- d_0.
      pose proof (d_gt _ _ Pd p_0) as Hg. pose proof (d_gt _ _ Pt p_0) as Hz. rewrite <- Hg, <- Hz.
      destruct Hr as [[Hr ->]|[Hr ->]]; [left|right]; (split; [|reflexivity]).
      + now apply Hh.
      + rewrite <- Hh. congruence.
    - rewrite En. reflexivity.
    - assert (P3 : pat3 (v3_add (r_origin r) (scale t (r_dir r)))) by (apply p3_add; [exact PO|apply HS; assumption]).
      rewrite En. cbn [i_p i_n i_hit]. split; [apply along_ok; assumption|]. split; [|reflexivity].
      eexists. split; [apply sub_each; assumption|]. apply nrm_ok. apply p3_sub; assumption.
  Qed.
End One.
