(** Fused multiply-add, and what the vertical math functions compute when the external
    functions behave as the LLVM manual says. *)
From Coq Require Import ZArith List Bool Lia Reals Lra.
From Coq.Floats Require Import SpecFloat.
From Flocq Require Import Core BinarySingleNaN.
From Verif.Model Require Import Base FloatLane Llvm Bytes Tables Minimal Ops MathTables.
From Verif.Model Require Math.
From Verif.Spec Require Import Spec Floats MathSpec.
From Verif.Proofs Require Import Lib FloatP FloatOpsP FloatVecP OpsP.
From Verif.Proofs Require MathP MathApiP.
Import ListNotations.
Open Scope Z_scope.

Section Fma.
Variable b : nat.
Hypothesis F : fsize b.
Notation bf := (binary_float (fprec b) (femax b)).
Local Instance Hp : Prec_gt_0 (fprec b) := fprec_gt_0 b.
Local Instance He : Prec_lt_emax (fprec b) (femax b) := fprec_lt_emax b.

Lemma normalize_rounds k e z :
  rounds_to b (F2R (Float radix2 k e)) z (b_datum (binary_normalize (fprec b) (femax b) Hp He mode_NE k e z)).
Proof.
  pose proof (binary_normalize_correct (fprec b) (femax b) Hp He mode_NE k e z) as H.
  cbv zeta in H. rewrite <- rounded_eq in H by auto.
  set (x := F2R (Float radix2 k e)) in *.
  unfold rounds_to. rewrite top_eq by auto.
  destruct (Rlt_bool_spec (Rabs (rounded b x)) (bpow radix2 (femax b))) as [L|L].
  - destruct H as (HR & HF & HS). exists (match Rcompare x 0 with Eq => z | Lt => true | Gt => false end).
    split; [apply compare_sign|]. rewrite b_datum_finite by auto. now rewrite HR, HS.
  - exists (Rlt_bool x 0). split.
    + assert (x <> 0%R) by (intros X; rewrite X, rounded_0, Rabs_R0 in L; pose proof (bpow_gt_0 radix2 (femax b)); lra).
      split; [|split]; intros S; [now apply Rlt_bool_true|apply Rlt_bool_false; lra|contradiction].
    + now apply overflow_datum.
Qed.

Lemma scaled k e e0 : e0 <= e -> F2R (Float radix2 k e) = F2R (Float radix2 (k * 2 ^ (e - e0)) e0).
Proof.
  intros L. unfold F2R. cbn [Fnum Fexp].
  assert (E : (bpow radix2 e = IZR (2 ^ (e - e0)) * bpow radix2 e0)%R).
  { change 2 with (radix_val radix2) at 1. rewrite IZR_Zpower by lia. rewrite <- bpow_plus. f_equal. lia. }
  rewrite E, mult_IZR. ring.
Qed.

Definition fnum (f : spec_float) : Z := match f with S754_finite s m _ => cond_Zopp s (Zpos m) | _ => 0 end.
Definition fexpo (f : spec_float) : Z := match f with S754_finite _ _ e => e | _ => 0 end.
Definition ffinite (f : spec_float) : Prop := match f with S754_zero _ | S754_finite _ _ _ => True | _ => False end.
Definition fsign (f : spec_float) : bool :=
  match f with S754_zero s | S754_finite s _ _ | S754_infinity s => s | S754_nan => false end.

Lemma finite_sf f : ffinite f -> sf_datum f = Fin (fsign f) (F2R (Float radix2 (fnum f) (fexpo f))).
Proof.
  destruct f; cbn [ffinite]; try tauto; intros _; cbn [sf_datum fnum fexpo fsign]; auto.
  now rewrite F2R_0.
Qed.

Lemma fma_value x y z (e := Z.min (fexpo x + fexpo y) (fexpo z)) :
  F2R (Float radix2 (fnum x * fnum y * 2 ^ (fexpo x + fexpo y - e) + fnum z * 2 ^ (fexpo z - e)) e) =
  (F2R (Float radix2 (fnum x) (fexpo x)) * F2R (Float radix2 (fnum y) (fexpo y)) +
   F2R (Float radix2 (fnum z) (fexpo z)))%R.
Proof.
  rewrite (scaled (fnum z) (fexpo z) e) by (unfold e; lia).
  assert ((F2R (Float radix2 (fnum x) (fexpo x)) * F2R (Float radix2 (fnum y) (fexpo y)))%R =
    F2R (Float radix2 (fnum x * fnum y) (fexpo x + fexpo y))) as ->.
  { unfold F2R. cbn [Fnum Fexp]. rewrite mult_IZR, bpow_plus. ring. }
  rewrite (scaled (fnum x * fnum y) _ e) by (unfold e; lia).
  unfold F2R. cbn [Fnum Fexp]. rewrite plus_IZR. ring.
Qed.

Lemma fma_finite x y z : ffinite x -> ffinite y -> ffinite z ->
  let e := Z.min (fexpo x + fexpo y) (fexpo z) in
  SFfma (fprec b) (femax b) x y z =
  SpecFloat.binary_normalize (fprec b) (femax b)
    (fnum x * fnum y * 2 ^ (fexpo x + fexpo y - e) + fnum z * 2 ^ (fexpo z - e)) e
    (xorb (fsign x) (fsign y) && fsign z).
Proof. destruct x, y, z; cbn [ffinite]; try tauto; reflexivity. Qed.

Lemma fma_datum (x y z : bf) : exists w : bf,
  SFfma (fprec b) (femax b) (B2SF x) (B2SF y) (B2SF z) = B2SF w /\
  ieee_fma b (b_datum x) (b_datum y) (b_datum z) (b_datum w).
Proof.
  assert (forall x y z : bf, ffinite (B2SF x) -> ffinite (B2SF y) -> ffinite (B2SF z) ->
    exists w : bf, SFfma (fprec b) (femax b) (B2SF x) (B2SF y) (B2SF z) = B2SF w /\
      ieee_fma b (b_datum x) (b_datum y) (b_datum z) (b_datum w)) as G.
  { clear x y z. intros x y z X Y Z. rewrite fma_finite by auto. cbv zeta. eexists. split.
    - apply binary_normalize_equiv.
    - unfold b_datum at 1 2 3. rewrite !finite_sf by auto. cbn [ieee_fma].
      rewrite <- fma_value. apply normalize_rounds. }
  destruct x as [sx|sx| |sx mx ex BX], y as [sy|sy| |sy my ey BY], z as [sz|sz| |sz mz ez BZ];
    try (exists B754_nan; split; reflexivity);
    try (apply G; exact I);
    try (exists (B754_infinity sz); split; reflexivity);
    try (exists (B754_infinity (xorb sx sy)); split; [reflexivity|];
         unfold b_datum; cbn [B2SF sf_datum ieee_fma]; try rewrite nonzero_finite; try rewrite (xorb_comm sx sy); reflexivity);
    try (exists B754_nan; split; [reflexivity|]; unfold b_datum; cbn [B2SF sf_datum ieee_fma]; now rewrite Req_bool_true);
    (exists (if Bool.eqb (xorb sx sy) sz then B754_infinity sz else B754_nan); split;
      [cbn [SFfma B2SF]; destruct (Bool.eqb (xorb sx sy) sz); reflexivity|];
      unfold b_datum; cbn [B2SF sf_datum ieee_fma]; try rewrite nonzero_finite; try rewrite (xorb_comm sy sx);
      destruct (Bool.eqb (xorb sx sy) sz); reflexivity).
Qed.

Lemma fma_pattern p q r : pattern b p -> pattern b q -> pattern b r ->
  pattern b (fl_fma b p q r) /\
  ieee_fma b (datum_of b p) (datum_of b q) (datum_of b r) (datum_of b (fl_fma b p q r)).
Proof.
  intros P Q R. unfold fl_fma. rewrite <- !fl_decode by auto.
  destruct (fma_datum (fl b p) (fl b q) (fl b r)) as (w & -> & H).
  destruct (encode_B b w F) as [EP ->]. split; [exact EP|]. now rewrite !datum_fl by auto.
Qed.

Lemma fma_unique x y z r r' : ieee_fma b x y z r -> ieee_fma b x y z r' -> r = r'.
Proof. destruct x, y, z; cbn [ieee_fma]; intros; try congruence. eapply rounds_unique; eauto. Qed.

Lemma abs_pattern p : pattern b p ->
  fl_abs b p = if sign_field b p then p - 2 ^ (8 * Z.of_nat b - 1) else p.
Proof.
  unfold pattern, fl_abs, sign_field. intros P.
  assert (fmw b + few b = 8 * Z.of_nat b - 1) as -> by (destruct F as [-> | ->]; reflexivity).
  assert (2 ^ (8 * Z.of_nat b) = 2 * 2 ^ (8 * Z.of_nat b - 1)) as E.
  { rewrite <- Z.pow_succ_r by (destruct F as [-> | ->]; lia). f_equal. lia. }
  assert (0 < 2 ^ (8 * Z.of_nat b - 1)) as T by (apply Z.pow_pos_nonneg; destruct F as [-> | ->]; lia).
  change (0 <= p < 2 ^ (8 * Z.of_nat b)) in P. rewrite E in P. set (k := 2 ^ (8 * Z.of_nat b - 1)) in *. clearbody k.
  destruct (Z.leb_spec k p).
  - clear - P H T. symmetry. apply Zmod_unique with 1; lia.
  - apply Z.mod_small. lia.
Qed.
End Fma.

(** ** Without SLEEF *)
Theorem llvm_methods tg t X S :
  In t math_types -> ~ uses_sleef tg -> works_lanewise X S -> follows_llvm S ->
  let d := datum_of (vb t) in
  (forall v junk, is_vector t v -> is_vector t junk ->
     (exists r, Math.fabs X tg junk t v = Some r /\
        lanewise1 t v r (fun a c => c = if sign_field (vb t) a then a - 2 ^ (width t - 1) else a)) /\
     (exists r, Math.fsqrt X tg junk t v = Some r /\ lanewise1 t v r (fun a c => ieee_sqrt (vb t) (d a) (d c))) /\
     (exists r, Math.sqrte X tg junk t v = Some r /\ lanewise1 t v r (fun a c => ieee_sqrt (vb t) (d a) (d c)))) /\
  (t_arch tg <> S390x ->
   forall x y z junk junk' junk'', is_vector t x -> is_vector t y -> is_vector t z ->
     is_vector t junk -> is_vector t junk' -> is_vector t junk'' ->
     exists r, Math.mul_add X tg junk junk' junk'' t x y z = Some r /\
       lanewise3 t x y z r (fun a b c p => ieee_fma (vb t) (d a) (d b) (d c) (d p))) /\
  (forall x y z, is_vector t x -> is_vector t y -> is_vector t z ->
     exists r, Math.mul_adde X tg t x y z = Some r /\
       lanewise3 t x y z r (fun a b c p =>
         ieee_fma (vb t) (d a) (d b) (d c) (d p) \/ ieee_mul_add (vb t) (d a) (d b) (d c) (d p))).
Proof.
  intros Ht NS W L d. pose proof (MathApiP.math_type_float t Ht) as Hf. pose proof (float_size t Hf) as Hs.
  destruct (MathApiP.unary_methods tg t Ht) as (_ & U & _).
  destruct (U NS) as ((fa & Fa1 & Fa2 & Fa3 & Ma) & _ & _ & (fs & Fs1 & Fs2 & Fs3 & Ms) & (fe & Fe1 & Fe2 & Fe3 & Me) & _).
  split; [|split].
  - intros v junk Hv Hj. split; [|split].
    + destruct (Ma X S W v junk Hv Hj) as (r & Er & R & A). exists r. split; [exact Er|]. split; [exact R|].
      intros i a La. destruct (A i a La) as (c & Lc & ->). exists (l1 S fa a). split; [exact Lc|].
      destruct (L fa Fa3) as (LA & _); [now rewrite Fa2|]. rewrite Fa2 in LA. apply LA; auto.
      unfold lane_pattern. rewrite Fa2. exact (is_vector_lane t v i a Hv La).
    + destruct (Ms X S W v junk Hv Hj) as (r & Er & R & A). exists r. split; [exact Er|]. split; [exact R|].
      intros i a La. destruct (A i a La) as (c & Lc & ->). exists (l1 S fs a). split; [exact Lc|].
      destruct (L fs Fs3) as (_ & LA & _); [now rewrite Fs2|]. rewrite Fs2 in LA. apply LA; auto.
      unfold lane_pattern. rewrite Fs2. exact (is_vector_lane t v i a Hv La).
    + destruct (Me X S W v junk Hv Hj) as (r & Er & R & A). exists r. split; [exact Er|]. split; [exact R|].
      intros i a La. destruct (A i a La) as (c & Lc & ->). exists (l1 S fe a). split; [exact Lc|].
      destruct (L fe Fe3) as (_ & LA & _); [now rewrite Fe2|]. rewrite Fe2 in LA. apply LA; auto.
      unfold lane_pattern. rewrite Fe2. exact (is_vector_lane t v i a Hv La).
  - intros N3 x y z junk junk' junk'' Hx Hy Hz Hj Hj' Hj''.
    destruct (MathApiP.mul_add_method tg t Ht) as [MA _]. destruct (MA N3) as (f & F1 & F2 & _ & F3 & M).
    destruct (M X S W x y z junk junk' junk'' Hx Hy Hz Hj Hj' Hj'') as (r & Er & R & A).
    exists r. split; [exact Er|]. split; [exact R|]. intros i a b c La Lb Lc.
    destruct (A i a b c La Lb Lc) as (p & Lp & ->). exists (l3 S f a b c). split; [exact Lp|].
    destruct (L f (F3 NS)) as (_ & _ & LA & _); [now rewrite F2|]. rewrite F2 in LA.
    apply LA; auto; unfold lane_pattern; rewrite F2.
    + exact (is_vector_lane t x i a Hx La).
    + exact (is_vector_lane t y i b Hy Lb).
    + exact (is_vector_lane t z i c Hz Lc).
  - intros x y z Hx Hy Hz. destruct (MathApiP.mul_adde_method tg t Ht) as [MA M3].
    assert (t_arch tg = S390x \/ t_arch tg <> S390x) as [E3|N3] by (destruct (t_arch tg); auto; right; discriminate).
    + destruct (M3 E3 X x y z Hx Hy Hz) as (r & Er & R & A).
      exists r. split; [exact Er|]. split; [exact R|]. intros i a b c La Lb Lc.
      destruct (A i a b c La Lb Lc) as (p & Lp & Hp). exists p. split; [exact Lp|]. right. exact Hp.
    + destruct (MA N3) as (f & F1 & F2 & F3 & M). destruct (M X S W x y z Hx Hy Hz) as (r & Er & R & A).
      exists r. split; [exact Er|]. split; [exact R|]. intros i a b c La Lb Lc.
      destruct (A i a b c La Lb Lc) as (p & Lp & ->). exists (l3 S f a b c). split; [exact Lp|].
      destruct (L f F3) as (_ & _ & _ & LA); [now rewrite F2|]. rewrite F2 in LA.
      apply LA; auto; unfold lane_pattern; rewrite F2.
      * exact (is_vector_lane t x i a Hx La).
      * exact (is_vector_lane t y i b Hy Lb).
      * exact (is_vector_lane t z i c Hz Lc).
Qed.

(** ** External functions that meet the hypotheses *)

(** Absolute value, square root and fused multiply-add as IEEE-754 has them; the sine of 0
    is 0 and its cosine 1; the others return their first argument. *)
Definition in_lane (f : ext) (z : Z) : Z := z mod 2 ^ (8 * Z.of_nat (x_b f)).
Definition ref_lanes : lane_functions := {|
  l1 := fun f a => in_lane f (match x_fn f with EAbs => fl_abs (x_b f) a | ESqrt => fl_sqrt (x_b f) a | _ => a end);
  l2 := fun f a _ => in_lane f a;
  l3 := fun f a b c => in_lane f (fl_fma (x_b f) a b c);
  lsin := fun f a => in_lane f a;
  lcos := fun f a => in_lane f (if Nat.eqb (x_b f) 4 then 0x3f800000 else 0x3ff0000000000000) |}.
Definition ref_externals : Math.externals := {|
  Math.x_v1 := fun f => map (l1 ref_lanes f);
  Math.x_v2 := fun f => map2 (l2 ref_lanes f);
  Math.x_v3 := fun f => MathP.map3 (l3 ref_lanes f);
  Math.x_s1 := l1 ref_lanes;
  Math.x_s2 := l2 ref_lanes;
  Math.x_vp := fun f v => (map (lsin ref_lanes f) v, map (lcos ref_lanes f) v) |}.

Lemma in_lane_pattern f z : lane_pattern f (in_lane f z).
Proof. apply Z.mod_pos_bound. apply Z.pow_pos_nonneg; lia. Qed.
Lemma in_lane_id f z : lane_pattern f z -> in_lane f z = z.
Proof. apply Z.mod_small. Qed.

Lemma ref_works : works_lanewise ref_externals ref_lanes.
Proof.
  assert (forall f (g : Z -> Z) v, (forall a, lane_pattern f (g a)) -> argument f v ->
    argument f (map g v) /\ forall i a, lane v i a -> lane (map g v) i (g a)) as M.
  { intros f g v G [L A]. split; [split; [now rewrite map_length|apply Forall_forall; intros p Hp]|].
    - apply in_map_iff in Hp as (q & <- & _). apply G.
    - intros i a La. unfold lane in *. now rewrite nth_error_map, La. }
  split; [|split; [|split; [|split; [|split]]]].
  - intros f v A. apply M; auto. intros a. apply in_lane_pattern.
  - intros f v w [Lv _] [Lw _]. cbn [ref_externals Math.x_v2]. split; [split|].
    + rewrite map2_length. rewrite Lv, Lw. apply Nat.min_id.
    + apply Forall_of_nth_error. intros i p E.
      destruct (nth_error v i) as [a|] eqn:Ea, (nth_error w i) as [c|] eqn:Ec;
        try (rewrite (nth_error_map2 _ _ _ _ _ _ Ea Ec) in E; injection E as <-; apply in_lane_pattern).
      all: exfalso; assert (i < x_n f)%nat by
        (rewrite <- (Nat.min_id (x_n f)); rewrite <- Lv at 1; rewrite <- Lw; rewrite <- (map2_length (l2 ref_lanes f) v w);
         apply nth_error_Some; congruence);
        rewrite ?nth_error_None in *; lia.
    + intros i a c La Lc. now apply nth_error_map2.
  - intros f u v w [Lu _] [Lv _] [Lw _]. cbn [ref_externals Math.x_v3].
    assert (length (MathP.map3 (l3 ref_lanes f) u v w) = x_n f) as LM by (now apply MathP.map3_length).
    split; [split; [exact LM|]|].
    + apply Forall_of_nth_error. intros i p E.
      assert (i < x_n f)%nat as I by (rewrite <- LM; apply nth_error_Some; congruence).
      destruct (nth_error u i) as [a|] eqn:Ea; [|apply nth_error_None in Ea; lia].
      destruct (nth_error v i) as [c|] eqn:Ec; [|apply nth_error_None in Ec; lia].
      destruct (nth_error w i) as [e|] eqn:Ee; [|apply nth_error_None in Ee; lia].
      rewrite (MathP.nth_error_map3 _ _ _ _ _ _ _ _ Ea Ec Ee) in E. injection E as <-. apply in_lane_pattern.
    + intros i a c e La Lc Le. now apply MathP.nth_error_map3.
  - intros f v A. cbn [ref_externals Math.x_vp fst snd].
    destruct (M f (lsin ref_lanes f) v) as [A1 B1]; [intros; apply in_lane_pattern|auto|].
    destruct (M f (lcos ref_lanes f) v) as [A2 B2]; [intros; apply in_lane_pattern|auto|].
    split; [auto|split; [auto|]]. auto.
  - intros f a _. split; [reflexivity|apply in_lane_pattern].
  - intros f a c _ _. split; [reflexivity|apply in_lane_pattern].
Qed.

Lemma ref_follows : follows_llvm ref_lanes.
Proof.
  intros f _ B d. assert (fsize (x_b f)) as F by exact B.
  split; [|split; [|split]].
  - intros a E A. cbn [ref_lanes l1]. rewrite E. rewrite <- abs_pattern by auto. apply in_lane_id.
    unfold fl_abs. assert (0 < 2 ^ (fmw (x_b f) + few (x_b f)) <= 2 ^ (8 * Z.of_nat (x_b f))) as R
      by (destruct F as [-> | ->]; split; [reflexivity|discriminate|reflexivity|discriminate]).
    unfold lane_pattern. pose proof (Z.mod_pos_bound a (2 ^ (fmw (x_b f) + few (x_b f))) (proj1 R)) as Q.
    clear - R Q. set (m := a mod _) in *. clearbody m. lia.
  - intros a E A. cbn [ref_lanes l1]. rewrite E. destruct (sqrt_pattern (x_b f) F a A) as [P Q].
    rewrite in_lane_id by exact P. exact Q.
  - intros a c e E A C G. cbn [ref_lanes l3]. destruct (fma_pattern (x_b f) F a c e A C G) as [P Q].
    rewrite in_lane_id by exact P. exact Q.
  - intros a c e E A C G. left. cbn [ref_lanes l3]. destruct (fma_pattern (x_b f) F a c e A C G) as [P Q].
    rewrite in_lane_id by exact P. exact Q.
Qed.

(** ** Two claims that fail *)

(** On s390x mul_add rounds twice: (1 + 2^-12)^2 - (1 + 2^-11). *)
Theorem s390x_mul_add_refuted tg X junk junk' junk'' :
  t_arch tg = S390x ->
  exists x y z r, is_vector f32x2 x /\ is_vector f32x2 y /\ is_vector f32x2 z /\
    Math.mul_add X tg junk junk' junk'' f32x2 x y z = Some r /\
    let d := datum_of 4 in
    ~ lanewise3 f32x2 x y z r (fun a b c p => ieee_fma 4 (d a) (d b) (d c) (d p)).
Proof.
  intros E. set (u := 0x3f800800). set (w := 0xbf801000).
  exists [u; u], [u; u], [w; w], [0; 0].
  assert (fsize 4) as F by now left.
  assert (pattern 4 u) as Pu by (split; [discriminate|reflexivity]).
  assert (pattern 4 w) as Pw by (split; [discriminate|reflexivity]).
  assert (pattern 4 0) as P0 by (split; [discriminate|reflexivity]).
  do 3 (split; [split; [reflexivity|repeat constructor; vm_compute; congruence]|]).
  split.
  - unfold Math.mul_add, mul_add_table, is_s390x. rewrite E. vm_compute. reflexivity.
  - cbv zeta. intros [_ H]. destruct (H 0%nat u u w eq_refl eq_refl eq_refl) as (p & Lp & Hp).
    injection Lp as <-. destruct (fma_pattern 4 F u u w Pu Pu Pw) as [Pf Hf].
    pose proof (fma_unique 4 _ _ _ _ _ Hp Hf) as D.
    assert (datum_of 4 0 <> NaN) as N.
    { intros N. apply (nan_decode 4 F 0 P0) in N. vm_compute in N. discriminate. }
    pose proof (datum_inj 4 _ _ F P0 Pf D N) as Q. vm_compute in Q. discriminate.
Qed.

(** With SLEEF, the second result of [f32x2::sin_cos_pi] is not the cosine. *)
Theorem f32x2_sin_cos_pi_refuted tg :
  uses_sleef tg ->
  ~ (forall X S v junk junk', works_lanewise X S ->
       is_vector f32x2 v -> is_vector f32x2 junk -> is_vector f32x2 junk' ->
       exists s c f, Math.sin_cos_pi X tg junk junk' f32x2 v = Some (s, c) /\ x_fn f = ESinCosPi /\ x_b f = 4%nat /\
         lanewise1 f32x2 v s (fun a p => p = lsin S f a) /\ lanewise1 f32x2 v c (fun a p => p = lcos S f a)).
Proof.
  intros U H. assert (is_vector f32x2 [0; 0]) as V0 by (split; [reflexivity|repeat constructor; vm_compute; congruence]).
  destruct (H ref_externals ref_lanes [0; 0] [0; 0] [0; 0] ref_works V0 V0 V0) as (s & c & f & E & _ & F4 & _ & _ & C).
  destruct (MathApiP.sin_cos_pi_method tg f32x2) as (_ & M & _); [now left|].
  destruct (M U eq_refl) as (g & _ & G4 & _ & G).
  destruct (G ref_externals ref_lanes ref_works [0; 0] [0; 0] [0; 0] V0 V0) as (s' & c' & E' & _ & _ & C').
  rewrite E in E'. injection E' as <- <-.
  destruct (C 0%nat 0 eq_refl) as (p & Lp & P1). destruct (C' 0%nat 0 eq_refl) as (q & Lq & Q1).
  unfold lane in Lp, Lq. rewrite Lp in Lq. injection Lq as <-. subst p.
  cbn [ref_lanes lcos lsin] in Q1. unfold in_lane in Q1. rewrite F4, G4 in Q1. vm_compute in Q1. discriminate.
Qed.

(** ** The target does not matter *)
Lemma lanewise_unique t v r r' (g : Z -> Z) :
  is_vector t v -> lanewise1 t v r (fun a c => c = g a) -> lanewise1 t v r' (fun a c => c = g a) -> r = r'.
Proof.
  intros [Lv _] [[Lr _] H] [[Lr' _] H']. apply nth_error_ext; [congruence|]. intros i.
  destruct (nth_error v i) as [a|] eqn:E.
  - destruct (H i a E) as (c & C & ->), (H' i a E) as (c' & C' & ->). unfold lane in *. congruence.
  - apply nth_error_None in E. rewrite (proj2 (nth_error_None r i)), (proj2 (nth_error_None r' i)); auto; congruence.
Qed.

Theorem math_portable t X S :
  In t math_types -> works_lanewise X S ->
  (forall f g, x_fn f = x_fn g -> x_b f = x_b g ->
     (forall a, l1 S f a = l1 S g a) /\ (forall a b, l2 S f a b = l2 S g a b)) ->
  forall tg tg' junk junk' junk2 junk2' v w,
    is_vector t v -> is_vector t w -> is_vector t junk -> is_vector t junk' -> is_vector t junk2 -> is_vector t junk2' ->
    Math.fabs X tg junk t v = Math.fabs X tg' junk' t v /\
    Math.cos X tg junk t v = Math.cos X tg' junk' t v /\
    Math.exp X tg junk t v = Math.exp X tg' junk' t v /\
    Math.ln X tg junk t v = Math.ln X tg' junk' t v /\
    Math.sin X tg junk t v = Math.sin X tg' junk' t v /\
    Math.fsqrt X tg junk t v = Math.fsqrt X tg' junk' t v /\
    Math.sqrte X tg junk t v = Math.sqrte X tg' junk' t v /\
    Math.tanh X tg junk t v = Math.tanh X tg' junk' t v /\
    Math.powf X tg junk junk2 t v w = Math.powf X tg' junk' junk2' t v w.
Proof.
  intros Ht W A tg tg' junk junk' k k' v w Hv Hw Hj Hj' Hk Hk'.
  assert (forall e (m : Math.externals -> target -> vec -> vty -> vec -> option vec),
    (forall tg, exists f, x_fn f = e /\ x_b f = vb t /\
       forall X S, works_lanewise X S -> maps_lanes t (fun junk v => m X tg junk t v) (l1 S f)) ->
    m X tg junk t v = m X tg' junk' t v) as G.
  { intros e m H. destruct (H tg) as (f & E & B & M), (H tg') as (g & E' & B' & M').
    destruct (M X S W v junk Hv Hj) as (r & -> & L). destruct (M' X S W v junk' Hv Hj') as (r' & -> & L').
    f_equal. apply (lanewise_unique t v r r' (l1 S f) Hv L).
    destruct L' as [V L']. split; [exact V|]. intros i a La. destruct (L' i a La) as (c & Lc & ->).
    exists (l1 S g a). split; [exact Lc|]. apply A; congruence. }
  assert (forall tg, uses_sleef tg \/ ~ uses_sleef tg) as D.
  { intros u. pose proof (MathApiP.sleef_on_iff u) as U. destruct (MathApiP.sleef_on u); [left|right]; [now apply U|].
    intros N. now apply U in N. }
  assert (forall tg, uses_sleef_sse2 tg \/ ~ uses_sleef_sse2 tg) as D2.
  { intros u. pose proof (MathApiP.sleef_on2_iff u) as U. destruct (MathApiP.sleef_on2 u); [left|right]; [now apply U|].
    intros N. now apply U in N. }
  repeat split.
  - apply (G EAbs). intros u. destruct (MathApiP.unary_methods u t Ht) as (U1 & U2 & _).
    destruct (D u) as [Y|N]; [destruct (U1 Y) as ((f & ? & ? & _ & ?) & _)|destruct (U2 N) as ((f & ? & ? & _ & ?) & _)]; eauto.
  - apply (G ECos). intros u. destruct (MathApiP.unary_methods u t Ht) as (U1 & U2 & _).
    destruct (D u) as [Y|N]; [destruct (U1 Y) as (_ & (f & ? & ? & _ & ?) & _)|destruct (U2 N) as (_ & (f & ? & ? & _ & ?) & _)]; eauto.
  - apply (G EExp). intros u. destruct (MathApiP.unary_methods u t Ht) as (_ & _ & U1 & U2).
    destruct (D2 u) as [Y|N]; [destruct (U1 Y) as ((f & ? & ? & _ & ?) & _)|destruct (U2 N) as ((f & ? & ? & _ & ?) & _)]; eauto.
  - apply (G ELn). intros u. destruct (MathApiP.unary_methods u t Ht) as (_ & _ & U1 & U2).
    destruct (D2 u) as [Y|N]; [destruct (U1 Y) as (_ & (f & ? & ? & _ & ?))|destruct (U2 N) as (_ & (f & ? & ? & _ & ?))]; eauto.
  - apply (G ESin). intros u. destruct (MathApiP.unary_methods u t Ht) as (U1 & U2 & _).
    destruct (D u) as [Y|N]; [destruct (U1 Y) as (_ & _ & (f & ? & ? & _ & ?) & _)|destruct (U2 N) as (_ & _ & (f & ? & ? & _ & ?) & _)]; eauto.
  - apply (G ESqrt). intros u. destruct (MathApiP.unary_methods u t Ht) as (U1 & U2 & _).
    destruct (D u) as [Y|N]; [destruct (U1 Y) as (_ & _ & _ & (f & ? & ? & _ & ?) & _)|destruct (U2 N) as (_ & _ & _ & (f & ? & ? & _ & ?) & _)]; eauto.
  - apply (G ESqrt). intros u. destruct (MathApiP.unary_methods u t Ht) as (U1 & U2 & _).
    destruct (D u) as [Y|N]; [destruct (U1 Y) as (_ & _ & _ & _ & (f & ? & ? & _ & ?) & _)|destruct (U2 N) as (_ & _ & _ & _ & (f & ? & ? & _ & ?) & _)]; eauto.
  - apply (G ETanh). intros u. destruct (MathApiP.unary_methods u t Ht) as (U1 & U2 & _).
    destruct (D u) as [Y|N]; [destruct (U1 Y) as (_ & _ & _ & _ & _ & (f & ? & ? & _ & ?))|destruct (U2 N) as (_ & _ & _ & _ & _ & (f & ? & ? & _ & ?))]; eauto.
  - destruct (MathApiP.powf_method tg t Ht) as (f & E & B & _ & _ & M).
    destruct (MathApiP.powf_method tg' t Ht) as (g & E' & B' & _ & _ & M').
    destruct (M X S W v w junk k Hv Hw Hj Hk) as (r & -> & (Lr & _) & L).
    destruct (M' X S W v w junk' k' Hv Hw Hj' Hk') as (r' & -> & (Lr' & _) & L').
    f_equal. apply nth_error_ext; [congruence|]. intros i. destruct Hv as [Lv _], Hw as [Lw _].
    destruct (nth_error v i) as [a|] eqn:Ea, (nth_error w i) as [c|] eqn:Ec;
      try (rewrite ?nth_error_None in *; rewrite (proj2 (nth_error_None r i)), (proj2 (nth_error_None r' i)); auto; congruence).
    destruct (L i a c Ea Ec) as (p & P & ->), (L' i a c Ea Ec) as (q & Q & ->). unfold lane in *.
    rewrite P, Q. intros ? ? [= <-] [= <-]. apply A; congruence.
Qed.
