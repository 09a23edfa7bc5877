(** The matrix inverse example. *)
From Coq Require Import ZArith List Bool Lia ZifyBool ZifyNat Reals Lra.
From Flocq Require Import Core Relative.
From Verif.Model Require Import Base FloatLane Llvm Tables Minimal Ops Reduce Shuffle Float ExMatrix.
From Verif.Spec Require Import Spec Floats Examples Matrices.
From Verif.Proofs Require Import Lib FloatP FloatOpsP FloatVecP FloatApiP FloatApi2P ExactP ExSumP.
Import ListNotations.
Open Scope Z_scope.

Lemma fs4 : fsize 4.
Proof. now left. Qed.

(** ** Exact arithmetic *)
Lemma Fin_inj s u s' v : Fin s u = Fin s' v -> s = s' /\ u = v.
Proof. intros H. injection H. auto. Qed.
Lemma neg_units e p z : units 4 e p z -> units 4 e (f32_neg p) (- z).
Proof.
  intros [P (s & D)]. change (2 ^ (8 * Z.of_nat 4)) with 4294967296 in P.
  unfold f32_neg. change (2 ^ 31) with 2147483648.
  set (q := if p <? 2147483648 then p + 2147483648 else p - 2147483648).
  assert (Q : 0 <= q < 4294967296) by (unfold q; clear - P; destruct (Z.ltb_spec p 2147483648); lia).
  assert (S : sign_field 4 q = negb (sign_field 4 p)).
  { unfold sign_field, q. change (2 ^ (8 * Z.of_nat 4 - 1)) with 2147483648.
    clear - P. destruct (Z.ltb_spec p 2147483648); lia. }
  assert (G : sig_field 4 q = sig_field 4 p).
  { unfold sig_field, q. change (2 ^ sig_width 4) with 8388608. clear - P. destruct (Z.ltb_spec p 2147483648); lia. }
  assert (X : exp_field 4 q = exp_field 4 p).
  { unfold exp_field, q. change (2 ^ sig_width 4) with 8388608. change (2 ^ exp_width 4) with 256.
    clear - P. destruct (Z.ltb_spec p 2147483648); lia. }
  split; [exact Q|]. exists (negb s). unfold datum_of in *. unfold magnitude in *. rewrite S, G, X.
  destruct (exp_field 4 p =? 2 ^ exp_width 4 - 1); [destruct (sig_field 4 p =? 0); discriminate|].
  apply Fin_inj in D as [Ds Du]. rewrite <- Ds. f_equal. rewrite opp_IZR, Ropp_mult_distr_l_reverse, <- Du.
  destruct (sign_field 4 p); cbn [negb]; [now rewrite Ropp_involutive|reflexivity].
Qed.

Lemma sub_units b e p q x y : fsize b -> unit_exponent b e ->
  units b e p x -> units b e q y -> Z.abs (x - y) <= top b -> units b e (fl_sub b p q) (x - y).
Proof.
  intros F E [P (s & D)] [Q (s' & D')] H.
  destruct (sub_pattern b F p q P Q) as [P' A]. split; [exact P'|].
  rewrite D, D' in A. unfold ieee_sub in A. cbn [negated ieee_add] in A.
  replace (IZR x * bpow radix2 e + - (IZR y * bpow radix2 e))%R with (IZR (x - y) * bpow radix2 e)%R in A
    by (rewrite minus_IZR; ring).
  exact (grid_rounds b e _ _ _ F E H A).
Qed.

Section Exact.
Variable e : Z.
Hypothesis E : -12 <= e <= 12.

(** [p] is z units of 2^(k e), and z is at most n. *)
Definition U (k n p z : Z) : Prop := units 4 (k * e) p z /\ Z.abs z <= n.

Lemma exponent_ok k : (0 <=? k) && (k <=? 4) = true -> unit_exponent 4 (k * e).
Proof.
  intros K. unfold unit_exponent. change (1 - bias 4 - sig_width 4) with (-149). change (bias 4 - sig_width 4) with 104.
  assert (0 <= k <= 4) by lia. clear K. split; nia.
Qed.
Lemma U_mul k k' n n' p q z w : U k n p z -> U k' n' q w ->
  (0 <=? k + k') && (k + k' <=? 4) && (n * n' <=? 16777216) = true -> U (k + k') (n * n') (fl_mul 4 p q) (z * w).
Proof.
  intros [P Z] [Q W] C. apply andb_prop in C as [C1 C2]. apply Z.leb_le in C2.
  assert (B : Z.abs (z * w) <= n * n').
  { rewrite Z.abs_mul. apply Z.mul_le_mono_nonneg; auto using Z.abs_nonneg. }
  split; [|exact B]. rewrite Z.mul_add_distr_r. apply mul_units; auto using fs4.
  - rewrite <- Z.mul_add_distr_r. now apply exponent_ok.
  - change (top 4) with 16777216. clear - B C2. lia.
Qed.
Lemma U_add k n n' p q z w : U k n p z -> U k n' q w ->
  (0 <=? k) && (k <=? 4) && (n + n' <=? 16777216) = true -> U k (n + n') (fl_add 4 p q) (z + w).
Proof.
  intros [P Z] [Q W] C. apply andb_prop in C as [C1 C2]. apply Z.leb_le in C2.
  assert (B : Z.abs (z + w) <= n + n') by (clear - Z W; lia).
  split; [|exact B]. apply add_units; auto using fs4, exponent_ok. change (top 4) with 16777216. clear - B C2. lia.
Qed.
Lemma U_sub k n n' p q z w : U k n p z -> U k n' q w ->
  (0 <=? k) && (k <=? 4) && (n + n' <=? 16777216) = true -> U k (n + n') (fl_sub 4 p q) (z - w).
Proof.
  intros [P Z] [Q W] C. apply andb_prop in C as [C1 C2]. apply Z.leb_le in C2.
  assert (B : Z.abs (z - w) <= n + n') by (clear - Z W; lia).
  split; [|exact B]. apply sub_units; auto using fs4, exponent_ok. change (top 4) with 16777216. clear - B C2. lia.
Qed.
Lemma U_neg k n p z : U k n p z -> U k n (f32_neg p) (- z).
Proof. intros [P Z]. split; [now apply neg_units|]. clear - Z. lia. Qed.

Ltac proof_of t :=
  lazymatch t with
  | fl_mul 4 ?a ?b => let A := proof_of a in let B := proof_of b in constr:(U_mul _ _ _ _ _ _ _ _ A B eq_refl)
  | fl_add 4 ?a ?b => let A := proof_of a in let B := proof_of b in constr:(U_add _ _ _ _ _ _ _ A B eq_refl)
  | fl_sub 4 ?a ?b => let A := proof_of a in let B := proof_of b in constr:(U_sub _ _ _ _ _ _ _ A B eq_refl)
  | f32_neg ?a => let A := proof_of a in constr:(U_neg _ _ _ _ A)
  | _ => lazymatch goal with H : U _ _ t _ |- _ => H end
  end.
Ltac exact_U :=
  lazymatch goal with
  | |- U ?k ?n ?t ?z => let H := proof_of t in let T := type of H in
      lazymatch T with U _ _ _ ?w => replace z with w by ring; exact H end
  end.

(** The determinant of the vector version: the same sum in every lane. *)
Definition simd_det (row0 minor0 : vec) : outcome vec :=
  let det := mul f32x4 row0 minor0 in
  s <- shuf det det [2; 3; 0; 1]%nat ;;
  let det := add f32x4 s det in
  s <- shuf det det [1; 0; 3; 2]%nat ;;
  Ok (add f32x4 s det).
Lemma simd_det_ok r c rz cz : Forall2 (U 1 20) r rz -> Forall2 (U 3 48000) c cz -> length rz = 4%nat -> length cz = 4%nat ->
  exists d0 d1 d2 d3, simd_det r c = Ok [d0; d1; d2; d3] /\
    Forall (fun d => U 4 3840000 d (nth 0 rz 0 * nth 0 cz 0 + nth 1 rz 0 * nth 1 cz 0 + nth 2 rz 0 * nth 2 cz 0 + nth 3 rz 0 * nth 3 cz 0))
      [d0; d1; d2; d3].
Proof.
  intros R C LR LC.
  destruct rz as [|y0 [|y1 [|y2 [|y3 [|]]]]]; try discriminate.
  destruct cz as [|w0 [|w1 [|w2 [|w3 [|]]]]]; try discriminate. clear LR LC.
  inversion R as [|r0 ? ? ? R0 R']; subst; clear R. inversion R' as [|r1 ? ? ? R1 R]; subst; clear R'.
  inversion R as [|r2 ? ? ? R2 R']; subst; clear R. inversion R' as [|r3 ? ? ? R3 R]; subst; clear R'. inversion R; subst; clear R.
  inversion C as [|c0 ? ? ? C0 C']; subst; clear C. inversion C' as [|c1 ? ? ? C1 C]; subst; clear C'.
  inversion C as [|c2 ? ? ? C2 C']; subst; clear C. inversion C' as [|c3 ? ? ? C3 C]; subst; clear C'. inversion C; subst; clear C.
  cbn [nth].
  lazymatch goal with |- exists a b c d, ?x = _ /\ _ =>
    let v := eval cbv -[fl_mul fl_add fl_sub] in x in
    lazymatch v with Ok [?d0; ?d1; ?d2; ?d3] => exists d0, d1, d2, d3; split; [reflexivity|] end end.
  repeat (constructor; [exact_U|]). constructor.
Qed.

Variables (a00 a01 a02 a03 a10 a11 a12 a13 a20 a21 a22 a23 a30 a31 a32 a33 : Z).
Variables (z00 z01 z02 z03 z10 z11 z12 z13 z20 z21 z22 z23 z30 z31 z32 z33 : Z).
Hypothesis H00 : U 1 20 a00 z00. Hypothesis H01 : U 1 20 a01 z01. Hypothesis H02 : U 1 20 a02 z02. Hypothesis H03 : U 1 20 a03 z03.
Hypothesis H10 : U 1 20 a10 z10. Hypothesis H11 : U 1 20 a11 z11. Hypothesis H12 : U 1 20 a12 z12. Hypothesis H13 : U 1 20 a13 z13.
Hypothesis H20 : U 1 20 a20 z20. Hypothesis H21 : U 1 20 a21 z21. Hypothesis H22 : U 1 20 a22 z22. Hypothesis H23 : U 1 20 a23 z23.
Hypothesis H30 : U 1 20 a30 z30. Hypothesis H31 : U 1 20 a31 z31. Hypothesis H32 : U 1 20 a32 z32. Hypothesis H33 : U 1 20 a33 z33.

Notation mat := [[a00; a01; a02; a03]; [a10; a11; a12; a13]; [a20; a21; a22; a23]; [a30; a31; a32; a33]].
Notation MAT := [[z00; z01; z02; z03]; [z10; z11; z12; z13]; [z20; z21; z22; z23]; [z30; z31; z32; z33]].

Definition adjugate_rows (M : list (list Z)) : list (list Z) :=
  map (fun i => map (adjugate M i) (seq 0 4)) (seq 0 4).

Lemma scalar_cofactors_ok : Forall2 (Forall2 (U 3 48000)) (scalar_cofactors mat) (adjugate_rows MAT).
Proof.
  cbv -[fl_mul fl_add fl_sub f32_neg U Z.mul Z.add Z.sub Z.opp].
  repeat (constructor; [repeat (constructor; [exact_U|]); constructor|]). constructor.
Qed.

Definition scalar_det (m : list (list Z)) : Z :=
  let i := ExMatrix.entry (scalar_cofactors m) in let m := ExMatrix.entry m in
  (fl_add 4 (fl_add 4 (fl_add 4 (fl_mul 4 (m 0 0) (i 0 0)) (fl_mul 4 (m 0 1) (i 1 0))) (fl_mul 4 (m 0 2) (i 2 0)))
    (fl_mul 4 (m 0 3) (i 3 0)))%nat.
Lemma scalar_det_ok : U 4 3840000 (scalar_det mat) (Matrices.det 4 MAT).
Proof. cbv -[fl_mul fl_add fl_sub f32_neg U Z.mul Z.add Z.sub Z.opp]. exact_U. Qed.

Lemma simd_minors_ok : exists row0 minors, simd_minors mat = Ok (row0, minors) /\
  Forall2 (U 1 20) row0 [z00; z10; z20; z30] /\ Forall2 (Forall2 (U 3 48000)) minors (adjugate_rows MAT).
Proof.
  lazymatch goal with |- exists r m, ?x = _ /\ _ =>
    let v := eval cbv -[fl_mul fl_add fl_sub] in x in
    lazymatch v with Ok (?r, ?m) => exists r, m; split; [reflexivity|] end end.
  split; [repeat (constructor; [assumption|]); constructor|].
  cbv -[fl_mul fl_add fl_sub f32_neg U Z.mul Z.add Z.sub Z.opp].
  repeat (constructor; [repeat (constructor; [exact_U|]); constructor|]). constructor.
Qed.
End Exact.

(** ** Rounded arithmetic *)
Section Rounded.
Local Open Scope R_scope.
Definition ulp : R := / 16777216.
Lemma ulp_bpow : ulp = bpow radix2 (-24).
Proof. reflexivity. Qed.

(** The number a pattern stands for. *)
Definition val (p : Z) (x : R) : Prop := pattern 4 p /\ exists s, datum_of 4 p = Fin s x.
Definition normal (x : R) : Prop := bpow radix2 (-126) <= Rabs x <= bpow radix2 126.

Lemma round_rel x z r : normal x -> rounds_to 4 x z r -> exists d s, Rabs d <= ulp /\ r = Fin s (x * (1 + d)).
Proof.
  intros [L H] (s & _ & ->).
  destruct (relative_error_N_FLT_ex radix2 (-149) 24 eq_refl (fun z => negb (Z.even z)) x) as (d & D & Q).
  { exact L. }
  replace (/ 2 * bpow radix2 (- (24) + 1)) with ulp in D
    by (rewrite ulp_bpow, bpow_plus; change (bpow radix2 1) with 2; change (- (24))%Z with (-24)%Z; field).
  assert (E : rounded 4 x = x * (1 + d)) by exact Q. rewrite E. clear E Q.
  exists d, s. split; [exact D|]. rewrite Rlt_bool_true; [reflexivity|].
  change (bias 4 + 1)%Z with 128%Z. rewrite Rabs_mult.
  apply Rle_lt_trans with (bpow radix2 126 * 2).
  - apply Rmult_le_compat; try apply Rabs_pos; [exact H|].
    eapply Rle_trans; [apply Rabs_triang|]. rewrite Rabs_R1. unfold ulp in D. lra.
  - change 2 with (bpow radix2 1). rewrite <- bpow_plus. apply bpow_lt. reflexivity.
Qed.

Lemma val_mul p q x y : val p x -> val q y -> normal (x * y) -> exists d, Rabs d <= ulp /\ val (fl_mul 4 p q) (x * y * (1 + d)).
Proof.
  intros [P (s & D)] [Q (s' & D')] N. destruct (mul_pattern 4 fs4 p q P Q) as [P' A].
  rewrite D, D' in A. cbn [ieee_mul] in A. apply round_rel in A as (d & t & B & A); [|exact N].
  exists d. split; [exact B|]. split; [exact P'|]. exists t. exact A.
Qed.
Lemma val_add p q x y : val p x -> val q y -> normal (x + y) -> exists d, Rabs d <= ulp /\ val (fl_add 4 p q) ((x + y) * (1 + d)).
Proof.
  intros [P (s & D)] [Q (s' & D')] N. destruct (add_pattern 4 fs4 p q P Q) as [P' A].
  rewrite D, D' in A. cbn [ieee_add] in A. apply round_rel in A as (d & t & B & A); [|exact N].
  exists d. split; [exact B|]. split; [exact P'|]. exists t. exact A.
Qed.
Lemma val_sub p q x y : val p x -> val q y -> normal (x - y) -> exists d, Rabs d <= ulp /\ val (fl_sub 4 p q) ((x - y) * (1 + d)).
Proof.
  intros [P (s & D)] [Q (s' & D')] N. destruct (sub_pattern 4 fs4 p q P Q) as [P' A].
  rewrite D, D' in A. unfold ieee_sub in A. cbn [negated ieee_add] in A. apply round_rel in A as (d & t & B & A); [|exact N].
  exists d. split; [exact B|]. split; [exact P'|]. exists t. exact A.
Qed.
Lemma val_div p q x y : val p x -> val q y -> y <> 0 -> normal (x / y) -> exists d, Rabs d <= ulp /\ val (fl_div 4 p q) (x / y * (1 + d)).
Proof.
  intros [P (s & D)] [Q (s' & D')] Y N. destruct (div_pattern 4 fs4 p q P Q) as [P' A].
  rewrite D, D' in A. cbn [ieee_div] in A. rewrite (Req_bool_false y) in A by exact Y.
  apply round_rel in A as (d & t & B & A); [|exact N].
  exists d. split; [exact B|]. split; [exact P'|]. exists t. exact A.
Qed.
Lemma val_mul_0 p q y : val p 0 -> val q y -> val (fl_mul 4 p q) 0.
Proof.
  intros [P (s & D)] [Q (s' & D')]. destruct (mul_pattern 4 fs4 p q P Q) as [P' A].
  rewrite D, D' in A. cbn [ieee_mul] in A. rewrite Rmult_0_l in A. destruct A as (t & _ & A).
  replace (rounded 4 0) with 0 in A by (unfold rounded; symmetry; apply round_0; apply valid_rnd_N).
  rewrite Rabs_R0, Rlt_bool_true in A by apply bpow_gt_0. split; [exact P'|]. exists t. exact A.
Qed.

(** Close to 1, up to [k] units in the last place. *)
Definition near1 (k a : R) : Prop := Rabs (a - 1) <= k * ulp.
Lemma near1_d d : Rabs d <= ulp -> near1 1 (1 + d).
Proof. intros H. unfold near1. replace (1 + d - 1) with d by ring. lra. Qed.
Lemma near1_mul j k a b : 0 <= j <= 8 -> 0 <= k <= 8 -> near1 j a -> near1 k b -> near1 (j + k + / 1024) (a * b).
Proof.
  unfold near1. intros J K A B.
  replace (a * b - 1) with ((a - 1) + (b - 1) + (a - 1) * (b - 1)) by ring.
  eapply Rle_trans; [apply Rabs_triang|]. rewrite Rabs_mult.
  pose proof (Rabs_triang (a - 1) (b - 1)).
  assert (Rabs (a - 1) * Rabs (b - 1) <= (8 * ulp) * (8 * ulp)).
  { apply Rmult_le_compat; try apply Rabs_pos; unfold ulp in *; lra. }
  unfold ulp in *. lra.
Qed.
Lemma near1_range k a : 0 <= k <= 16 -> near1 k a -> / 2 <= Rabs a <= 2.
Proof.
  unfold near1, ulp. intros K H. apply Rabs_le_inv in H. rewrite Rabs_pos_eq; lra.
Qed.
Lemma normal_scale y k a : 0 <= k <= 16 -> near1 k a ->
  bpow radix2 (-124) <= Rabs y <= bpow radix2 124 -> normal (y * a).
Proof.
  intros K A [L H]. apply near1_range in A; [|exact K]. unfold normal. rewrite Rabs_mult. split.
  - apply Rle_trans with (bpow radix2 (-124) * / 2).
    + change (/ 2) with (bpow radix2 (-1)). rewrite <- bpow_plus. apply bpow_le. discriminate.
    + apply Rmult_le_compat; [apply bpow_ge_0|lra|exact L|apply A].
  - apply Rle_trans with (bpow radix2 124 * 2).
    + apply Rmult_le_compat; try apply Rabs_pos; [exact H|apply A].
    + change 2 with (bpow radix2 1). rewrite <- bpow_plus. apply bpow_le. discriminate.
Qed.

Lemma err_of w k a : near1 k a -> Rabs (w * a - w) <= k * ulp * Rabs w.
Proof.
  intros H. replace (w * a - w) with (w * (a - 1)) by ring. rewrite Rabs_mult, Rmult_comm.
  apply Rmult_le_compat_r; [apply Rabs_pos|exact H].
Qed.

(** The Newton step: the first error cancels. *)
Lemma newton d1 d2 d3 d4 : Rabs d1 <= ulp -> Rabs d2 <= ulp -> Rabs d3 <= ulp -> Rabs d4 <= ulp ->
  near1 (4 + / 128) (2 * (1 + d1) * (1 + d2) - (1 + d1) * (1 + d3) * (1 + d1) * (1 + d4)).
Proof.
  intros A B C D. unfold near1.
  pose proof (near1_mul 1 1 _ _ ltac:(lra) ltac:(lra) (near1_d _ C) (near1_d _ D)) as K.
  set (k := (1 + d3) * (1 + d4)) in *. unfold near1 in K.
  replace (2 * (1 + d1) * (1 + d2) - (1 + d1) * (1 + d3) * (1 + d1) * (1 + d4) - 1)
    with (2 * d2 + 2 * (d1 * d2) - d1 * d1 - (k - 1) - (2 * d1 + d1 * d1) * (k - 1)) by (unfold k; ring).
  assert (M1 : Rabs (d1 * d2) <= ulp * ulp) by (rewrite Rabs_mult; apply Rmult_le_compat; auto using Rabs_pos).
  assert (M2 : Rabs (d1 * d1) <= ulp * ulp) by (rewrite Rabs_mult; apply Rmult_le_compat; auto using Rabs_pos).
  assert (M3 : Rabs (2 * d1 + d1 * d1) <= 3 * ulp).
  { eapply Rle_trans; [apply Rabs_triang|]. rewrite Rabs_mult, (Rabs_pos_eq 2) by lra. unfold ulp in *. lra. }
  assert (M4 : Rabs ((2 * d1 + d1 * d1) * (k - 1)) <= (3 * ulp) * ((1 + 1 + / 1024) * ulp))
    by (rewrite Rabs_mult; apply Rmult_le_compat; auto using Rabs_pos).
  apply Rabs_le_inv in A, B, K, M1, M2, M4. apply Rabs_le. unfold ulp in *. lra.
Qed.
End Rounded.

(** ** Both versions *)
Section Both.
Local Open Scope R_scope.
Variable e : Z.
Hypothesis E : (-12 <= e <= 12)%Z.

(** A magnitude between two powers of two. *)
Definition between (a b : Z) (x : R) : Prop := bpow radix2 a <= Rabs x <= bpow radix2 b.
Lemma between_normal a b x : (-126 <= a)%Z -> (b <= 126)%Z -> between a b x -> normal x.
Proof. intros A B [L H]. split; eapply Rle_trans; try eassumption; apply bpow_le; assumption. Qed.
Lemma between_mul a b c d x y : between a b x -> between c d y -> between (a + c) (b + d) (x * y).
Proof.
  intros [L H] [L' H']. unfold between. rewrite !bpow_plus, Rabs_mult.
  split; apply Rmult_le_compat; auto using bpow_ge_0, Rabs_pos.
Qed.
Lemma between_near a b x k f : 0 <= k <= 16 -> near1 k f -> between a b x -> between (a + -1) (b + 1) (x * f).
Proof. intros K F X. apply between_mul; [exact X|]. exact (near1_range k f K F). Qed.
Lemma between_inv a b x : between a b x -> between (- b) (- a) (/ x).
Proof.
  intros [L H]. unfold between. rewrite Rabs_inv, !bpow_opp.
  pose proof (bpow_gt_0 radix2 a). split; apply Rinv_le; lra.
Qed.
Lemma between_units z k n : z <> 0%Z -> (Z.abs z <= 2 ^ n)%Z -> (0 <= n)%Z -> between k (n + k) (IZR z * bpow radix2 k).
Proof.
  intros Z N P. unfold between. rewrite bpow_plus, Rabs_mult, (Rabs_pos_eq (bpow radix2 k)) by apply bpow_ge_0.
  rewrite <- abs_IZR. pose proof (bpow_gt_0 radix2 k).
  assert (1 <= IZR (Z.abs z)) by (apply IZR_le; clear - Z; lia).
  assert (IZR (Z.abs z) <= bpow radix2 n).
  { rewrite <- IZR_Zpower by exact P. apply IZR_le. exact N. }
  split; [rewrite <- (Rmult_1_l (bpow radix2 k)) at 1|]; apply Rmult_le_compat_r; lra.
Qed.
Lemma between_wider a b a' b' x : (a' <= a)%Z -> (b <= b')%Z -> between a b x -> between a' b' x.
Proof. intros A B [L H]. split; eapply Rle_trans; try eassumption; apply bpow_le; assumption. Qed.

Lemma val_units k p z : units 4 k p z -> val p (IZR z * bpow radix2 k).
Proof. intros [P D]. split; assumption. Qed.
Lemma val_one : val (fl_of_int 4 1) 1.
Proof. split; [vm_compute; split; [discriminate|reflexivity]|]. exists false. exact (of_small_int 4 fs4 1 eq_refl). Qed.

Definition recip (d : Z) : Z := fl_div 4 (fl_of_int 4 1) d.
Definition refined (d : Z) : Z := let t := recip d in fl_sub 4 (fl_add 4 t t) (fl_mul 4 (fl_mul 4 d t) t).

Section Cell.
Variables (d D : Z).
Hypothesis HD : U e 4 3840000 d D.
Hypothesis ND : D <> 0%Z.
Let X := IZR D * bpow radix2 (4 * e).

Lemma X_val : val d X.
Proof. apply val_units, HD. Qed.
Lemma X_nz : X <> 0.
Proof.
  unfold X. apply Rmult_integral_contrapositive_currified; [apply not_0_IZR; exact ND|].
  apply Rgt_not_eq, bpow_gt_0.
Qed.
Lemma Y_between : between (-70) 48 (/ X).
Proof.
  apply between_wider with (a := (- (22 + 4 * e))%Z) (b := (- (4 * e))%Z); try (clear - E; lia).
  apply between_inv. apply between_units; [exact ND| |discriminate].
  destruct HD as [_ B]. change (2 ^ 22)%Z with 4194304%Z. clear - B. lia.
Qed.
Lemma recip_val : exists d1, Rabs d1 <= ulp /\ val (recip d) (/ X * (1 + d1)).
Proof.
  destruct (val_div _ _ _ _ val_one X_val X_nz) as (d1 & B & V).
  - unfold Rdiv. rewrite Rmult_1_l. apply (between_normal (-70) 48); [discriminate|discriminate|apply Y_between].
  - exists d1. split; [exact B|]. unfold Rdiv in V. now rewrite Rmult_1_l in V.
Qed.
Lemma refined_val : exists f, near1 (5 + / 64) f /\ val (refined d) (/ X * f).
Proof.
  destruct recip_val as (d1 & B1 & V1). unfold refined. set (t := recip d) in *. clearbody t.
  pose proof (near1_d _ B1) as N1. pose proof X_nz as NZ. pose proof Y_between as Y.
  destruct (val_add _ _ _ _ V1 V1) as (d2 & B2 & V2).
  { replace (/ X * (1 + d1) + / X * (1 + d1)) with (/ X * (1 + d1) * 2) by ring.
    apply (between_normal ((-70) + -1 + 1) (48 + 1 + 1)); [discriminate|discriminate|].
    apply between_mul; [apply (between_near _ _ _ 1); [lra|exact N1|exact Y]|].
    unfold between. rewrite Rabs_pos_eq by lra. change (bpow radix2 1) with 2. lra. }
  destruct (val_mul _ _ _ _ X_val V1) as (d3 & B3 & V3).
  { replace (X * (/ X * (1 + d1))) with (1 * (1 + d1)) by (field; exact NZ).
    apply (between_normal (0 + -1) (0 + 1)); [discriminate|discriminate|].
    apply (between_near _ _ _ 1); [lra|exact N1|]. unfold between. rewrite Rabs_R1. cbn [bpow]. lra. }
  replace (X * (/ X * (1 + d1)) * (1 + d3)) with ((1 + d1) * (1 + d3)) in V3 by (field; exact NZ).
  pose proof (near1_d _ B3) as N3.
  pose proof (near1_mul 1 1 _ _ ltac:(lra) ltac:(lra) N1 N3) as N13.
  pose proof (near1_mul (1 + 1 + / 1024) 1 _ _ ltac:(lra) ltac:(lra) N13 N1) as N131.
  destruct (val_mul _ _ _ _ V3 V1) as (d4 & B4 & V4).
  { replace ((1 + d1) * (1 + d3) * (/ X * (1 + d1))) with (/ X * ((1 + d1) * (1 + d3) * (1 + d1))) by ring.
    apply (between_normal ((-70) + -1) (48 + 1)); [discriminate|discriminate|].
    eapply between_near; [|exact N131|exact Y]. lra. }
  pose proof (newton d1 d2 d3 d4 B1 B2 B3 B4) as NW.
  set (g := 2 * (1 + d1) * (1 + d2) - (1 + d1) * (1 + d3) * (1 + d1) * (1 + d4)) in *.
  assert (G : (/ X * (1 + d1) + / X * (1 + d1)) * (1 + d2) - (1 + d1) * (1 + d3) * (/ X * (1 + d1)) * (1 + d4) = / X * g)
    by (unfold g; ring).
  destruct (val_sub _ _ _ _ V2 V4) as (d5 & B5 & V5).
  { rewrite G. apply (between_normal ((-70) + -1) (48 + 1)); [discriminate|discriminate|].
    eapply between_near; [|exact NW|exact Y]. lra. }
  rewrite G in V5. exists (g * (1 + d5)). split.
  - pose proof (near1_mul (4 + / 128) 1 _ _ ltac:(lra) ltac:(lra) NW (near1_d _ B5)) as N.
    unfold near1 in *. eapply Rle_trans; [exact N|]. unfold ulp. lra.
  - rewrite <- Rmult_assoc. exact V5.
Qed.

(** An entry of the result: [k] units of error. *)
Definition cell (err : R) (p a : Z) : Prop :=
  exists s x, datum_of 4 p = Fin s x /\
    Rabs (x - IZR a / IZR D * bpow radix2 (- e)) <= err * Rabs (IZR a / IZR D * bpow radix2 (- e)).

Lemma entry_value a : IZR a * bpow radix2 (3 * e) * / X = IZR a / IZR D * bpow radix2 (- e).
Proof.
  unfold X. pose proof (not_0_IZR D ND). pose proof (bpow_gt_0 radix2 (4 * e)).
  replace (3 * e)%Z with (- e + 4 * e)%Z by ring. rewrite bpow_plus. field. split; lra.
Qed.

Lemma cell_ok p a q k f : U e 3 48000 p a -> 0 <= k <= 6 -> near1 k f -> val q (/ X * f) ->
  cell ((k + 2) * ulp) (fl_mul 4 p q) a.
Proof.
  intros [P B] K F Q. destruct (Z.eq_dec a 0) as [->|NA].
  - apply val_units in P. rewrite Rmult_0_l in P.
    destruct (val_mul_0 _ _ _ P Q) as [_ (s & V)]. exists s, 0. split; [exact V|].
    unfold Rdiv. rewrite !Rmult_0_l, Rminus_0_r, Rabs_R0. lra.
  - apply val_units in P. pose proof Y_between as Y.
    assert (BA : between (-36) 52 (IZR a * bpow radix2 (3 * e))).
    { apply between_wider with (a := (3 * e)%Z) (b := (16 + 3 * e)%Z); try (clear - E; lia).
      apply between_units; [exact NA| |discriminate]. change (2 ^ 16)%Z with 65536%Z. clear - B. lia. }
    destruct (val_mul _ _ _ _ P Q) as (d6 & B6 & V6).
    { rewrite <- Rmult_assoc. apply (between_normal ((-36) + (-70) + -1) (52 + 48 + 1)); [discriminate|discriminate|].
      apply (between_near _ _ _ k); [lra|exact F|]. apply between_mul; assumption. }
    destruct V6 as [_ (s & V)]. exists s. eexists. split; [exact V|].
    rewrite <- (Rmult_assoc _ (/ X)), entry_value, Rmult_assoc. apply err_of.
    pose proof (near1_mul k 1 _ _ ltac:(lra) ltac:(lra) F (near1_d _ B6)) as N.
    unfold near1 in *. eapply Rle_trans; [exact N|]. unfold ulp. lra.
Qed.

Lemma cell_weaken x y p a : x <= y -> cell x p a -> cell y p a.
Proof.
  intros L (s & v & V & H). exists s, v. split; [exact V|]. eapply Rle_trans; [exact H|].
  apply Rmult_le_compat_r; [apply Rabs_pos|exact L].
Qed.
Lemma scalar_cell p a : U e 3 48000 p a -> cell (bpow radix2 (-22)) (fl_mul 4 p (recip d)) a.
Proof.
  intros A. destruct recip_val as (d1 & B & V).
  apply cell_weaken with ((1 + 2) * ulp).
  - unfold ulp. change (bpow radix2 (-22)) with (/ 4194304). lra.
  - apply cell_ok with (f := 1 + d1); auto using near1_d. lra.
Qed.
Lemma simd_cell p a : U e 3 48000 p a -> cell (bpow radix2 (-21)) (fl_mul 4 p (refined d)) a.
Proof.
  intros A. destruct refined_val as (f & B & V).
  apply cell_weaken with ((5 + / 64 + 2) * ulp).
  - unfold ulp. change (bpow radix2 (-21)) with (/ 2097152). lra.
  - apply cell_ok with (f := f); auto. lra.
Qed.
(** A determinant that is a power of two loses nothing. *)
Section Power.
Variables (sg k : Z).
Hypothesis SG : Z.abs sg = 1%Z.
Hypothesis K : (0 <= k <= 22)%Z.
Hypothesis DK : D = (sg * 2 ^ k)%Z.

Lemma sg2 : IZR sg * IZR sg = 1.
Proof. rewrite <- mult_IZR. f_equal. clear - SG. nia. Qed.
Lemma D_val : IZR D = IZR sg * bpow radix2 k.
Proof. rewrite DK, mult_IZR. f_equal. apply (IZR_Zpower radix2). apply K. Qed.
Lemma recip_exact : units 4 (- (k + 4 * e)) (recip d) sg.
Proof.
  destruct val_one as [P1 (s1 & D1)]. destruct X_val as [P (s & DX)].
  destruct (div_pattern 4 fs4 _ _ P1 P) as [P' A]. split; [exact P'|].
  rewrite D1, DX in A. cbn [ieee_div] in A. rewrite (Req_bool_false X) in A by apply X_nz.
  replace (1 / X) with (IZR sg * bpow radix2 (- (k + 4 * e))) in A.
  - apply (grid_rounds 4 _ _ _ _ fs4) in A; [exact A| |].
    + unfold unit_exponent. change (1 - bias 4 - sig_width 4)%Z with (-149)%Z. change (bias 4 - sig_width 4)%Z with 104%Z.
      clear - E K. lia.
    + change (top 4) with 16777216%Z. clear - SG. lia.
  - unfold X. rewrite D_val, Rmult_assoc, <- bpow_plus, bpow_opp.
    pose proof (bpow_gt_0 radix2 (k + 4 * e)). pose proof sg2 as Q.
    assert (IZR sg <> 0) by (apply not_0_IZR; clear - SG; lia).
    apply (Rmult_eq_reg_r (IZR sg)); [|assumption].
    transitivity ((IZR sg * IZR sg) * / bpow radix2 (k + 4 * e)); [ring|]. rewrite Q. field. split; lra.
Qed.
Lemma units_same i j p z w : units 4 i p z -> IZR z * bpow radix2 i = IZR w * bpow radix2 j -> units 4 j p w.
Proof. intros [P (s & V)] Q. split; [exact P|]. exists s. now rewrite <- Q. Qed.
Lemma refined_exact : units 4 (- (k + 4 * e)) (refined d) sg.
Proof.
  pose proof recip_exact as T. unfold refined. set (t := recip d) in *. clearbody t.
  assert (UE : unit_exponent 4 (- (k + 4 * e))).
  { unfold unit_exponent. change (1 - bias 4 - sig_width 4)%Z with (-149)%Z. change (bias 4 - sig_width 4)%Z with 104%Z.
    clear - E K. lia. }
  assert (T2 : units 4 (- (k + 4 * e)) (fl_add 4 t t) (sg + sg)).
  { apply add_units; auto using fs4. change (top 4) with 16777216%Z. clear - SG. lia. }
  assert (M : units 4 (4 * e + - (k + 4 * e)) (fl_mul 4 d t) (D * sg)).
  { apply mul_units; auto using fs4.
    - unfold unit_exponent. change (1 - bias 4 - sig_width 4)%Z with (-149)%Z. change (bias 4 - sig_width 4)%Z with 104%Z.
      clear - E K. lia.
    - apply HD.
    - change (top 4) with 16777216%Z. destruct HD as [_ B]. clear - B SG. nia. }
  assert (M1 : units 4 0 (fl_mul 4 d t) 1).
  { eapply units_same; [exact M|]. rewrite mult_IZR, D_val.
    replace (4 * e + - (k + 4 * e))%Z with (- k)%Z by ring.
    transitivity ((IZR sg * IZR sg) * (bpow radix2 k * bpow radix2 (- k))); [ring|].
    rewrite sg2, <- bpow_plus, Z.add_opp_diag_r. reflexivity. }
  assert (M2 : units 4 (0 + - (k + 4 * e)) (fl_mul 4 (fl_mul 4 d t) t) (1 * sg)).
  { apply mul_units; auto using fs4. change (top 4) with 16777216%Z. clear - SG. lia. }
  rewrite Z.mul_1_l in M2. cbn [Z.add] in M2.
  replace sg with (sg + sg - sg)%Z at 1 by ring.
  apply sub_units; auto using fs4. change (top 4) with 16777216%Z. clear - SG. lia.
Qed.
Lemma exact_cell p a q : U e 3 48000 p a -> units 4 (- (k + 4 * e)) q sg -> cell 0 (fl_mul 4 p q) a.
Proof.
  intros [P B] Q.
  assert (M : units 4 (3 * e + - (k + 4 * e)) (fl_mul 4 p q) (a * sg)).
  { apply mul_units; auto using fs4.
    - unfold unit_exponent. change (1 - bias 4 - sig_width 4)%Z with (-149)%Z. change (bias 4 - sig_width 4)%Z with 104%Z.
      clear - E K. lia.
    - change (top 4) with 16777216%Z. clear - B SG. nia. }
  destruct M as [_ (s & V)]. exists s. eexists. split; [exact V|].
  rewrite Rmult_0_l. apply Req_le. rewrite <- Rabs_R0. f_equal. apply Rminus_diag_eq.
  rewrite D_val, mult_IZR. replace (3 * e + - (k + 4 * e))%Z with (- k + - e)%Z by ring. rewrite bpow_plus, (bpow_opp _ k).
  pose proof (bpow_gt_0 radix2 k). pose proof sg2 as SQ.
  assert (IZR sg <> 0) by (apply not_0_IZR; clear - SG; lia).
  apply (Rmult_eq_reg_r (IZR sg)); [|assumption].
  transitivity (IZR a * (IZR sg * IZR sg) * (/ bpow radix2 k) * bpow radix2 (- e)); [ring|]. rewrite SQ. field. split; lra.
Qed.
End Power.
End Cell.
End Both.

Lemma facts e m M : -12 <= e <= 12 -> is_4x4 M -> scaled e m M -> entries_below 20 M ->
  Forall2 (Forall2 (U e 3 48000)) (scalar_cofactors m) (adjugate_rows M) /\
  U e 4 3840000 (scalar_det m) (Matrices.det 4 M) /\
  exists row0 minors d0 d1 d2 d3, simd_minors m = Ok (row0, minors) /\
    Forall2 (Forall2 (U e 3 48000)) minors (adjugate_rows M) /\
    simd_det row0 (nth 0 minors []) = Ok [d0; d1; d2; d3] /\
    Forall (fun d => U e 4 3840000 d (Matrices.det 4 M)) [d0; d1; d2; d3].
Proof.
  intros E [L R] S B.
  assert (SU : Forall2 (Forall2 (U e 1 20)) m M).
  { clear L R E. unfold scaled in S. revert B. induction S as [|r R m M S1 S IH]; intros B; constructor.
    - apply Forall_inv in B. clear IH S m M. revert B. induction S1 as [|p z r R S1 S IH]; intros B; constructor.
      + split; [now rewrite Z.mul_1_l|now apply Forall_inv in B].
      + apply IH. now apply Forall_inv_tail in B.
    - apply IH. now apply Forall_inv_tail in B. }
  clear S B.
  destruct M as [|R0 [|R1 [|R2 [|R3 [|]]]]]; try discriminate. clear L.
  inversion R as [|? ? L0 R']; subst; clear R. inversion R' as [|? ? L1 R]; subst; clear R'.
  inversion R as [|? ? L2 R']; subst; clear R. inversion R' as [|? ? L3 R]; subst; clear R' R.
  destruct R0 as [|z00 [|z01 [|z02 [|z03 [|]]]]]; try discriminate.
  destruct R1 as [|z10 [|z11 [|z12 [|z13 [|]]]]]; try discriminate.
  destruct R2 as [|z20 [|z21 [|z22 [|z23 [|]]]]]; try discriminate.
  destruct R3 as [|z30 [|z31 [|z32 [|z33 [|]]]]]; try discriminate. clear L0 L1 L2 L3.
  repeat match goal with H : Forall2 _ _ _ |- _ => inversion H; subst; clear H end.
  repeat lazymatch goal with H : Forall2 _ _ _ |- _ => inversion H; subst; clear H end.
  split; [now apply scalar_cofactors_ok|]. split; [now apply scalar_det_ok|].
  lazymatch goal with |- context [simd_minors ?m] =>
    assert (SM : exists row0 minors, simd_minors m = Ok (row0, minors) /\
      Forall2 (U e 1 20) row0 [z00; z10; z20; z30] /\
      Forall2 (Forall2 (U e 3 48000)) minors
        (adjugate_rows [[z00; z01; z02; z03]; [z10; z11; z12; z13]; [z20; z21; z22; z23]; [z30; z31; z32; z33]]))
      by now apply simd_minors_ok end.
  destruct SM as (row0 & minors & SM & R0 & MI).
  assert (M0 : Forall2 (U e 3 48000) (nth 0 minors [])
    (map (adjugate [[z00; z01; z02; z03]; [z10; z11; z12; z13]; [z20; z21; z22; z23]; [z30; z31; z32; z33]] 0) (seq 0 4))).
  { clear - MI. unfold adjugate_rows in MI. cbn [seq map] in MI. inversion MI; subst. assumption. }
  destruct (simd_det_ok e E _ _ _ _ R0 M0 eq_refl eq_refl) as (d0 & d1 & d2 & d3 & SD & FD).
  exists row0, minors, d0, d1, d2, d3. split; [exact SM|]. split; [exact MI|]. split; [exact SD|].
  lazymatch goal with H : Forall (fun d => U e 4 3840000 d ?x) _ |- Forall (fun d => U e 4 3840000 d ?y) _ =>
    replace y with x; [exact H|cbv -[Z.mul Z.add Z.sub Z.opp]; ring] end.
Qed.

Lemma zero_iff k p z : units 4 k p z -> fl_eq 4 p (fl_of_int 4 0) = true <-> z = 0.
Proof.
  intros [P (s & V)]. rewrite (fl_eq_iff 4 fs4 p _ P) by (vm_compute; split; [discriminate|reflexivity]).
  rewrite V, (of_small_int 4 fs4 0 eq_refl). cbn [ieee_eq]. pose proof (bpow_gt_0 radix2 k). split.
  - intros Q. apply eq_IZR. apply Rmult_integral in Q as [Q|Q]; [exact Q|]. rewrite Q in H. exfalso. lra.
  - intros ->. now rewrite Rmult_0_l.
Qed.

Lemma scalar_eq m : scalar_inv4x4 m =
  if fl_eq 4 (scalar_det m) (fl_of_int 4 0) then None
  else Some (map (map (fun x => fl_mul 4 x (recip (scalar_det m)))) (scalar_cofactors m)).
Proof. unfold scalar_inv4x4, scalar_det, recip. cbv zeta. reflexivity. Qed.

Lemma recpre_eq d0 d1 d2 d3 : recpre f32x4 [d0; d1; d2; d3] = Ok [recip d0; recip d1; recip d2; recip d3].
Proof. unfold recip. cbv -[fl_div fl_of_int]. reflexivity. Qed.
Lemma refined_eq d0 d1 d2 d3 :
  let t := [recip d0; recip d1; recip d2; recip d3] in
  sub f32x4 (add f32x4 t t) (mul f32x4 (mul f32x4 [d0; d1; d2; d3] t) t) = [refined d0; refined d1; refined d2; refined d3].
Proof.
  unfold refined. generalize (recip d0), (recip d1), (recip d2), (recip d3). intros.
  cbv -[fl_add fl_sub fl_mul]. reflexivity.
Qed.
Lemma simd_eq tg m row0 minors d0 d1 d2 d3 s : simd_minors m = Ok (row0, minors) ->
  simd_det row0 (nth 0 minors []) = Ok [d0; d1; d2; d3] -> fsum tg f32x4 [d0; d1; d2; d3] = Ok s ->
  simd_inv4x4 tg m = if fl_eq 4 s (fl_of_int 4 0) then Ok None
    else Ok (Some (map (fun r => mul f32x4 r [refined d0; refined d1; refined d2; refined d3]) minors)).
Proof.
  intros M D S. unfold simd_inv4x4. rewrite M. cbn [bind fst snd]. unfold simd_det in D.
  destruct (shuf _ _ [2; 3; 0; 1]%nat) as [v| |]; [|discriminate|discriminate]. cbn [bind] in *.
  destruct (shuf _ _ [1; 0; 3; 2]%nat) as [w| |]; [|discriminate|discriminate]. cbn [bind] in *.
  injection D as D. rewrite D, S. cbn [bind].
  destruct (fl_eq 4 s _); [reflexivity|]. rewrite recpre_eq. cbn [bind]. rewrite refined_eq. reflexivity.
Qed.

Lemma within_of err e M r D : Matrices.det 4 M = D ->
  Forall2 (Forall2 (cell e D err)) r (adjugate_rows M) -> inverse_within err e M r.
Proof.
  intros HD F. unfold adjugate_rows in F. cbn [map seq] in F.
  inversion F as [|r0 ? ? ? F0 F']; subst; clear F. inversion F' as [|r1 ? ? ? F1 F]; subst; clear F'.
  inversion F as [|r2 ? ? ? F2 F']; subst; clear F. inversion F' as [|r3 ? ? ? F3 F]; subst; clear F'. inversion F; subst; clear F.
  split.
  - split; [reflexivity|].
    apply Forall2_len in F0, F1, F2, F3. repeat constructor; [exact F0|exact F1|exact F2|exact F3].
  - intros i j I J. unfold inverse_entry.
    assert (X : Forall2 (cell e (Matrices.det 4 M) err) (nth i [r0; r1; r2; r3] []) (map (adjugate M i) (seq 0 4))).
    { destruct i as [|[|[|[|i]]]]; [exact F0|exact F1|exact F2|exact F3|exfalso; clear - I; lia]. }
    assert (Y : cell e (Matrices.det 4 M) err (at2 [r0; r1; r2; r3] i j) (adjugate M i j)); [|exact Y].
    unfold at2. set (row := nth i [r0; r1; r2; r3] []) in *. clearbody row. clear - X J. cbn [seq map] in X.
    inversion X as [|p0 ? ? ? X0 X']; subst; clear X. inversion X' as [|p1 ? ? ? X1 X]; subst; clear X'.
    inversion X as [|p2 ? ? ? X2 X']; subst; clear X. inversion X' as [|p3 ? ? ? X3 X]; subst; clear X'.
    destruct j as [|[|[|[|j]]]]; [exact X0|exact X1|exact X2|exact X3|exfalso; clear - J; lia].
Qed.

Lemma map_rows {P Q : Z -> Z -> Prop} (f : Z -> Z) : (forall p a, P p a -> Q (f p) a) ->
  forall r A, Forall2 (Forall2 P) r A -> Forall2 (Forall2 Q) (map (map f) r) A.
Proof.
  intros H r A F. induction F as [|x y r A F1 F IH]; constructor; [|exact IH].
  clear - H F1. induction F1; constructor; auto.
Qed.

Lemma mul_rows {P Q : Z -> Z -> Prop} (g0 g1 g2 g3 : Z) :
  Forall (fun g => forall p a, P p a -> Q (fl_mul 4 p g) a) [g0; g1; g2; g3] ->
  forall r A, Forall2 (Forall2 P) r A -> Forall (fun a => length a = 4%nat) A ->
    Forall2 (Forall2 Q) (map (fun x => mul f32x4 x [g0; g1; g2; g3]) r) A.
Proof.
  intros H r A F L. induction F as [|x y r A F1 F IH]; constructor.
  - apply Forall_inv in L. clear IH.
    destruct y as [|w0 [|w1 [|w2 [|w3 [|]]]]]; try discriminate.
    inversion F1 as [|c0 ? ? ? C0 C']; subst; clear F1. inversion C' as [|c1 ? ? ? C1 C]; subst; clear C'.
    inversion C as [|c2 ? ? ? C2 C']; subst; clear C. inversion C' as [|c3 ? ? ? C3 C]; subst; clear C'. inversion C; subst; clear C.
    inversion H as [|? ? G0 H']; subst; clear H. inversion H' as [|? ? G1 H]; subst; clear H'.
    inversion H as [|? ? G2 H']; subst; clear H. inversion H' as [|? ? G3 H]; subst; clear H'.
    change (Forall2 Q [fl_mul 4 c0 g0; fl_mul 4 c1 g1; fl_mul 4 c2 g2; fl_mul 4 c3 g3] [w0; w1; w2; w3]).
    repeat (constructor; [auto|]). constructor.
  - apply IH. now apply Forall_inv_tail in L.
Qed.

Section Results.
Variables (e : Z) (m M : list (list Z)).
Hypothesis E : -12 <= e <= 12.
Hypothesis S4 : is_4x4 M.
Hypothesis SC : scaled e m M.
Hypothesis B20 : entries_below 20 M.

Lemma sum_units tg d0 d1 d2 d3 D : Forall (fun d => U e 4 3840000 d D) [d0; d1; d2; d3] ->
  exists s, fsum tg f32x4 [d0; d1; d2; d3] = Ok s /\ units 4 (4 * e) s (4 * D).
Proof.
  intros F. inversion F as [|? ? U0 F']; subst; clear F. inversion F' as [|? ? U1 F]; subst; clear F'.
  inversion F as [|? ? U2 F']; subst; clear F. inversion F' as [|? ? U3 F]; subst; clear F' F.
  destruct (fsum_units f32x4 (4 * e) f32x4_type (exponent_ok e E 4 eq_refl) tg [d0; d1; d2; d3] [D; D; D; D]) as (s & FS & US).
  - split; [|reflexivity]. constructor; [apply U0|]. constructor; [apply U1|]. constructor; [apply U2|]. constructor; [apply U3|]. constructor.
  - destruct U0 as [_ B]. change (top (vb f32x4)) with 16777216. unfold total_abs. cbn [fold_right]. clear - B. lia.
  - exists s. split; [exact FS|]. unfold total in US. cbn [fold_right] in US.
    replace (4 * D) with (D + (D + (D + (D + 0)))) by ring. exact US.
Qed.

Theorem singular : (scalar_inv4x4 m = None <-> Matrices.det 4 M = 0) /\
  forall tg, exists o, simd_inv4x4 tg m = Ok o /\ (o = None <-> Matrices.det 4 M = 0).
Proof.
  destruct (facts e m M E S4 SC B20) as (SCO & SD & row0 & minors & d0 & d1 & d2 & d3 & SM & MI & DD & FD). split.
  - rewrite scalar_eq, <- (zero_iff _ _ _ (proj1 SD)).
    destruct (fl_eq 4 _ _); split; try discriminate; reflexivity.
  - intros tg. destruct (sum_units tg _ _ _ _ _ FD) as (s & FS & US).
    rewrite (simd_eq tg m _ _ _ _ _ _ s SM DD FS). apply zero_iff in US.
    assert (Q : Matrices.det 4 M = 0 <-> 4 * Matrices.det 4 M = 0) by (clear; lia).
    destruct (fl_eq 4 s _); eexists; (split; [reflexivity|]); rewrite Q, <- US; split; try discriminate; reflexivity.
Qed.

Lemma adj_len : Forall (fun a => length a = 4%nat) (adjugate_rows M).
Proof. repeat constructor. Qed.

Theorem close : Matrices.det 4 M <> 0 ->
  (exists r, scalar_inv4x4 m = Some r /\ inverse_within (bpow radix2 (-22)) e M r) /\
  forall tg, exists r, simd_inv4x4 tg m = Ok (Some r) /\ inverse_within (bpow radix2 (-21)) e M r.
Proof.
  intros N. destruct (facts e m M E S4 SC B20) as (SCO & SD & row0 & minors & d0 & d1 & d2 & d3 & SM & MI & DD & FD). split.
  - rewrite scalar_eq. pose proof (zero_iff _ _ _ (proj1 SD)) as Z.
    destruct (fl_eq 4 _ _); [tauto|]. eexists. split; [reflexivity|].
    apply (within_of _ _ _ _ _ eq_refl). apply (@map_rows (U e 3 48000)); [|exact SCO].
    intros p a A. apply scalar_cell; assumption.
  - intros tg. destruct (sum_units tg _ _ _ _ _ FD) as (s & FS & US).
    rewrite (simd_eq tg m _ _ _ _ _ _ s SM DD FS). apply zero_iff in US.
    destruct (fl_eq 4 s _); [exfalso; apply N; apply proj1 in US; specialize (US eq_refl); clear - US; lia|].
    eexists. split; [reflexivity|]. apply (within_of _ _ _ _ _ eq_refl).
    apply (@mul_rows (U e 3 48000)); [|exact MI|exact adj_len].
    inversion FD as [|? ? U0 F']; subst; clear FD. inversion F' as [|? ? U1 F]; subst; clear F'.
    inversion F as [|? ? U2 F']; subst; clear F. inversion F' as [|? ? U3 F]; subst; clear F' F.
    repeat (constructor; [intros p a A; apply simd_cell; assumption|]). constructor.
Qed.

Theorem exact_power k : 0 <= k -> Z.abs (Matrices.det 4 M) = 2 ^ k ->
  (exists r, scalar_inv4x4 m = Some r /\ inverse_within 0 e M r) /\
  forall tg, exists r, simd_inv4x4 tg m = Ok (Some r) /\ inverse_within 0 e M r.
Proof.
  intros K P. destruct (facts e m M E S4 SC B20) as (SCO & SD & row0 & minors & d0 & d1 & d2 & d3 & SM & MI & DD & FD).
  set (sg := Z.sgn (Matrices.det 4 M)).
  assert (PP : 0 < 2 ^ k) by (apply Z.pow_pos_nonneg; [reflexivity|exact K]).
  assert (N : Matrices.det 4 M <> 0) by (intros Q; rewrite Q in P; cbn [Z.abs] in P; rewrite <- P in PP; discriminate).
  assert (SG : Z.abs sg = 1) by (unfold sg; clear - N; destruct (Matrices.det 4 M); [contradiction|reflexivity|reflexivity]).
  assert (DK : Matrices.det 4 M = sg * 2 ^ k) by (rewrite <- P; unfold sg; rewrite Z.mul_comm; symmetry; apply Z.abs_sgn).
  assert (KK : 0 <= k <= 22).
  { split; [exact K|]. destruct SD as [_ B]. rewrite P in B. apply Z.lt_succ_r.
    apply (Z.pow_lt_mono_r_iff 2); [reflexivity|discriminate|]. change (2 ^ Z.succ 22) with 8388608.
    eapply Z.le_lt_trans; [exact B|reflexivity]. }
  clearbody sg. split.
  - rewrite scalar_eq. pose proof (zero_iff _ _ _ (proj1 SD)) as Z.
    destruct (fl_eq 4 _ _); [tauto|]. eexists. split; [reflexivity|].
    apply (within_of _ _ _ _ _ eq_refl). apply (@map_rows (U e 3 48000)); [|exact SCO].
    intros p a A. apply (exact_cell e E _ sg k); auto. apply (recip_exact e E _ (Matrices.det 4 M)); auto.
  - intros tg. destruct (sum_units tg _ _ _ _ _ FD) as (s & FS & US).
    rewrite (simd_eq tg m _ _ _ _ _ _ s SM DD FS). apply zero_iff in US.
    destruct (fl_eq 4 s _); [exfalso; apply N; apply proj1 in US; specialize (US eq_refl); clear - US; lia|].
    eexists. split; [reflexivity|]. apply (within_of _ _ _ _ _ eq_refl).
    apply (@mul_rows (U e 3 48000)); [|exact MI|exact adj_len].
    inversion FD as [|? ? U0 F']; subst; clear FD. inversion F' as [|? ? U1 F]; subst; clear F'.
    inversion F as [|? ? U2 F']; subst; clear F. inversion F' as [|? ? U3 F]; subst; clear F' F.
    repeat (constructor; [intros p a A; apply (exact_cell e E _ sg k); auto; apply (refined_exact e E _ (Matrices.det 4 M)); auto|]).
    constructor.
Qed.
End Results.

(** The specification's adjugate is the inverse times the determinant. *)
Lemma adjugate_inverse M i j : is_4x4 M -> (i < 4)%nat -> (j < 4)%nat ->
  fold_right Z.add 0 (map (fun k => at2 M i k * adjugate M k j) (seq 0 4)) = if Nat.eqb i j then Matrices.det 4 M else 0.
Proof.
  intros [L R] I J.
  destruct M as [|R0 [|R1 [|R2 [|R3 [|]]]]]; try discriminate. clear L.
  inversion R as [|? ? L0 R']; subst; clear R. inversion R' as [|? ? L1 R]; subst; clear R'.
  inversion R as [|? ? L2 R']; subst; clear R. inversion R' as [|? ? L3 R]; subst; clear R' R.
  destruct R0 as [|z00 [|z01 [|z02 [|z03 [|]]]]]; try discriminate.
  destruct R1 as [|z10 [|z11 [|z12 [|z13 [|]]]]]; try discriminate.
  destruct R2 as [|z20 [|z21 [|z22 [|z23 [|]]]]]; try discriminate.
  destruct R3 as [|z30 [|z31 [|z32 [|z33 [|]]]]]; try discriminate. clear L0 L1 L2 L3.
  destruct i as [|[|[|[|i]]]]; try (exfalso; clear - I; lia);
  (destruct j as [|[|[|[|j]]]]; try (exfalso; clear - J; lia));
  cbv -[Z.mul Z.add Z.sub Z.opp]; ring.
Qed.

(** No panic, whatever the entries. *)
Lemma fsum_total tg d0 d1 d2 d3 : exists s, fsum tg f32x4 [d0; d1; d2; d3] = Ok s.
Proof.
  unfold fsum. destruct (on_aarch64 tg); [eexists; cbv -[fl_add]; reflexivity|].
  eexists. reflexivity.
Qed.
Lemma simd_total tg m : is_4x4 m -> exists o, simd_inv4x4 tg m = Ok o.
Proof.
  intros [L R].
  destruct m as [|R0 [|R1 [|R2 [|R3 [|]]]]]; try discriminate. clear L.
  inversion R as [|? ? L0 R']; subst; clear R. inversion R' as [|? ? L1 R]; subst; clear R'.
  inversion R as [|? ? L2 R']; subst; clear R. inversion R' as [|? ? L3 R]; subst; clear R' R.
  destruct R0 as [|z00 [|z01 [|z02 [|z03 [|]]]]]; try discriminate.
  destruct R1 as [|z10 [|z11 [|z12 [|z13 [|]]]]]; try discriminate.
  destruct R2 as [|z20 [|z21 [|z22 [|z23 [|]]]]]; try discriminate.
  destruct R3 as [|z30 [|z31 [|z32 [|z33 [|]]]]]; try discriminate. clear L0 L1 L2 L3.
  lazymatch goal with |- exists o, simd_inv4x4 _ ?m = _ =>
    assert (SM : exists r0 r1 r2 r3 m0 m1 m2 m3 ms, simd_minors m = Ok ([r0; r1; r2; r3], [m0; m1; m2; m3] :: ms));
    [let v := eval cbv -[fl_mul fl_add fl_sub] in (simd_minors m) in
     lazymatch v with Ok ([?r0; ?r1; ?r2; ?r3], [?m0; ?m1; ?m2; ?m3] :: ?ms) => exists r0, r1, r2, r3, m0, m1, m2, m3, ms; reflexivity end|] end.
  destruct SM as (r0 & r1 & r2 & r3 & m0 & m1 & m2 & m3 & ms & SM).
  assert (SD : exists d0 d1 d2 d3, simd_det [r0; r1; r2; r3] [m0; m1; m2; m3] = Ok [d0; d1; d2; d3]).
  { do 4 eexists. cbv -[fl_mul fl_add fl_sub]. reflexivity. }
  destruct SD as (d0 & d1 & d2 & d3 & SD). destruct (fsum_total tg d0 d1 d2 d3) as (s & FS).
  rewrite (simd_eq tg _ _ _ d0 d1 d2 d3 s SM SD FS). destruct (fl_eq 4 s _); eexists; reflexivity.
Qed.
