(** The random number generators: what they draw. *)
From Coq Require Import ZArith List Bool Lia Reals Lra.
From Flocq Require Import Core.
From Verif.Model Require Import Base FloatLane Llvm Tables Minimal Ops ExRandom.
From Verif.Spec Require Import Spec Floats Examples Tausworthe.
From Verif.Proofs Require Import Lib FloatP FloatOpsP OpsP2 RotateP ExactP ExMandelbrotP ExRandomP.
Import ListNotations.
Open Scope Z_scope.

Definition M0 := 4294967294.
Definition M1 := 4294967288.
Definition M2 := 4294967280.
Definition M3 := 4294967168.

Lemma masks_check k M : forallb (fun m => Bool.eqb (Z.testbit M (Z.of_nat m)) (32 - k <=? Z.of_nat m)) (seq 0 32) = true ->
  masks k M.
Proof.
  intros H m I. rewrite forallb_forall in H. specialize (H (Z.to_nat m)). rewrite Z2Nat.id in H by lia.
  apply eqb_prop, H, in_seq. lia.
Qed.
Ltac isgood := repeat split; try (cbn; lia); apply masks_check; reflexivity.
Lemma good0 : good lfsr0 M0. Proof. isgood. Qed.
Lemma good1 : good lfsr1 M1. Proof. isgood. Qed.
Lemma good2 : good lfsr2 M2. Proof. isgood. Qed.
Lemma good3 : good lfsr3 M3. Proof. isgood. Qed.

Lemma gen_u32_next z0 z1 z2 z3 :
  let '(a, b, c, d) := (next_of lfsr0 M0 z0, next_of lfsr1 M1 z1, next_of lfsr2 M2 z2, next_of lfsr3 M3 z3) in
  gen_u32 (z0, z1, z2, z3) = (Z.lxor (Z.lxor (Z.lxor a b) c) d, (a, b, c, d)).
Proof. reflexivity. Qed.

Definition is_rng (r : rng) : Prop :=
  let '(a, b, c, d) := r in pattern 4 a /\ pattern 4 b /\ pattern 4 c /\ pattern 4 d.

(** *** The float *)
Lemma lor_disjoint n a m : 0 <= n -> 0 <= m < 2 ^ n -> Z.lor (a * 2 ^ n) m = a * 2 ^ n + m.
Proof.
  intros N H. assert (L : Z.land (a * 2 ^ n) m = 0).
  { apply Z.bits_inj'. intros j J. rewrite Z.land_spec, Z.testbit_0_l.
    destruct (Z.lt_ge_cases j n) as [L|L].
    - rewrite Z.mul_pow2_bits_low by lia. reflexivity.
    - replace (Z.testbit m j) with false; [apply andb_false_r|]. symmetry.
      rewrite <- (Z.mod_small m (2 ^ n)) by exact H. apply Z.mod_pow2_bits_high. lia. }
  now rewrite <- (Z.lxor_lor _ _ L), <- (Z.add_nocarry_lxor _ _ L).
Qed.
Lemma lor_add23 m : 0 <= m < 2 ^ 23 -> Z.lor 1065353216 m = 1065353216 + m.
Proof. change 1065353216 with (127 * 2 ^ 23). apply lor_disjoint. discriminate. Qed.

Lemma one_pattern : fl_of_int 4 1 = 1065353216.
Proof. vm_compute. reflexivity. Qed.

Lemma one_plus m : 0 <= m < 2 ^ 23 -> datum_of 4 (1065353216 + m) = Fin false (IZR (2 ^ 23 + m) * bpow radix2 (-23)).
Proof.
  intros H. unfold datum_of, magnitude.
  assert (E : exp_field 4 (1065353216 + m) = 127).
  { unfold exp_field. change (sig_width 4) with 23. change (exp_width 4) with 8.
    replace ((1065353216 + m) / 2 ^ 23) with 127; [reflexivity|].
    apply (Z.div_unique _ _ 127 m); [left; exact H|reflexivity]. }
  assert (S : sig_field 4 (1065353216 + m) = m).
  { unfold sig_field. change (sig_width 4) with 23.
    symmetry. apply (Z.mod_unique _ _ 127 m); [left; exact H|reflexivity]. }
  assert (N : sign_field 4 (1065353216 + m) = false).
  { unfold sign_field. apply Z.leb_gt. change (2 ^ 23) with 8388608 in H.
    change (2 ^ (8 * Z.of_nat 4 - 1)) with 2147483648. lia. }
  rewrite E, S, N. reflexivity.
Qed.

Lemma minus_one m : 0 <= m < 2 ^ 23 -> fraction (fl_sub 4 (Z.lor 1065353216 m) (fl_of_int 4 1)) m.
Proof.
  intros H. rewrite lor_add23, one_pattern by exact H.
  assert (F : fsize 4) by (left; reflexivity).
  assert (P : pattern 4 (1065353216 + m)).
  { apply pat32. change (2 ^ 23) with 8388608 in H. change (2 ^ 32) with 4294967296. lia. }
  assert (P1 : pattern 4 1065353216) by (apply pat32; split; [discriminate|reflexivity]).
  destruct (sub_pattern 4 F _ _ P P1) as [PR A]. split; [apply pat32, PR|]. split; [exact H|].
  pose proof (one_plus 0 ltac:(split; [discriminate|reflexivity])) as D1. rewrite !Z.add_0_r in D1.
  rewrite one_plus, D1 in A by exact H. unfold ieee_sub in A. cbn [negated ieee_add negb andb] in A.
  rewrite Ropp_mult_distr_l, <- opp_IZR, <- Rmult_plus_distr_r, <- plus_IZR in A.
  replace (2 ^ 23 + m + - 2 ^ 23) with m in A by ring.
  assert (U : unit_exponent 4 (-23)) by (split; [discriminate|reflexivity]).
  assert (T : Z.abs m <= top 4).
  { change (top 4) with 16777216. change (2 ^ 23) with 8388608 in H. lia. }
  destruct A as (s & (_ & S1 & S2) & ->). rewrite grid_rounded, grid_small by auto.
  assert (V : (IZR m * bpow radix2 (-23))%R = (IZR m / IZR (2 ^ 23))%R).
  { unfold Rdiv. f_equal. }
  replace s with false; [now rewrite V|]. symmetry.
  destruct (Z.eq_dec m 0) as [->|N].
  - apply S2. now rewrite Rmult_0_l.
  - apply S1. apply Rmult_lt_0_compat; [apply IZR_lt; clear - H N; lia|apply bpow_gt_0].
Qed.

Lemma gen_gen_u32 r : gen r = (fl_sub 4 (Z.lor 1065353216 (fst (gen_u32 r) mod 2 ^ 23)) (fl_of_int 4 1), snd (gen_u32 r)).
Proof.
  unfold gen. destruct (gen_u32 r) as [v r']. cbn [fst snd].
  change (u32_shl 1 23 - 1) with (Z.ones 23). rewrite Z.land_ones by discriminate. reflexivity.
Qed.

(** *** Drawing [n] numbers *)
Lemma gens_length n : forall r, length (fst (gens n r)) = n.
Proof.
  induction n as [|n IH]; intros r; [reflexivity|]. cbn [gens]. destruct (gen r) as [v r'].
  specialize (IH r'). destruct (gens n r') as [l r'']. cbn [fst length] in *. now rewrite IH.
Qed.

Definition at_step (z0 z1 z2 z3 : Z) (n : nat) : rng :=
  (nth_of lfsr0 M0 z0 n, nth_of lfsr1 M1 z1 n, nth_of lfsr2 M2 z2 n, nth_of lfsr3 M3 z3 n).
Lemma at_step_S z0 z1 z2 z3 n : snd (gen_u32 (at_step z0 z1 z2 z3 n)) = at_step z0 z1 z2 z3 (S n).
Proof. reflexivity. Qed.

Lemma gens_nth n z0 z1 z2 z3 : forall m j p, nth_error (fst (gens n (at_step z0 z1 z2 z3 m))) j = Some p ->
  p = fst (gen (at_step z0 z1 z2 z3 (m + j))).
Proof.
  induction n as [|n IH]; intros m j p; [destruct j; discriminate|].
  cbn [gens]. rewrite gen_gen_u32. rewrite at_step_S. specialize (IH (S m)).
  destruct (gens n (at_step z0 z1 z2 z3 (S m))) as [l r]. cbn [fst] in *.
  destruct j as [|j]; cbn [nth_error].
  - intros E. rewrite Nat.add_0_r, gen_gen_u32. cbn [fst]. congruence.
  - intros E. apply IH in E. now replace (m + S j)%nat with (S m + j)%nat by lia.
Qed.

Lemma draws_lfsr z0 z1 z2 z3 n j p : is_rng (z0, z1, z2, z3) ->
  nth_error (fst (gens n (z0, z1, z2, z3))) j = Some p ->
  exists v, lfsr113 z0 z1 z2 z3 (S j) v /\ fraction p (v mod 2 ^ 23).
Proof.
  intros (P0 & P1 & P2 & P3) E. apply (gens_nth n z0 z1 z2 z3 0) in E. cbn [Nat.add] in E.
  exists (fst (gen_u32 (at_step z0 z1 z2 z3 j))). split.
  - exists (stream 31 6 z0), (stream 29 2 z1), (stream 28 13 z2), (stream 25 3 z3),
      (nth_of lfsr0 M0 z0 (S j)), (nth_of lfsr1 M1 z1 (S j)), (nth_of lfsr2 M2 z2 (S j)), (nth_of lfsr3 M3 z3 (S j)).
    split; [apply (stream_obeys lfsr0); cbn; lia|]. split; [apply (stream_starts lfsr0)|].
    split; [apply (nth_of_number lfsr0); [exact good0|exact P0]|].
    split; [apply (stream_obeys lfsr1); cbn; lia|]. split; [apply (stream_starts lfsr1)|].
    split; [apply (nth_of_number lfsr1); [exact good1|exact P1]|].
    split; [apply (stream_obeys lfsr2); cbn; lia|]. split; [apply (stream_starts lfsr2)|].
    split; [apply (nth_of_number lfsr2); [exact good2|exact P2]|].
    split; [apply (stream_obeys lfsr3); cbn; lia|]. split; [apply (stream_starts lfsr3)|].
    split; [apply (nth_of_number lfsr3); [exact good3|exact P3]|]. reflexivity.
  - subst p. rewrite gen_gen_u32. cbn [fst]. apply minus_one. apply Z.mod_pos_bound. reflexivity.
Qed.

Lemma lfsr113_unique z0 z1 z2 z3 n v v' : lfsr113 z0 z1 z2 z3 n v -> lfsr113 z0 z1 z2 z3 n v' -> v = v'.
Proof.
  intros (x0 & x1 & x2 & x3 & a & b & c & d & H1 & H2 & H3 & H4 & H5 & H6 & H7 & H8 & H9 & H10 & H11 & H12 & ->)
         (y0 & y1 & y2 & y3 & a' & b' & c' & d' & K1 & K2 & K3 & K4 & K5 & K6 & K7 & K8 & K9 & K10 & K11 & K12 & ->).
  rewrite (number_unique lfsr0 x0 y0 z0 n a a') by (auto; cbn; lia).
  rewrite (number_unique lfsr1 x1 y1 z1 n b b') by (auto; cbn; lia).
  rewrite (number_unique lfsr2 x2 y2 z2 n c c') by (auto; cbn; lia).
  rewrite (number_unique lfsr3 x3 y3 z3 n d d') by (auto; cbn; lia). reflexivity.
Qed.

(** *** Seeds *)
Lemma land_field x k n : 0 <= k -> 0 <= n -> Z.land x (Z.ones k * 2 ^ n) = (x / 2 ^ n) mod 2 ^ k * 2 ^ n.
Proof.
  intros K N. rewrite <- Z.land_ones, <- !Z.shiftl_mul_pow2, <- Z.shiftr_div_pow2 by lia.
  apply Z.bits_inj'. intros j J. rewrite Z.land_spec, !Z.shiftl_spec, Z.land_spec by lia.
  destruct (Z.lt_ge_cases j n) as [L|L].
  - rewrite (Z.testbit_neg_r (Z.ones k)), !andb_false_r by lia. reflexivity.
  - rewrite Z.shiftr_spec by lia. do 2 f_equal. lia.
Qed.

Lemma from_seed_seeds x : pattern 4 x ->
  let '(z0, z1, z2, z3) := from_seed x in is_rng (z0, z1, z2, z3) /\ seeds x z0 z1 z2 z3.
Proof.
  intros P. unfold from_seed. cbv zeta. cbv beta iota.
  set (z2 := Z.lor _ _). set (z3 := Z.lor _ _).
  assert (PC : forall c, 0 <= c < 4294967296 -> pattern 4 c) by (intros; now apply pat32).
  assert (P2 : pattern 4 z2) by (apply lor_pattern; [apply shl32_pattern|apply shr32_pattern; [lia|exact P]]).
  assert (P3 : pattern 4 z3).
  { repeat apply lor_pattern; try apply shl32_pattern; apply shr32_pattern; try lia; apply land_pattern;
      try exact P; apply PC; lia. }
  assert (P1 : pattern 4 (Z.lxor x 3203395597)) by (apply lxor_pattern; [exact P|apply PC; lia]).
  assert (X : 0 <= x < 4294967296) by exact P.
  split; [exact (conj P (conj P1 (conj P2 P3)))|].
  split; [reflexivity|]. split; [split; [exact P1|intros j J; apply Z.lxor_spec]|split].
  - unfold z2, u32_shl, u32_shr. change 65535 with (Z.ones 16). rewrite Z.land_ones by lia.
    rewrite Z.shiftl_mul_pow2, Z.shiftr_div_pow2 by lia. rewrite wrap_id.
    + apply lor_disjoint; [lia|]. change (2 ^ 16) with 65536. split; [apply Z.div_pos; lia|].
      apply Z.div_lt_upper_bound; lia.
    + apply PC. change (2 ^ 16) with 65536. pose proof (Z.mod_pos_bound x 65536). lia.
  - assert (B : forall i, 0 <= i < 4 -> 0 <= byte x i < 256) by (intros; apply Z.mod_pos_bound; lia).
    pose proof (B 0 ltac:(lia)) as B0. pose proof (B 1 ltac:(lia)) as B1.
    pose proof (B 2 ltac:(lia)) as B2. pose proof (B 3 ltac:(lia)) as B3.
    assert (E0 : Z.land x 255 = byte x 0).
    { change 255 with (Z.ones 8 * 2 ^ 0). rewrite land_field by lia. unfold byte. change (256 ^ 0) with (2 ^ 0).
      change (2 ^ 8) with 256. change (2 ^ 0) with 1. lia. }
    assert (E1 : Z.land x 65280 = byte x 1 * 2 ^ 8).
    { change 65280 with (Z.ones 8 * 2 ^ 8). rewrite land_field by lia. reflexivity. }
    assert (E2 : Z.land x 16711680 = byte x 2 * 2 ^ 16).
    { change 16711680 with (Z.ones 8 * 2 ^ 16). rewrite land_field by lia. reflexivity. }
    assert (E3 : Z.land x 4278190080 = byte x 3 * 2 ^ 24).
    { change 4278190080 with (Z.ones 8 * 2 ^ 24). rewrite land_field by lia. reflexivity. }
    unfold z3. rewrite E0, E1, E2, E3. unfold u32_shl, u32_shr.
    generalize dependent (byte x 0); intros b0 B0 _. generalize dependent (byte x 1); intros b1 B1 _.
    generalize dependent (byte x 2); intros b2 B2 _. generalize dependent (byte x 3); intros b3 B3 _.
    rewrite !Z.shiftl_mul_pow2, !Z.shiftr_div_pow2 by lia.
    rewrite !wrap_id by (apply PC; change (2 ^ 24) with 16777216; change (2 ^ 8) with 256; lia).
    replace (b1 * 2 ^ 8 * 2 ^ 8) with (b1 * 2 ^ 16) by ring.
    replace (b2 * 2 ^ 16 / 2 ^ 8) with (b2 * 2 ^ 8).
    2:{ change (2 ^ 16) with (2 ^ 8 * 2 ^ 8). rewrite Z.mul_assoc, Z.div_mul; [reflexivity|discriminate]. }
    rewrite Z.div_mul by discriminate.
    rewrite (lor_disjoint 24 b0) by (try discriminate; change (2 ^ 16) with 65536; change (2 ^ 24) with 16777216; lia).
    replace (b0 * 2 ^ 24 + b1 * 2 ^ 16) with ((b0 * 2 ^ 8 + b1) * 2 ^ 16) by ring.
    rewrite (lor_disjoint 16) by (try discriminate; change (2 ^ 16) with 65536; change (2 ^ 8) with 256; lia).
    replace ((b0 * 2 ^ 8 + b1) * 2 ^ 16 + b2 * 2 ^ 8) with (((b0 * 2 ^ 8 + b1) * 2 ^ 8 + b2) * 2 ^ 8) by ring.
    rewrite (lor_disjoint 8) by (try discriminate; change (2 ^ 8) with 256; lia).
    ring.
Qed.

Theorem scalar_draws x n j p : pattern 4 x -> nth_error (fst (gens n (from_seed x))) j = Some p ->
  exists z0 z1 z2 z3 v, seeds x z0 z1 z2 z3 /\ lfsr113 z0 z1 z2 z3 (S j) v /\ fraction p (v mod 2 ^ 23).
Proof.
  intros P E. pose proof (from_seed_seeds x P) as H. destruct (from_seed x) as [[[z0 z1] z2] z3].
  destruct H as [R S]. destruct (draws_lfsr _ _ _ _ _ _ _ R E) as (v & L & F).
  exists z0, z1, z2, z3, v. auto.
Qed.
Lemma seeds_unique x z0 z1 z2 z3 y0 y1 y2 y3 : seeds x z0 z1 z2 z3 -> seeds x y0 y1 y2 y3 ->
  z0 = y0 /\ z1 = y1 /\ z2 = y2 /\ z3 = y3.
Proof.
  intros (-> & [A1 B1] & -> & ->) (-> & [A2 B2] & -> & ->). repeat (split; [reflexivity|]).
  split; [|auto]. apply bits_equal; [now apply pat32|now apply pat32|]. intros i I.
  rewrite B1, B2 by lia. reflexivity.
Qed.

(** ** The vector generator *)
Definition c0 (r : rng) : Z := fst (fst (fst r)).
Definition c1 (r : rng) : Z := snd (fst (fst r)).
Definition c2 (r : rng) : Z := snd (fst r).
Definition c3 (r : rng) : Z := snd r.
Definition vstate (L : list rng) : vrng := (map c0 L, map c1 L, map c2 L, map c3 L).

Section Lanes.
  Context {A : Type} (wide : bool) (L : list A).
  Hypothesis HL : length L = vn (u32xN wide).
  Let u := u32xN wide.
  Lemma vxor f g : bitxor u (map f L) (map g L) = map (fun a => Z.lxor (f a) (g a)) L.
  Proof. apply map2_maps. Qed.
  Lemma vor f g : bitor u (map f L) (map g L) = map (fun a => Z.lor (f a) (g a)) L.
  Proof. apply map2_maps. Qed.
  Lemma vand f g : bitand u (map f L) (map g L) = map (fun a => Z.land (f a) (g a)) L.
  Proof. apply map2_maps. Qed.
  Lemma vsplat c : splat u c = map (fun _ : A => c) L.
  Proof. apply repeat_map. exact HL. Qed.
  Lemma vshl f n : 0 <= n < 32 -> shl_scalar u (map f L) n = Ok (map (fun a => u32_shl (f a) n) L).
  Proof.
    intros N. unfold shl_scalar, shl, simd_shl. rewrite vsplat, map2_maps.
    replace (vb u) with 4%nat by (unfold u; destruct wide; reflexivity).
    rewrite wrap_id by (apply pat32; change (2 ^ 32) with 4294967296; lia).
    unfold lane_shl. change (bits 4) with 32. replace (n <? 32) with true by (symmetry; apply Z.ltb_lt; lia).
    rewrite <- (map_map (fun a => u32_shl (f a) n) Some). apply all_ok_map_Some.
  Qed.
  Lemma vshr f n : 0 <= n < 32 -> shr_scalar u (map f L) n = Ok (map (fun a => u32_shr (f a) n) L).
  Proof.
    intros N. unfold shr_scalar, shr, simd_shr. rewrite vsplat, map2_maps.
    replace (vb u) with 4%nat by (unfold u; destruct wide; reflexivity).
    replace (vkind u) with KUint by (unfold u; destruct wide; reflexivity).
    rewrite wrap_id by (apply pat32; change (2 ^ 32) with 4294967296; lia).
    unfold lane_shr. change (bits 4) with 32. replace (n <? 32) with true by (symmetry; apply Z.ltb_lt; lia).
    cbn [is_signed]. rewrite <- (map_map (fun a => u32_shr (f a) n) Some). apply all_ok_map_Some.
  Qed.
End Lanes.

Ltac lanes wide L HL :=
  repeat (cbn [bind]; first
    [ rewrite (vsplat wide L HL) | rewrite (vxor wide L) | rewrite (vor wide L) | rewrite (vand wide L)
    | rewrite (vshl wide L HL) by lia | rewrite (vshr wide L HL) by lia ]).

Lemma vfrom_seed_lanes wide x : length x = vn (u32xN wide) ->
  vfrom_seed wide x = Ok (vstate (map from_seed x)).
Proof.
  intros H. replace (vfrom_seed wide x) with (vfrom_seed wide (map (fun s => s) x)) by now rewrite map_id.
  unfold vfrom_seed. cbv zeta.
  lanes wide x H. unfold vstate. rewrite !map_map. reflexivity.
Qed.

Lemma vgen_u32_lanes wide L : length L = vn (u32xN wide) ->
  vgen_u32 wide (vstate L) = Ok (map (fun r => fst (gen_u32 r)) L, vstate (map (fun r => snd (gen_u32 r)) L)).
Proof.
  intros H. unfold vgen_u32, vstate. cbv zeta. lanes wide L H. rewrite !map_map.
  assert (E : forall (f g f0 g0 f1 g1 f2 g2 f3 g3 : rng -> Z), (forall r, f r = g r) -> (forall r, f0 r = g0 r) ->
    (forall r, f1 r = g1 r) -> (forall r, f2 r = g2 r) -> (forall r, f3 r = g3 r) ->
    Ok (map f L, (map f0 L, map f1 L, map f2 L, map f3 L)) = Ok (map g L, (map g0 L, map g1 L, map g2 L, map g3 L))).
  { intros f g f0 g0 f1 g1 f2 g2 f3 g3 A B C D F.
    now rewrite (map_ext _ _ A), (map_ext _ _ B), (map_ext _ _ C), (map_ext _ _ D), (map_ext _ _ F). }
  apply E; intros [[[r0 r1] r2] r3]; reflexivity.
Qed.

Lemma vgen_lanes wide L : length L = vn (u32xN wide) ->
  vgen wide (vstate L) = Ok (map (fun r => fst (gen r)) L, vstate (map (fun r => snd (gen r)) L)).
Proof.
  intros H. unfold vgen. rewrite vgen_u32_lanes by exact H. cbn [bind]. unfold bitand_assign. lanes wide L H.
  replace (splat (f32xN wide) (fl_of_int 4 1)) with (map (fun _ : rng => fl_of_int 4 1) L)
    by (symmetry; apply repeat_map; rewrite H; destruct wide; reflexivity).
  unfold sub, simd_sub. rewrite map2_maps. do 2 f_equal; [|f_equal].
  - apply map_ext. intros r. unfold gen. destruct (gen_u32 r) as [v r']. cbn [fst snd].
    replace (vkind (f32xN wide)) with KFloat by (destruct wide; reflexivity).
    replace (vb (f32xN wide)) with 4%nat by (destruct wide; reflexivity). reflexivity.
  - apply map_ext. intros r. unfold gen. destruct (gen_u32 r) as [v r']. reflexivity.
Qed.

Lemma vgens_lanes wide n : forall L, length L = vn (u32xN wide) ->
  exists l, vgens wide n (vstate L) = Ok (l, vstate (map (fun r => snd (gens n r)) L)) /\ length l = n /\
    forall j v, nth_error l j = Some v -> length v = length L /\
      forall i r, nth_error L i = Some r -> exists p, nth_error v i = Some p /\ nth_error (fst (gens n r)) j = Some p.
Proof.
  induction n as [|n IH]; intros L H.
  - exists []. cbn [vgens]. split; [|split; [reflexivity|intros [|j] v E; discriminate]].
    now rewrite (map_ext (fun r => snd (gens 0 r)) (fun r => r) (fun r => eq_refl)), map_id.
  - cbn [vgens]. rewrite vgen_lanes by exact H. cbn [bind].
    destruct (IH (map (fun r => snd (gen r)) L)) as (l & E & N & V); [now rewrite map_length|].
    rewrite E. cbn [bind]. eexists. split; [|split].
    + do 2 f_equal. f_equal. rewrite map_map. apply map_ext. intros r. cbn [gens].
      destruct (gen r) as [v r']. cbn [snd]. destruct (gens n r') as [l' r'']. reflexivity.
    + cbn [length]. now rewrite N.
    + intros [|j] v EV; cbn [nth_error] in EV.
      * assert (v = map (fun r => fst (gen r)) L) by congruence. subst v. split; [apply map_length|].
        intros i r Hr. exists (fst (gen r)). split; [now apply (map_nth_error (fun r => fst (gen r)))|]. cbn [gens].
        destruct (gen r) as [v r']. destruct (gens n r') as [l' r'']. reflexivity.
      * destruct (V j v EV) as [LV VV]. split; [now rewrite LV, map_length|]. intros i r Hr.
        destruct (VV i (snd (gen r))) as (p & Hp & Q); [now apply (map_nth_error (fun r => snd (gen r)))|].
        exists p. split; [exact Hp|]. cbn [gens]. destruct (gen r) as [v0 r']. cbn [snd] in Q.
        destruct (gens n r') as [l' r'']. exact Q.
Qed.

Lemma u32_vector wide x : is_vector (u32xN wide) x -> length x = vn (u32xN wide) /\ Forall (pattern 4) x.
Proof. intros [H F]. split; [exact H|]. destruct wide; exact F. Qed.

Theorem vector_draws wide x n : is_vector (u32xN wide) x ->
  exists r l r', vfrom_seed wide x = Ok r /\ vgens wide n r = Ok (l, r') /\ length l = n /\
    forall j v, nth_error l j = Some v -> is_vector (f32xN wide) v /\
      forall i s, lane x i s -> exists p, lane v i p /\ nth_error (fst (gens n (from_seed s))) j = Some p.
Proof.
  intros V. destruct (u32_vector _ _ V) as [H F].
  destruct (vgens_lanes wide n (map from_seed x)) as (l & E & N & D); [now rewrite map_length|].
  exists (vstate (map from_seed x)), l. eexists. split; [now apply vfrom_seed_lanes|].
  split; [exact E|]. split; [exact N|]. intros j v Hv. destruct (D j v Hv) as [LV DV]. rewrite map_length in LV.
  assert (K : forall i s, lane x i s -> exists p, lane v i p /\ nth_error (fst (gens n (from_seed s))) j = Some p).
  { intros i s Hs. apply DV. now apply map_nth_error. }
  split; [|exact K]. split.
  - rewrite LV, H. destruct wide; reflexivity.
  - apply Forall_forall. intros p Hp. apply In_nth_error in Hp as [i Hi].
    assert (I : (i < length x)%nat) by (rewrite <- LV; apply nth_error_Some; congruence).
    destruct (nth_error x i) as [s|] eqn:Hs; [|apply nth_error_None in Hs; lia].
    destruct (K i s Hs) as (p' & Hp' & G). unfold lane in Hp'. assert (p' = p) by congruence. subst p'.
    rewrite Forall_forall in F. destruct (scalar_draws s n j p (F s (nth_error_In _ _ Hs)) G)
      as (z0 & z1 & z2 & z3 & w & _ & _ & (R & _)). destruct wide; exact R.
Qed.
