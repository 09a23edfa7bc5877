(** The scenes of the ambient occlusion example, and what their numbers lead to. *)
From Coq Require Import ZArith List Bool Lia Reals Lra.
From Flocq Require Import Core.
From Verif.Model Require Import Base FloatLane Llvm Tables MathTables Math Minimal MaskReduce Ops Cmp Float Reduce ExStencil ExRandom ExGeometry ExIntersect ExOcclusion.
From Verif.Spec Require Import Spec Floats MathSpec Examples Stencil Tausworthe Rays Occlusion.
From Verif.Proofs Require Import Lib FloatP FloatVecP FloatConstsP ExactP ExRandomP ExRandomMainP ExPacketP ExIntersectP ExIntersectMainP ExIntersectTopP ExHemisphereP ExOcclusionP.
Import ListNotations.
Open Scope Z_scope.
Local Notation pat := (pattern 4).
Local Notation dat := f32_datum.
Local Opaque fl_add fl_sub fl_mul fl_div fl_sqrt fl_lt fl_gt fl_ge fl_abs f32_neg.

(** *** The objects *)
Lemma f32_lit c : (0 <=? c) && (c <? 4294967296) = true -> is_f32 c.
Proof. intros H. apply andb_true_iff in H as [A B]. apply Z.leb_le in A. apply Z.ltb_lt in B. exact (conj A B). Qed.
Lemma v3_lit a b c : is_f32 a -> is_f32 b -> is_f32 c -> is_v3 (V3 a b c).
Proof. intros A B C. exact (conj A (conj B C)). Qed.
Lemma default_ok : is_plane default_plane /\ Forall is_sphere default_spheres.
Proof.
  split; [split; apply v3_lit; apply f32_lit; vm_compute; reflexivity|].
  unfold default_spheres. repeat (apply Forall_cons; [split; [apply v3_lit|]; apply f32_lit; vm_compute; reflexivity|]). apply Forall_nil.
Qed.

(** *** Drawing *)
Lemma draws_app {A St} (rand : St -> outcome (A * St)) st a st1 b st' : draws rand st a st1 -> draws rand st1 b st' -> draws rand st (a ++ b) st'.
Proof. induction 1 as [|st v st2 l st3 E _ IH]; intros H; cbn [app]; [exact H|]. econstructor; eauto. Qed.
Lemma draws_split {A St} (rand : St -> outcome (A * St)) a : forall b st st', draws rand st (a ++ b) st' ->
  exists st1, draws rand st a st1 /\ draws rand st1 b st'.
Proof.
  induction a as [|v a IH]; intros b st st' H; cbn [app] in H; [exists st; split; [constructor|exact H]|].
  inversion H as [|? ? st1 ? ? E H1]; subst. destruct (IH _ _ _ H1) as (st2 & H2 & H3). exists st2. split; [econstructor; eauto|exact H3].
Qed.

Lemma random_scalar wide r vr : forall n, draws (sc_rand (random_scene wide)) (r, vr) (fst (gens n r)) (snd (gens n r), vr).
Proof.
  intros n. revert r. induction n as [|n IH]; intros r; cbn [gens]; [constructor|].
  specialize (IH (snd (gen r))). destruct (gen r) as [v r1] eqn:E. cbn [snd] in IH. destruct (gens n r1) as [l r2] eqn:E2. cbn [fst snd] in *.
  econstructor; [|exact IH]. cbn [sc_rand random_scene fst snd]. now rewrite E.
Qed.

Lemma fraction_below p k : fraction p k -> below_one p.
Proof.
  intros (P & (K0 & K1) & E). split; [exact P|]. eexists. split; [exact E|]. apply IZR_le in K0. apply IZR_lt in K1.
  change (2 ^ 23) with 8388608 in *. lra.
Qed.
Lemma gens_below n r : is_state r -> Forall below_one (fst (gens n r)).
Proof.
  intros H. apply Forall_forall. intros p I. apply In_nth_error in I as [j E]. destruct r as [[[a b] c] d].
  destruct (draws_lfsr a b c d n j p H E) as (v & _ & F). exact (fraction_below _ _ F).
Qed.

Lemma gen_state r : is_state r -> is_state (snd (gen r)).
Proof.
  destruct r as [[[a b] c] d]. intros (A & B & C & D). rewrite gen_gen_u32. cbn [snd].
  change (a, b, c, d) with (at_step a b c d 0). rewrite at_step_S. unfold at_step, is_state.
  exact (conj (nth_of_pattern _ _ _ _ good0 A) (conj (nth_of_pattern _ _ _ _ good1 B) (conj (nth_of_pattern _ _ _ _ good2 C) (nth_of_pattern _ _ _ _ good3 D)))).
Qed.
Lemma gens_state n r : is_state r -> is_state (snd (gens n r)).
Proof.
  revert r. induction n as [|n IH]; intros r H; cbn [gens]; [exact H|]. apply gen_state in H. destruct (gen r) as [v r1]. cbn [snd] in H.
  specialize (IH r1 H). destruct (gens n r1) as [l r2]. exact IH.
Qed.
Theorem random_draws wide r vr n : is_state r ->
  exists l r', draws (sc_rand (random_scene wide)) (r, vr) l (r', vr) /\ length l = n /\ Forall below_one l /\ is_state r'.
Proof.
  intros H. exists (fst (gens n r)), (snd (gens n r)). split; [apply random_scalar|]. split; [apply gens_length|]. split; [now apply gens_below|now apply gens_state].
Qed.

Lemma vstate_of wide r : is_vstate wide r -> exists L, r = vstate L /\ length L = vn (u32xN wide) /\ Forall is_state L.
Proof.
  destruct r as [[[a b] c] d]. intros (A & B & C & D).
  apply u32_vector in A as [A1 A2], B as [B1 B2], C as [C1 C2], D as [D1 D2].
  revert a b c d A1 A2 B1 B2 C1 C2 D1 D2. generalize (vn (u32xN wide)).
  induction n as [|n IH]; intros [|x a] [|y b] [|z c] [|w d] A1 A2 B1 B2 C1 C2 D1 D2; try discriminate.
  - exists []. repeat split. constructor.
  - inversion A2; inversion B2; inversion C2; inversion D2; subst. cbn [length] in *.
    destruct (IH a b c d) as (L & E & EL & F); auto; try lia.
    exists ((x, y, z, w) :: L). unfold vstate in *. cbn [map length c0 c1 c2 c3 fst snd].
    assert (a = map c0 L /\ b = map c1 L /\ c = map c2 L /\ d = map c3 L) as (-> & -> & -> & ->) by (repeat split; congruence).
    split; [reflexivity|]. split; [congruence|]. constructor; [|exact F]. exact (conj H1 (conj H5 (conj H9 H13))).
Qed.
Lemma vstate_is wide L : length L = vn (u32xN wide) -> Forall is_state L -> is_vstate wide (vstate L).
Proof.
  intros H F. unfold vstate, is_vstate. rewrite Forall_forall in F.
  assert (W : forall g : rng -> Z, (forall r, In r L -> is_u32 (g r)) -> is_vector (u32xN wide) (map g L)).
  { intros g G. split; [now rewrite map_length|]. apply Forall_forall. intros p I. apply in_map_iff in I as (r & <- & R).
    replace (width (u32xN wide)) with 32 by (destruct wide; reflexivity). now apply G. }
  repeat split; try (now rewrite map_length); apply W; intros [[[a b] c] d] I; destruct (F _ I) as (A & B & C & D); assumption.
Qed.
Lemma vgen_ok wide r : is_vstate wide r ->
  exists v r', vgen wide r = Ok (v, r') /\ is_vstate wide r' /\ is_vector (f32xN wide) v /\ Forall below_one v.
Proof.
  intros H. destruct (vstate_of wide r H) as (L & -> & HL & F).
  assert (BL : Forall below_one (map (fun r => fst (gen r)) L)).
  { apply Forall_forall. intros p I. apply in_map_iff in I as (r & <- & R). rewrite Forall_forall in F.
    pose proof (gens_below 1 r (F r R)) as G. cbn [gens] in G. destruct (gen r) as [v r']. cbn [fst] in *. now inversion G. }
  eexists _, _. split; [apply vgen_lanes; exact HL|]. split; [|split; [|exact BL]].
  - apply vstate_is; [now rewrite map_length|]. apply Forall_forall. intros s I. apply in_map_iff in I as (r & <- & R).
    apply gen_state. rewrite Forall_forall in F. auto.
  - split; [rewrite map_length, HL; destruct wide; reflexivity|]. rewrite Forall_forall in BL. apply Forall_forall. intros p I.
    unfold width. rewrite f_b. exact (proj1 (BL p I)).
Qed.
Theorem random_packets wide r vr n : is_vstate wide vr ->
  exists ps vr', draws (sc_rands (random_scene wide)) (r, vr) ps (r, vr') /\ length ps = n /\ are_packets wide ps /\
    Forall (fun p => Forall below_one (fst p) /\ Forall below_one (snd p)) ps /\ is_vstate wide vr'.
Proof.
  revert vr. induction n as [|n IH]; intros vr H.
  - exists [], vr. split; [constructor|]. split; [reflexivity|]. split; [constructor|]. split; [constructor|exact H].
  - destruct (vgen_ok wide vr H) as (a & r1 & E1 & S1 & V1 & B1). destruct (vgen_ok wide r1 S1) as (b & r2 & E2 & S2 & V2 & B2).
    destruct (IH r2 S2) as (ps & vr' & D & L & P & B & S'). exists ((a, b) :: ps), vr'.
    split; [econstructor; [|exact D]|split; [cbn [length]; congruence|split; [constructor; auto|split; [constructor; auto|exact S']]]].
    cbn [sc_rands random_scene fst snd]. rewrite E1. cbn [bind]. rewrite E2. reflexivity.
Qed.

(** *** The numbers of the test scene *)
Theorem test_draws wide rands step n : length rands = 128%nat -> (step < 128)%nat ->
  draws (sc_rand (test_scene wide rands)) step (map (fun j => nth ((step + j) mod 128)%nat rands 0) (seq 0 n)) ((step + n) mod 128)%nat.
Proof.
  intros L. revert step. induction n as [|n IH]; intros step HS.
  - cbn [seq map]. rewrite Nat.add_0_r, Nat.mod_small by exact HS. constructor.
  - assert (E : sc_rand (test_scene wide rands) step = Ok (nth step rands 0, ((step + 1) mod 128)%nat)).
    { cbn [sc_rand test_scene]. unfold test_rand. rewrite (nth_error_nth' rands 0) by (rewrite L; exact HS).
      do 2 f_equal. change (2 * 8 * 8)%nat with 128%nat. destruct (Nat.leb_spec 128 (step + 1)) as [H|H].
      - assert (step + 1 = 128)%nat as -> by lia. reflexivity.
      - symmetry. now apply Nat.mod_small. }
    cbn [seq map]. rewrite Nat.add_0_r, Nat.mod_small by exact HS. econstructor; [exact E|].
    assert (S1 : ((step + 1) mod 128 < 128)%nat) by (apply Nat.mod_upper_bound; discriminate).
    specialize (IH _ S1).
    replace (map (fun j => nth ((step + j) mod 128)%nat rands 0) (seq 1 n)) with (map (fun j => nth (((step + 1) mod 128 + j) mod 128)%nat rands 0) (seq 0 n)).
    + replace ((step + S n) mod 128)%nat with (((step + 1) mod 128 + n) mod 128)%nat; [exact IH|].
      rewrite Nat.add_mod_idemp_l by discriminate. f_equal. lia.
    + rewrite <- (seq_shift n 0), map_map. apply map_ext. intros j. rewrite Nat.add_mod_idemp_l by discriminate. do 2 f_equal. lia.
Qed.

(** *** The default of rand_f32xN *)
Lemma draws_draw {St} (rand : St -> outcome (Z * St)) st l st' : draws rand st l st' -> draw rand (length l) st = Ok (l, st').
Proof.
  induction 1 as [|st v st1 l st' E _ IH]; cbn [length draw]; [reflexivity|]. rewrite E. cbn [bind]. rewrite IH. reflexivity.
Qed.
Lemma even_odd : forall n (l : list Z), length l = (2 * n)%nat ->
  combine (map (fun k => nth (2 * k) l 0) (seq 0 n)) (map (fun k => nth (2 * k + 1) l 0) (seq 0 n)) = pairs l.
Proof.
  induction n as [|n IH]; intros l H.
  - destruct l; [reflexivity|discriminate].
  - destruct l as [|a [|b l]]; try (cbn [length] in H; lia). cbn [seq map combine pairs]. f_equal.
    rewrite <- (IH l) by (cbn [length] in H; lia). rewrite <- seq_shift, !map_map. f_equal; apply map_ext; intros k.
    + replace (2 * S k)%nat with (S (S (2 * k))) by lia. reflexivity.
    + replace (2 * S k + 1)%nat with (S (S (2 * k + 1))) by lia. reflexivity.
Qed.
Lemma pairs_app {A} : forall n (a b : list A), length a = (2 * n)%nat -> pairs (a ++ b) = pairs a ++ pairs b.
Proof.
  induction n as [|n IH]; intros a b H.
  - destruct a; [reflexivity|discriminate].
  - destruct a as [|x [|y a]]; try (cbn [length] in H; lia). cbn [app pairs]. f_equal. apply IH. cbn [length] in H. lia.
Qed.
Theorem default_draws {St} wide (rand : St -> outcome (Z * St)) : forall m l st st', draws rand st l st' ->
  length l = (m * (2 * vn (f32xN wide)))%nat -> Forall is_f32 l ->
  exists ps, draws (default_rands wide rand) st ps st' /\ length ps = m /\ are_packets wide ps /\ concat (map lane_pairs ps) = pairs l.
Proof.
  set (N := vn (f32xN wide)). induction m as [|m IH]; intros l st st' D L F.
  - destruct l; [|discriminate]. inversion D; subst. exists []. split; [constructor|]. split; [reflexivity|]. split; [constructor|reflexivity].
  - rewrite <- (firstn_skipn (2 * N) l) in D, F. set (a := firstn (2 * N) l) in *. set (b := skipn (2 * N) l) in *.
    assert (LA : length a = (2 * N)%nat) by (subst a; rewrite firstn_length; cbn [Nat.mul] in L; lia).
    assert (LB : length b = (m * (2 * N))%nat) by (subst b; rewrite skipn_length; cbn [Nat.mul] in L; lia).
    destruct (draws_split rand a b st st' D) as (st1 & D1 & D2). apply Forall_app in F as [F1 F2].
    destruct (IH b st1 st' D2 LB F2) as (ps & P1 & P2 & P3 & P4).
    exists ((map (fun k => nth (2 * k) a 0) (seq 0 N), map (fun k => nth (2 * k + 1) a 0) (seq 0 N)) :: ps). split; [|split; [|split]].
    + econstructor; [|exact P1]. unfold default_rands. fold N. rewrite <- LA, (draws_draw rand _ _ _ D1). reflexivity.
    + cbn [length]. congruence.
    + constructor; [|exact P3]. cbn [fst snd]. rewrite Forall_forall in F1.
      assert (G : forall k, (k < 2 * N)%nat -> pat (nth k a 0)) by (intros k K; apply F1; apply nth_In; lia).
      split; (apply vector_map; [now rewrite seq_length|]); intros k K; apply in_seq in K; apply G; lia.
    + cbn [map concat]. rewrite P4. unfold lane_pairs at 1. cbn [fst snd]. rewrite (even_odd N a LA).
      rewrite <- (pairs_app N a b LA). subst a b. now rewrite firstn_skipn.
Qed.

(** *** The value *)
Theorem share_range n hs r : (0 < n)%nat -> (count hs <= n)%nat -> free_share n hs r -> exists x, r = Fin false x /\ (0 <= x <= 1)%R.
Proof.
  intros N0 C (q & Q & R). apply lt_INR in N0. apply le_INR in C. pose proof (pos_INR (count hs)) as C0. cbn [INR] in N0.
  cbn [ieee_div] in Q. rewrite Req_bool_false in Q by lra.
  assert (B0 : (0 <= INR (count hs) / INR n <= 1)%R).
  { split; [apply Rmult_le_pos; [exact C0|]; left; now apply Rinv_0_lt_compat|]. apply Rmult_le_reg_r with (INR n); [exact N0|].
    unfold Rdiv. rewrite Rmult_assoc, Rinv_l, Rmult_1_r, Rmult_1_l by lra. exact C. }
  assert (R0 : rounded 4 0 = 0%R) by (unfold rounded; apply round_0, valid_rnd_N).
  assert (R1 : rounded 4 1 = 1%R).
  { change 1%R with (bpow radix2 0). unfold rounded. apply round_generic; [apply valid_rnd_N|]. apply generic_format_bpow. vm_compute. discriminate. }
  assert (U : forall x z d, (0 <= x <= 1)%R -> (x = 0%R -> z = false) -> rounds_to 4 x z d -> exists y, d = Fin false y /\ (0 <= y <= 1)%R).
  { intros x z d X Z (s & (S1 & S2 & S3) & ->).
    assert (Y : (0 <= rounded 4 x <= 1)%R).
    { split; [rewrite <- R0 at 1|rewrite <- R1]; apply rounded_mono; lra. }
    rewrite Rlt_bool_true.
    - exists (rounded 4 x). split; [|exact Y]. f_equal. destruct (Req_dec x 0) as [E|E]; [rewrite S3 by exact E; auto|apply S2; lra].
    - rewrite Rabs_pos_eq by lra. apply Rle_lt_trans with 1%R; [lra|]. change 1%R with (bpow radix2 0). apply bpow_lt. reflexivity. }
  destruct (U _ _ _ B0 (fun _ => eq_refl) Q) as (y & -> & Y). unfold ieee_sub, one in R. cbn [negated ieee_add] in R.
  assert (B1 : (0 <= 1 + - y <= 1)%R) by lra. apply (U _ _ _ B1) in R; [exact R|reflexivity].
Qed.

Theorem share_64 hs r : (count hs <= 64)%nat -> free_share 64 hs r -> r = Fin false (1 - INR (count hs) / 64).
Proof.
  intros C (q & Q & R).
  assert (E64 : INR 64 = 64%R) by (rewrite INR_IZR_INZ; reflexivity).
  assert (B : bpow radix2 (-6) = (/ 64)%R) by (change (-6) with (- (6)); rewrite (bpow_inv 6) by lia; reflexivity).
  assert (UE : unit_exponent 4 (-6)) by (vm_compute; split; congruence).
  assert (U : forall c x z d, (c <= 64)%nat -> x = (INR c / 64)%R -> z = false -> rounds_to 4 x z d -> d = Fin false x).
  { intros c x z d Hc -> -> (s & (S1 & S2 & S3) & ->).
    assert (X : (INR c / 64 = IZR (Z.of_nat c) * bpow radix2 (-6))%R) by (rewrite B, INR_IZR_INZ; reflexivity).
    assert (T : Z.abs (Z.of_nat c) <= top 4) by (change (top 4) with (2 ^ 24); lia).
    assert (G : rounded 4 (INR c / 64) = (INR c / 64)%R) by (rewrite X; exact (grid_rounded 4 _ _ fs4 UE T)).
    assert (G2 : Rlt_bool (Rabs (INR c / 64)) (bpow radix2 (bias 4 + 1)) = true) by (rewrite X; exact (grid_small 4 _ _ fs4 UE T)).
    rewrite G, G2. f_equal. pose proof (pos_INR c). destruct (Req_dec (INR c) 0) as [E|E].
    - apply S3. rewrite E. lra.
    - apply S2. lra. }
  cbn [ieee_div] in Q. rewrite E64 in Q. rewrite Req_bool_false in Q by lra.
  rewrite (U (count hs) _ _ _ C eq_refl eq_refl Q) in R. unfold ieee_sub, one in R. cbn [negated ieee_add] in R.
  replace (1 - INR (count hs) / 64)%R with (1 + - (INR (count hs) / 64))%R by ring.
  apply (U (64 - count hs)%nat _ false) in R; [exact R|lia| |reflexivity].
  rewrite minus_INR by exact C. rewrite E64. field.
Qed.
