(** Ambient occlusion: bases in packets, the two scenes, debug builds. *)
From Coq Require Import ZArith List Bool Lia Reals Lra.
From Verif.Model Require Import Base FloatLane Llvm Tables MathTables Math Minimal MaskReduce Ops Cmp Float Reduce ExStencil ExRandom ExGeometry ExIntersect ExOcclusion.
From Verif.Spec Require Import Spec Floats MathSpec Examples Stencil Tausworthe Rays Occlusion.
From Verif.Proofs Require Import Lib ExRandomMainP ExPacketP ExIntersectP ExIntersectMainP ExIntersectTopP ExBasisP ExOcclusionP ExOcclusionPacketP ExSceneP.
Import ListNotations.
Open Scope Z_scope.
Local Notation pat := (pattern 4).
Local Notation dat := f32_datum.
Local Opaque fl_add fl_sub fl_mul fl_div fl_sqrt fl_lt fl_gt fl_ge fl_abs f32_neg.

(** *** Systems of coordinates *)
Lemma points_eq m : points m = points_of m. Proof. destruct m as [[a b] c]. reflexivity. Qed.
Lemma pat_m3_iff m : pat_m3 m <-> is_m3 m. Proof. destruct m as [[a b] c]. reflexivity. Qed.

Theorem basis_scalar n : is_v3 n -> basis_of left_to_right (point_of n) (points_of (ortho_basis n)) /\ is_m3 (ortho_basis n).
Proof.
  intros N. destruct (basis_ok left_to_right dot scale_v3 ldot_scalar scale_ok n N) as [A B]. rewrite ortho_basis_eq, <- points_eq, <- pat_m3_iff. auto.
Qed.
Theorem turn_scalar m v : is_m3 m -> is_v3 v -> turned left_to_right (points_of m) (point_of v) (point_of (m3_mul m v)) /\ is_v3 (m3_mul m v).
Proof.
  intros M V. apply pat_m3_iff in M. destruct (turn_ok left_to_right dot ldot_scalar m v M V) as [A B]. rewrite m3_mul_eq, <- points_eq. auto.
Qed.

Section Packets.
  Variables (wide : bool) (X : externals) (Sx : lane_functions) (tg : target) (junk : vec) (mad : mul_adder).
  Hypothesis HW : works_lanewise X Sx.
  Hypothesis HF : follows_llvm Sx.
  Hypothesis HS : ~ uses_sleef tg.
  Hypothesis HM : mul_adde_is tg Sx mad.
  Hypothesis HJ : is_vector (f32xN wide) junk.

  Theorem basis_packet n : is_v3s wide n -> exists m, ortho_bases wide X tg n = Ok m /\ is_m3s wide m /\
    forall k a, v3_lane n k a -> exists b, m3_lane m k b /\ basis_of (nested mad) (point_of a) (points_of b).
  Proof.
    intros N. destruct (find_lane_ops wide X Sx tg junk mad HW HF HS HM HJ) as (M & Q & HO).
    assert (DD := lane_dot wide X tg junk mad M Q HO).
    set (g := fun k => basis_at (ldot M) lscale (v3_at n k)).
    assert (G : forall k, In k (Ls wide) -> pat_m3 (g k) /\ basis_of (nested mad) (point_of (v3_at n k)) (points (g k))).
    { intros k K. apply (basis_ok (nested mad) (ldot M) lscale DD lane_scale). apply v3_at_pat with (wide := wide); [exact N|now apply Ls_In]. }
    exists (m3s_of (Ls wide) g). split; [|split].
    - rewrite (v3s_at wide n N) at 1. apply (o_basis wide X tg junk mad M Q HO (Ls wide) (Ls_len wide)). intros k K. apply v3_at_pat with (wide := wide); [exact N|now apply Ls_In].
    - unfold is_m3s, m3s_of. split; [|split]; apply of_v3s; intros k K; apply (G k K).
    - intros k a L. apply (v3_lane_eq wide n k a N) in L as [K ->]. exists (g k).
      assert (I : In k (Ls wide)) by (unfold Ls; apply in_seq; lia). split; [|rewrite <- points_eq; now apply G].
      unfold m3_lane, m3s_of. destruct (g k) as [[x y] z] eqn:E.
      replace x with (fst (fst (g k))) by now rewrite E. replace y with (snd (fst (g k))) by now rewrite E. replace z with (snd (g k)) by now rewrite E.
      split; [exact (of_v3_lane wide (fun k => fst (fst (g k))) k K)|]. split; [exact (of_v3_lane wide (fun k => snd (fst (g k))) k K)|].
      exact (of_v3_lane wide (fun k => snd (g k)) k K).
  Qed.
  Definition m3_at (m : m3s) (k : nat) : m3 := let '(a, b, c) := m in (v3_at a k, v3_at b k, v3_at c k).
  Theorem turn_packet m v : is_m3s wide m -> is_v3s wide v -> exists r, m3s_mul wide X tg m v = Ok r /\ is_v3s wide r /\
    forall k a b, m3_lane m k a -> v3_lane v k b -> exists c, v3_lane r k c /\ turned (nested mad) (points_of a) (point_of b) (point_of c).
  Proof.
    intros HMm HV. destruct (find_lane_ops wide X Sx tg junk mad HW HF HS HM HJ) as (M & Q & HO).
    assert (DD := lane_dot wide X tg junk mad M Q HO). destruct m as [[x y] z]. destruct HMm as (HX & HY & HZ).
    assert (PG : forall k, In k (Ls wide) -> pat_m3 (m3_at (x, y, z) k)).
    { intros k K. apply Ls_In in K. split; [|split]; now apply v3_at_pat with (wide := wide). }
    assert (PV : forall k, In k (Ls wide) -> pat3 (v3_at v k)) by (intros k K; apply v3_at_pat with (wide := wide); [exact HV|now apply Ls_In]).
    assert (EM : (x, y, z) = m3s_of (Ls wide) (m3_at (x, y, z))).
    { unfold m3s_of, m3_at. cbn [fst snd]. now rewrite <- !(v3s_at wide) by assumption. }
    eexists. split; [|split].
    - rewrite EM, (v3s_at wide v HV) at 1. apply (o_turn wide X tg junk mad M Q HO (Ls wide) (Ls_len wide)); assumption.
    - apply of_v3s. intros k K. apply (turn_ok (nested mad) (ldot M) DD); auto.
    - intros k [[a1 a2] a3] b (L1 & L2 & L3) L4. apply (v3_lane_eq wide) in L1 as [K ->]; [|exact HX]. apply (v3_lane_eq wide) in L2 as [_ ->]; [|exact HY].
      apply (v3_lane_eq wide) in L3 as [_ ->]; [|exact HZ]. apply (v3_lane_eq wide) in L4 as [_ ->]; [|exact HV].
      assert (I : In k (Ls wide)) by (unfold Ls; apply in_seq; lia).
      exists (turn (ldot M) (m3_at (x, y, z) k) (v3_at v k)). split; [apply (of_v3_lane wide (fun k => turn (ldot M) (m3_at (x, y, z) k) (v3_at v k))); exact K|].
      change (v3_at x k, v3_at y k, v3_at z k) with (m3_at (x, y, z) k). rewrite <- points_eq. apply (turn_ok (nested mad) (ldot M) DD); auto.
  Qed.
  Theorem turn_packet1 m v : is_m3 m -> is_v3s wide v -> exists r, m3_muls wide X tg m v = Ok r /\ is_v3s wide r /\
    forall k b, v3_lane v k b -> exists c, v3_lane r k c /\ turned (nested mad) (points_of m) (point_of b) (point_of c).
  Proof.
    intros HMm HV. destruct (find_lane_ops wide X Sx tg junk mad HW HF HS HM HJ) as (M & Q & HO).
    assert (DD := lane_dot wide X tg junk mad M Q HO). apply pat_m3_iff in HMm.
    assert (PV : forall k, In k (Ls wide) -> pat3 (v3_at v k)) by (intros k K; apply v3_at_pat with (wide := wide); [exact HV|now apply Ls_In]).
    eexists. split; [|split].
    - rewrite (v3s_at wide v HV) at 1. apply (o_turn1 wide X tg junk mad M Q HO (Ls wide) (Ls_len wide)); assumption.
    - apply of_v3s. intros k K. apply (turn_ok (nested mad) (ldot M) DD); auto.
    - intros k b L4. apply (v3_lane_eq wide) in L4 as [K ->]; [|exact HV].
      assert (I : In k (Ls wide)) by (unfold Ls; apply in_seq; lia).
      exists (turn (ldot M) m (v3_at v k)). split; [apply (of_v3_lane wide (fun k => turn (ldot M) m (v3_at v k))); exact K|].
      rewrite <- points_eq. apply (turn_ok (nested mad) (ldot M) DD); auto.
  Qed.
End Packets.

(** *** The value, in words *)
Lemma Forall2_length {A B} (R : A -> B -> Prop) l hs : Forall2 R l hs -> length l = length hs.
Proof. induction 1; cbn [length]; congruence. Qed.
Lemma count_length hs : (count hs <= length hs)%nat.
Proof. unfold count. induction hs as [|[] hs IH]; cbn [filter length]; lia. Qed.
Lemma share_samples {A} (R : A -> bool -> Prop) l hs n r : Forall2 R l hs -> length l = n -> (0 < n)%nat -> free_share n hs r ->
  exists x, r = Fin false x /\ (0 <= x <= 1)%R.
Proof.
  intros F L N0. apply Forall2_length in F. apply share_range; [exact N0|]. pose proof (count_length hs). lia.
Qed.

(** *** The test scene *)
Definition test_numbers (rands : list Z) (step n : nat) : list Z := map (fun j => nth ((step + j) mod 128)%nat rands 0) (seq 0 n).
Lemma test_numbers_f32 rands step n : length rands = 128%nat -> Forall is_f32 rands -> Forall is_f32 (test_numbers rands step n).
Proof.
  intros L F. apply Forall_forall. intros p I. apply in_map_iff in I as (j & <- & _). rewrite Forall_forall in F. apply F, nth_In.
  rewrite L. apply Nat.mod_upper_bound. discriminate.
Qed.
Lemma scene_test wide rands : is_scene (test_scene wide rands).
Proof. exact default_ok. Qed.
Lemma scene_random wide : is_scene (random_scene wide).
Proof. exact default_ok. Qed.
Lemma pairs_length {A} n (l : list A) : length l = (2 * n)%nat -> length (pairs l) = n.
Proof.
  revert l. induction n as [|n IH]; intros l H; [destruct l; [reflexivity|discriminate]|].
  destruct l as [|a [|b l]]; try (cbn [length] in H; lia). cbn [pairs length]. f_equal. apply IH. cbn [length] in H. lia.
Qed.
Lemma share_exact {A} (R : A -> bool -> Prop) l hs r : Forall2 R l hs -> length l = 64%nat -> free_share 64 hs r ->
  r = Fin false (1 - INR (count hs) / 64).
Proof. intros F L. apply share_64. apply Forall2_length in F. pose proof (count_length hs). lia. Qed.

(** *** Lanes of what is drawn *)
Lemma concat_lanes (d : Z * Z) N k : (k < N)%nat -> forall ls : list (list (Z * Z)), Forall (fun l => length l = N) ls ->
  map (fun l => nth k l d) ls = map (fun j => nth (N * j + k)%nat (concat ls) d) (seq 0 (length ls)).
Proof.
  intros K. induction ls as [|l ls IH]; intros F; [reflexivity|]. inversion F as [|? ? L F1]; subst. cbn [map length seq concat]. f_equal.
  - rewrite Nat.mul_0_r. cbn [Nat.add]. now rewrite app_nth1.
  - rewrite IH by exact F1. rewrite <- seq_shift, map_map. apply map_ext. intros j. rewrite app_nth2 by lia. f_equal. lia.
Qed.
Lemma pairs_nth : forall n (l : list Z) i, length l = (2 * n)%nat -> nth i (pairs l) (0, 0) = (nth (2 * i) l 0, nth (2 * i + 1) l 0).
Proof.
  induction n as [|n IH]; intros l i H.
  - destruct l; [|discriminate]. cbn [pairs]. destruct i; cbn [nth]; [reflexivity|]. now destruct (2 * S i)%nat, (2 * S i + 1)%nat.
  - destruct l as [|a [|b l]]; try (cbn [length] in H; lia). cbn [pairs]. destruct i as [|i]; [reflexivity|].
    replace (2 * S i)%nat with (S (S (2 * i))) by lia. replace (S (S (2 * i)) + 1)%nat with (S (S (2 * i + 1))) by lia. cbn [nth]. apply IH.
    cbn [length] in H. lia.
Qed.

Lemma wrap_128 step : (step < 128)%nat -> ((step + 128) mod 128)%nat = step.
Proof. intros H. symmetry. apply (Nat.mod_unique _ _ 1%nat); lia. Qed.

(** *** One point at a time *)
Section Scalar.
  Variables (cosf sinf : Z -> Z) (cosine sine : datum -> datum -> Prop).
  Hypothesis HC : computes cosf cosine.
  Hypothesis HS : computes sinf sine.

  Theorem test_scalar wide rands step i : length rands = 128%nat -> Forall is_f32 rands -> (step < 128)%nat -> is_isect i ->
    exists r hs, ao_scalar cosf sinf (test_scene wide rands) i step = Ok (r, step) /\ is_f32 r /\
      Forall2 (fun p h => sampled left_to_right left_to_right rounded_twice cosine sine (objects (test_scene wide rands)) i (fst p) (snd p) h)
        (pairs (test_numbers rands step 128)) hs /\
      f32_datum r = Fin false (1 - INR (count hs) / 64).
  Proof.
    intros L F ST HI.
    pose proof (test_draws wide rands step 128 L ST) as D. fold (test_numbers rands step 128) in D.
    rewrite (wrap_128 step ST) in D.
    assert (LN : length (test_numbers rands step 128) = 128%nat) by (unfold test_numbers; now rewrite map_length, seq_length).
    destruct (ao_scalar_ok cosf sinf cosine sine HC HS (test_scene wide rands) i step _ step (scene_test wide rands) HI D) as (r & hs & E & P & S & V).
    - now apply test_numbers_f32.
    - exact LN.
    - vm_compute. discriminate.
    - exists r, hs. split; [exact E|]. split; [exact P|]. split; [exact S|]. eapply share_exact; [exact S| |exact V]. apply pairs_length. exact LN.
  Qed.

  Theorem random_scalar_ok wide g vg i : is_state g -> is_isect i ->
    exists r l hs g', ao_scalar cosf sinf (random_scene wide) i (g, vg) = Ok (r, (g', vg)) /\ is_f32 r /\ is_state g' /\
      draws (sc_rand (random_scene wide)) (g, vg) l (g', vg) /\ length l = 128%nat /\ Forall below_one l /\
      Forall2 (fun p h => sampled left_to_right left_to_right rounded_twice cosine sine (objects (random_scene wide)) i (fst p) (snd p) h) (pairs l) hs /\
      f32_datum r = Fin false (1 - INR (count hs) / 64).
  Proof.
    intros HG HI. destruct (random_draws wide g vg 128 HG) as (l & g' & D & L & B & G').
    destruct (ao_scalar_ok cosf sinf cosine sine HC HS (random_scene wide) i (g, vg) l (g', vg) (scene_random wide) HI D) as (r & hs & E & P & S & V).
    - eapply Forall_impl; [|exact B]. intros p [H _]. exact H.
    - exact L.
    - vm_compute. discriminate.
    - exists r, l, hs, g'. split; [exact E|]. split; [exact P|]. split; [exact G'|]. split; [exact D|]. split; [exact L|]. split; [exact B|].
      split; [exact S|]. eapply share_exact; [exact S| |exact V]. apply pairs_length. exact L.
  Qed.
End Scalar.

Section Vector.
  Variables (wide : bool) (X : externals) (Sx : lane_functions) (tg : target) (junk : vec) (mad : mul_adder).
  Variables (cosine sine : datum -> datum -> Prop).
  Hypothesis HW : works_lanewise X Sx.
  Hypothesis HF : follows_llvm Sx.
  Hypothesis HS : ~ uses_sleef tg.
  Hypothesis HM : mul_adde_is tg Sx mad.
  Hypothesis HJ : is_vector (f32xN wide) junk.
  Hypothesis HT : trig_is Sx cosine sine.
  Local Notation N := (vn (f32xN wide)).

  Lemma lane_pairs_length (ps : list (vec * vec)) : are_packets wide ps -> length (concat (map lane_pairs ps)) = (length ps * N)%nat.
  Proof.
    induction 1 as [|p ps [[A _] [B _]] _ IH]; [reflexivity|]. cbn [map concat length]. rewrite app_length, IH. unfold lane_pairs.
    rewrite combine_length, A, B. lia.
  Qed.
  Theorem vector_same {St} (sc : scene St) i st l st' : is_scene sc -> sc_rands sc = default_rands wide (sc_rand sc) -> is_isect i ->
    draws (sc_rand sc) st l st' -> Forall is_f32 l -> length l = (2 * (nao sc * nao sc))%nat -> (nao sc mod N = 0)%nat -> Z.of_nat (nao sc * nao sc) <= 2 ^ 24 ->
    exists r hs, ao_vector wide false X tg junk sc i st = Ok (r, st') /\ is_f32 r /\
      Forall2 (fun p h => sampled left_to_right (nested mad) mad cosine sine (objects sc) i (fst p) (snd p) h) (pairs l) hs /\
      free_share (nao sc * nao sc) hs (dat r).
  Proof.
    intros HSc ER HI D F L Hn Hb.
    assert (N0 : N <> 0%nat) by (destruct wide; discriminate).
    apply Nat.mod_divides in Hn as [q Eq]; [|exact N0].
    assert (ES : steps (nao sc) N = q).
    { unfold steps. rewrite Eq. replace (N * q + N - 1)%nat with (q * N + (N - 1))%nat by lia. rewrite Nat.div_add_l by exact N0. rewrite Nat.div_small by lia. lia. }
    assert (EN : (nao sc * q * N = nao sc * nao sc)%nat) by (rewrite <- Nat.mul_assoc; f_equal; rewrite Nat.mul_comm; now symmetry).
    destruct (default_draws wide (sc_rand sc) (nao sc * q) l st st' D) as (ps & D1 & L1 & P1 & C1).
    - rewrite L, <- EN. lia.
    - exact F.
    - rewrite <- ER in D1. destruct (ao_vector_ok wide X Sx tg junk mad cosine sine HW HF HS HM HJ HT sc i st ps st' HSc HI D1 P1) as (r & hs & E & P & S & V).
      + rewrite ES. exact L1.
      + rewrite L1, EN. exact Hb.
      + exists r, hs. rewrite C1 in S. auto.
  Qed.

  Theorem test_vector rands step i : length rands = 128%nat -> Forall is_f32 rands -> (step < 128)%nat -> is_isect i ->
    exists r hs, ao_vector wide false X tg junk (test_scene wide rands) i step = Ok (r, step) /\ is_f32 r /\
      Forall2 (fun p h => sampled left_to_right (nested mad) mad cosine sine (objects (test_scene wide rands)) i (fst p) (snd p) h)
        (pairs (test_numbers rands step 128)) hs /\
      f32_datum r = Fin false (1 - INR (count hs) / 64).
  Proof.
    intros L F ST HI.
    pose proof (test_draws wide rands step 128 L ST) as D. fold (test_numbers rands step 128) in D.
    rewrite (wrap_128 step ST) in D.
    assert (LN : length (test_numbers rands step 128) = 128%nat) by (unfold test_numbers; now rewrite map_length, seq_length).
    destruct (vector_same (test_scene wide rands) i step _ step (scene_test wide rands) eq_refl HI D) as (r & hs & E & P & S & V).
    - now apply test_numbers_f32.
    - exact LN.
    - destruct wide; reflexivity.
    - vm_compute. discriminate.
    - exists r, hs. split; [exact E|]. split; [exact P|]. split; [exact S|]. eapply share_exact; [exact S| |exact V]. apply pairs_length. exact LN.
  Qed.
  Theorem random_vector_ok g vg i : is_vstate wide vg -> is_isect i ->
    exists r ps hs vg', ao_vector wide false X tg junk (random_scene wide) i (g, vg) = Ok (r, (g, vg')) /\ is_f32 r /\ is_vstate wide vg' /\
      draws (sc_rands (random_scene wide)) (g, vg) ps (g, vg') /\ (length ps * N = 64)%nat /\
      Forall (fun p => Forall below_one (fst p) /\ Forall below_one (snd p)) ps /\
      Forall2 (fun p h => sampled left_to_right (nested mad) mad cosine sine (objects (random_scene wide)) i (fst p) (snd p) h) (concat (map lane_pairs ps)) hs /\
      f32_datum r = Fin false (1 - INR (count hs) / 64).
  Proof.
    intros HG HI. destruct (random_packets wide g vg (8 * steps 8 N) HG) as (ps & vg' & D & L & P & B & G').
    assert (LN : (length ps * N = 64)%nat) by (rewrite L; destruct wide; reflexivity).
    destruct (ao_vector_ok wide X Sx tg junk mad cosine sine HW HF HS HM HJ HT (random_scene wide) i (g, vg) ps (g, vg') (scene_random wide) HI D P) as (r & hs & E & Q & S & V).
    - exact L.
    - rewrite LN. vm_compute. discriminate.
    - exists r, ps, hs, vg'. split; [exact E|]. split; [exact Q|]. split; [exact G'|]. split; [exact D|]. split; [exact LN|]. split; [exact B|]. split; [exact S|].
      eapply share_exact; [exact S| |exact V]. rewrite lane_pairs_length by exact P. exact LN.
  Qed.

  (** Lane k of the packets. *)
  Definition lane_of (k : nat) (p : vec * vec) : Z * Z := (nth k (fst p) 0, nth k (snd p) 0).
  Lemma lane_of_pairs ps k : are_packets wide ps -> (k < N)%nat ->
    map (lane_of k) ps = map (fun j => nth (N * j + k)%nat (concat (map lane_pairs ps)) (0, 0)) (seq 0 (length ps)).
  Proof.
    intros P K. rewrite <- (map_length lane_pairs ps). rewrite <- (concat_lanes (0, 0) N k K).
    - rewrite map_map. apply map_ext_in. intros p I. unfold are_packets in P. rewrite Forall_forall in P. destruct (P p I) as [[A _] [B _]].
      unfold lane_of, lane_pairs. rewrite combine_nth by congruence. reflexivity.
    - apply Forall_forall. intros l I. apply in_map_iff in I as (p & <- & I). unfold are_packets in P. rewrite Forall_forall in P. destruct (P p I) as [[A _] [B _]].
      unfold lane_pairs. rewrite combine_length, A, B. lia.
  Qed.
  Lemma Forall2_map {A B C} (R : B -> C -> Prop) (g : A -> B) l hs : Forall2 (fun a h => R (g a) h) l hs -> Forall2 R (map g l) hs.
  Proof. induction 1; cbn [map]; constructor; auto. Qed.

  Theorem test_tiled rands i : length rands = 128%nat -> Forall is_f32 rands -> is_isects wide i ->
    exists v, ao_tiled wide false X tg junk (test_scene wide rands) i 0%nat = Ok (v, 0%nat) /\ is_vector (f32xN wide) v /\
      forall k b, isect_lane i k b -> exists r hs, lane v k r /\
        Forall2 (fun p h => sampled (nested mad) (nested mad) mad cosine sine (objects (test_scene wide rands)) b (fst p) (snd p) h)
          (concat (repeat (map (fun j => (nth (2 * (N * j + k)) rands 0, nth (2 * (N * j + k) + 1) rands 0)) (seq 0 (64 / N))) N)) hs /\
        f32_datum r = Fin false (1 - INR (count hs) / 64).
  Proof.
    intros L F HI. set (n := (64 * (2 * N))%nat).
    pose proof (test_draws wide rands 0 n L ltac:(lia)) as D.
    replace ((0 + n) mod 128)%nat with 0%nat in D by (unfold n; destruct wide; reflexivity).
    set (l := map (fun j => nth ((0 + j) mod 128)%nat rands 0) (seq 0 n)) in *.
    assert (LL : length l = n) by (unfold l; now rewrite map_length, seq_length).
    destruct (default_draws wide (test_rand rands) 64 l 0%nat 0%nat D LL (test_numbers_f32 rands 0 n L F)) as (ps & D1 & L1 & P1 & C1).
    destruct (ao_tiled_ok wide X Sx tg junk mad cosine sine HW HF HS HM HJ HT (test_scene wide rands) i 0%nat ps 0%nat (scene_test wide rands) HI D1 P1) as (v & E & V & H).
    - exact L1.
    - vm_compute. discriminate.
    - exists v. split; [exact E|]. split; [exact V|]. intros k b LB. destruct (H k b LB) as (r & hs & LR & S & FS).
      exists r, hs. split; [exact LR|].
      assert (K : (k < N)%nat) by (apply (isect_lane_eq wide) in LB as [K _]; [exact K|exact HI]).
      apply (Forall2_map (fun p h => sampled (nested mad) (nested mad) mad cosine sine (objects (test_scene wide rands)) b (fst p) (snd p) h) (lane_of k)) in S.
      rewrite (lane_of_pairs ps k P1 K), L1, C1 in S.
      match type of S with Forall2 _ ?a _ => assert (EA : a = concat (repeat (map (fun j => (nth (2 * (N * j + k)) rands 0, nth (2 * (N * j + k) + 1) rands 0)) (seq 0 (64 / N))) N)) end.
      { transitivity (map (fun j => (nth ((2 * (N * j + k)) mod 128)%nat rands 0, nth ((2 * (N * j + k) + 1) mod 128)%nat rands 0)) (seq 0 64)).
        - apply map_ext_in. intros j J. apply in_seq in J.
          assert (J2 : (N * j + k < 64 * N)%nat) by nia.
          rewrite (pairs_nth (64 * N)) by (rewrite LL; unfold n; lia). unfold l.
          assert (G : forall a, (a < n)%nat -> nth a (map (fun j => nth ((0 + j) mod 128)%nat rands 0) (seq 0 n)) 0 = nth (a mod 128)%nat rands 0).
          { intros a A. rewrite (nth_indep _ 0 (nth ((0 + 0) mod 128)%nat rands 0)) by (rewrite map_length, seq_length; exact A).
            rewrite (map_nth (fun j => nth ((0 + j) mod 128)%nat rands 0)). rewrite seq_nth by exact A. reflexivity. }
          rewrite !G by (unfold n; lia). reflexivity.
        - clear - K. destruct wide; [change (vn (f32xN true)) with 8%nat in *|change (vn (f32xN false)) with 4%nat in *].
          + do 8 (destruct k as [|k]; [reflexivity|]). lia.
          + do 4 (destruct k as [|k]; [reflexivity|]). lia. }
      rewrite EA in S. split; [exact S|]. eapply share_exact; [exact S| |exact FS].
      rewrite <- EA, map_length, seq_length. reflexivity.
  Qed.
  Theorem random_tiled_ok g vg i : is_vstate wide vg -> is_isects wide i ->
    exists v ps vg', ao_tiled wide false X tg junk (random_scene wide) i (g, vg) = Ok (v, (g, vg')) /\ is_vector (f32xN wide) v /\ is_vstate wide vg' /\
      draws (sc_rands (random_scene wide)) (g, vg) ps (g, vg') /\ length ps = 64%nat /\
      Forall (fun p => Forall below_one (fst p) /\ Forall below_one (snd p)) ps /\
      forall k b, isect_lane i k b -> exists r hs, lane v k r /\
        Forall2 (fun p h => sampled (nested mad) (nested mad) mad cosine sine (objects (random_scene wide)) b (nth k (fst p) 0) (nth k (snd p) 0) h) ps hs /\
        f32_datum r = Fin false (1 - INR (count hs) / 64).
  Proof.
    intros HG HI. destruct (random_packets wide g vg 64 HG) as (ps & vg' & D & L & P & B & G').
    destruct (ao_tiled_ok wide X Sx tg junk mad cosine sine HW HF HS HM HJ HT (random_scene wide) i (g, vg) ps (g, vg') (scene_random wide) HI D P) as (v & E & V & H).
    - exact L.
    - vm_compute. discriminate.
    - exists v, ps, vg'. split; [exact E|]. split; [exact V|]. split; [exact G'|]. split; [exact D|]. split; [exact L|]. split; [exact B|].
      intros k b LB. destruct (H k b LB) as (r & hs & LR & S & FS). exists r, hs. split; [exact LR|]. split; [exact S|].
      eapply share_exact; [exact S|exact L|exact FS].
  Qed.
End Vector.

(** *** Debug builds *)
Section Debug.
  Variables (wide : bool) (X : externals) (tg : target) (junk : vec).
  Lemma checked_debug one r old new x : checked wide true one r old new = Ok x -> checked wide false one r old new = Ok x.
  Proof. unfold checked. destruct (check wide one r old new _) as [[]| |]; cbn [bind]; congruence. Qed.
  Lemma bind_debug {A B} (e : outcome A) (k k' : A -> outcome B) x : (forall a, k a = Ok x -> k' a = Ok x) -> bind e k = Ok x -> bind e k' = Ok x.
  Proof. intros H. destruct e; cbn [bind]; auto; discriminate. Qed.
  Lemma plane_release r pl i x : intersects_plane wide true X tg junk r pl i = Ok x -> intersects_plane wide false X tg junk r pl i = Ok x.
  Proof. unfold intersects_plane. do 4 (apply bind_debug; intros ?). apply checked_debug. Qed.
  Lemma sphere_release r s i x : intersects_sphere wide true X tg junk r s i = Ok x -> intersects_sphere wide false X tg junk r s i = Ok x.
  Proof. unfold intersects_sphere. do 6 (apply bind_debug; intros ?). apply checked_debug. Qed.
  Lemma scene_release spheres pl r i x : intersects_scene wide true X tg junk spheres pl r i = Ok x -> intersects_scene wide false X tg junk spheres pl r i = Ok x.
  Proof.
    unfold intersects_scene. revert i. induction spheres as [|s l IH]; intros i; cbn [intersects_spheres].
    - cbn [bind]. apply plane_release.
    - destruct (intersects_sphere wide true X tg junk r s i) as [j| |] eqn:E; cbn [bind]; try discriminate.
      rewrite (sphere_release _ _ _ _ E). cbn [bind]. apply IH.
  Qed.
  Lemma iterate_release {A} n (b b' : A -> outcome A) : (forall a x, b a = Ok x -> b' a = Ok x) -> forall a x, iterate n b a = Ok x -> iterate n b' a = Ok x.
  Proof.
    intros H. induction n as [|n IH]; intros a x; cbn [iterate]; [auto|]. destruct (b a) as [y| |] eqn:E; cbn [bind]; try discriminate.
    rewrite (H _ _ E). cbn [bind]. apply IH.
  Qed.
  Lemma bind_release {A B} (e e' : outcome A) (k : A -> outcome B) x : (forall a, e = Ok a -> e' = Ok a) -> bind e k = Ok x -> bind e' k = Ok x.
  Proof. intros H. destruct e as [a| |]; cbn [bind]; try discriminate. rewrite (H a eq_refl). auto. Qed.
  Context {St : Type}.
  Variable sc : scene St.
  Lemma sample_vector_release basis o st x : sample_vector wide true X tg junk sc basis o st = Ok x -> sample_vector wide false X tg junk sc basis o st = Ok x.
  Proof.
    unfold sample_vector. apply bind_debug. intros [[r1 r2] s]. apply bind_debug. intros n. apply bind_debug. intros d. apply bind_release. intros a. apply scene_release.
  Qed.
  Lemma sample_tiled_release basis o st x : sample_tiled wide true X tg junk sc basis o st = Ok x -> sample_tiled wide false X tg junk sc basis o st = Ok x.
  Proof.
    unfold sample_tiled. apply bind_debug. intros [[r1 r2] s]. apply bind_debug. intros n. apply bind_debug. intros d. apply bind_release. intros a. apply scene_release.
  Qed.
  Theorem ao_vector_release i st x : ao_vector wide true X tg junk sc i st = Ok x -> ao_vector wide false X tg junk sc i st = Ok x.
  Proof.
    unfold ao_vector. apply bind_release. intros a. apply iterate_release. intros b y. apply iterate_release. intros c z. apply bind_release. intros d. apply sample_vector_release.
  Qed.
  Theorem ao_tiled_release i st x : ao_tiled wide true X tg junk sc i st = Ok x -> ao_tiled wide false X tg junk sc i st = Ok x.
  Proof.
    unfold ao_tiled. apply bind_debug. intros m. apply bind_release. intros a. apply iterate_release. intros b y. apply iterate_release. intros c z. apply bind_release. intros d. apply sample_tiled_release.
  Qed.
End Debug.
