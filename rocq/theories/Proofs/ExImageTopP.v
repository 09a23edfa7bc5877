(** The images of the ambient occlusion example: the main theorems about [scalar] and [vector], and the bytes. *)
From Coq Require Import ZArith List Bool Lia Reals Lra.
From Flocq Require Import Core.
From Verif.Model Require Import Base FloatLane Llvm Tables MathTables Math Minimal MaskReduce Ops Cmp Float Reduce ExStencil ExRandom ExGeometry ExIntersect ExOcclusion ExImage.
From Verif.Spec Require Import Spec Floats MathSpec Examples Stencil Rays Occlusion Picture.
From Verif.Proofs Require Import Lib FloatP FloatVecP FloatConstsP ExactP ExPacketP ExIntersectP ExIntersectMainP ExIntersectTopP ExOcclusionP ExOcclusionPacketP ExSceneP ExSceneTopP ExImageP.
Import ListNotations.
Open Scope Z_scope.
Local Notation pat := (pattern 4).
Local Notation dat := f32_datum.
Local Opaque fl_add fl_sub fl_mul fl_div fl_sqrt fl_lt fl_gt fl_ge fl_abs f32_neg.

(** *** Random numbers *)
Lemma endless_draws {St} (sc : scene St) ok : endless sc ok -> forall n st, ok st ->
  exists l st', draws (sc_rand sc) st l st' /\ length l = n /\ Forall is_f32 l /\ ok st'.
Proof.
  intros H. induction n as [|n IH]; intros st O.
  - exists [], st. split; [constructor|]. split; [reflexivity|]. split; [constructor|exact O].
  - destruct (H st O) as (v & st1 & E & P & O1). destruct (IH st1 O1) as (l & st' & D & L & F & O').
    exists (v :: l), st'. split; [econstructor; eassumption|]. split; [cbn [length]; now rewrite L|]. split; [now constructor|exact O'].
Qed.
Lemma endless_packet_draws {St} wide (sc : scene St) ok : endless_packets wide sc ok -> forall n st, ok st ->
  exists ps st', draws (sc_rands sc) st ps st' /\ length ps = n /\ are_packets wide ps /\ ok st'.
Proof.
  intros H. induction n as [|n IH]; intros st O.
  - exists [], st. split; [constructor|]. split; [reflexivity|]. split; [constructor|exact O].
  - destruct (H st O) as (a & b & st1 & E & PA & PB & O1). destruct (IH st1 O1) as (l & st' & D & L & F & O').
    exists ((a, b) :: l), st'. split; [econstructor; eassumption|]. split; [cbn [length]; now rewrite L|]. split; [constructor; [now split|exact F]|exact O'].
Qed.
Lemma draws_one {A St} (rand : St -> outcome (A * St)) st l st' : draws rand st l st' -> length l = 1%nat -> exists v, rand st = Ok (v, st') /\ l = [v].
Proof. intros D L. inversion D as [|? v st1 l' ? E D']; subst; [discriminate L|]. destruct l'; [|discriminate L]. inversion D'; subst. now exists v. Qed.
Lemma endless_random wide : endless (random_scene wide) (fun st => is_state (fst st)).
Proof.
  intros [g vg] G. cbn [fst] in G. destruct (random_draws wide g vg 1 G) as (l & g' & D & L & F & G').
  destruct (draws_one _ _ _ _ D L) as (v & E & ->). exists v, (g', vg). split; [exact E|]. split; [|exact G']. inversion F as [|? ? [P _] _]. exact P.
Qed.
Lemma endless_random_packets wide : endless_packets wide (random_scene wide) (fun st => is_vstate wide (snd st)).
Proof.
  intros [g vg] G. cbn [snd] in G. destruct (random_packets wide g vg 1 G) as (ps & vg' & D & L & P & _ & G').
  destruct (draws_one _ _ _ _ D L) as ([a b] & E & ->). exists a, b, (g, vg'). split; [exact E|].
  inversion P as [|? ? [P1 P2] _]. split; [exact P1|]. split; [exact P2|exact G'].
Qed.
Lemma endless_test wide rands : length rands = 128%nat -> Forall is_f32 rands -> endless (test_scene wide rands) (fun st => (st < 128)%nat).
Proof.
  intros L F st O. pose proof (test_draws wide rands st 1 L O) as D.
  destruct (draws_one _ _ _ _ D eq_refl) as (v & E & EV). exists v, ((st + 1) mod 128)%nat. split; [exact E|].
  cbn [seq map] in EV. assert (V : v = nth ((st + 0) mod 128)%nat rands 0) by congruence. rewrite V. clear EV V E D.
  split; [|apply Nat.mod_upper_bound; lia]. rewrite Forall_forall in F. apply F, nth_In. rewrite L. apply Nat.mod_upper_bound. lia.
Qed.
Lemma endless_test_packets wide rands : length rands = 128%nat -> Forall is_f32 rands -> endless_packets wide (test_scene wide rands) (fun st => (st < 128)%nat).
Proof.
  intros L F st O. set (n := (2 * vn (f32xN wide))%nat). pose proof (test_draws wide rands st n L O) as D.
  destruct (default_draws wide (sc_rand (test_scene wide rands)) 1 _ _ _ D) as (ps & DP & LP & PP & _).
  - rewrite map_length, seq_length. unfold n. lia.
  - apply Forall_forall. intros z I. apply in_map_iff in I. destruct I as (j & <- & _). rewrite Forall_forall in F. apply F, nth_In. rewrite L. apply Nat.mod_upper_bound. lia.
  - destruct (draws_one _ _ _ _ DP LP) as ([a b] & E & ->). exists a, b, ((st + n) mod 128)%nat. split; [exact E|].
    inversion PP as [|? ? [P1 P2] _]. split; [exact P1|]. split; [exact P2|]. apply Nat.mod_upper_bound. lia.
Qed.

Section Scalar.
  Variables (cosf sinf : Z -> Z) (cosine sine : datum -> datum -> Prop).
  Hypothesis HC : computes cosf cosine.
  Hypothesis HS : computes sinf sine.
  Context {St : Type}.
  Variables (sc : scene St) (ok : St -> Prop) (ns : nat) (img : image).
  Local Notation w := (img_w img).
  Local Notation h := (img_h img).
  Hypothesis HSC : is_scene sc.
  Hypothesis HE : endless sc ok.
  Hypothesis Hnao : Z.of_nat (nao sc * nao sc) <= 2 ^ 24.
  Hypothesis Hw : Z.of_nat w <= 2 ^ 24.
  Hypothesis Hh : Z.of_nat h <= 2 ^ 24.
  Hypothesis Hn : Z.of_nat (ns * ns) <= 2 ^ 24.
  Hypothesis HL : length (fdata img) = (3 * (h * w))%nat.
  Hypothesis HF : Forall is_f32 (fdata img).

  Lemma ns_small : Z.of_nat ns <= 2 ^ 24.
  Proof. clear - Hn. destruct ns as [|n]; [lia|]. assert (S n <= S n * S n)%nat by (cbn [Nat.mul]; lia). lia. Qed.
  Lemma occlusion_scalar_ok i st : is_isect i -> ok st ->
    exists r st', ao_scalar cosf sinf sc i st = Ok (r, st') /\ is_f32 r /\ occlusion_scalar cosine sine sc i st (dat r) st' /\ ok st'.
  Proof.
    intros I O. destruct (endless_draws sc ok HE (2 * (nao sc * nao sc)) st O) as (l & st' & D & L & F & O').
    destruct (ao_scalar_ok cosf sinf cosine sine HC HS sc i st l st' HSC I D F L Hnao) as (r & hs & E & P & S1 & V).
    exists r, st'. split; [exact E|]. split; [exact P|]. split; [|exact O']. exists l, hs. repeat (split; [assumption|]); assumption.
  Qed.
  Theorem scalar_ao_ok st : ok st ->
    exists css new st', scalar_ao sc ns img cosf sinf st = Ok (new, st') /\
      in_turn (pixel_seen (occlusion_scalar cosine sine sc) (view part_of w h ns) (objects sc) ns) (grid h w) st css st' /\
      painted (divided ns) (fdata img) css new /\ ok st'.
  Proof.
    apply (all_pixels_ok sc ns w h _ _ _ _ ok occlusion_scalar_ok (scalar_dir_ok w h ns Hw Hh ns_small) (divided ns)).
    - apply scalar_pixel_fine; [exact HSC|exact occlusion_scalar_ok|apply scalar_dir_ok; [exact Hw|exact Hh|exact ns_small]|exact Hn].
    - exact HL.
    - exact HF.
  Qed.
  Theorem scalar_par_ao_ok start : (forall y, ok (start y)) -> (0 < w)%nat ->
    exists csss new, scalar_par_ao sc ns img cosf sinf start = Ok new /\ length csss = h /\ painted (divided ns) (fdata img) (concat csss) new /\
      forall y css, nth_error csss y = Some css -> exists st',
        in_turn (pixel_seen (occlusion_scalar cosine sine sc) (view part_of w h ns) (objects sc) ns) (map (pair y) (seq 0 w)) (start y) css st'.
  Proof.
    intros OS W. apply (par_ok sc ns w h _ _ _ _ ok occlusion_scalar_ok (scalar_dir_ok w h ns Hw Hh ns_small) (divided ns)); [|exact OS|exact W|exact HL|exact HF].
    apply scalar_pixel_fine; [exact HSC|exact occlusion_scalar_ok|apply scalar_dir_ok; [exact Hw|exact Hh|exact ns_small]|exact Hn].
  Qed.
End Scalar.

Section Vector.
  Variables (wide : bool) (X : externals) (Sx : lane_functions) (tg : target) (junk : vec) (mad : mul_adder) (cosine sine : datum -> datum -> Prop).
  Hypothesis HW : works_lanewise X Sx.
  Hypothesis HFL : follows_llvm Sx.
  Hypothesis HSL : ~ uses_sleef tg.
  Hypothesis HM : mul_adde_is tg Sx mad.
  Hypothesis HJ : is_vector (f32xN wide) junk.
  Hypothesis HT : trig_is Sx cosine sine.
  Context {St : Type}.
  Variables (sc : scene St) (ok : St -> Prop) (ns : nat) (img : image).
  Local Notation w := (img_w img).
  Local Notation h := (img_h img).
  Local Notation N := (vn (f32xN wide)).
  Hypothesis HSC : is_scene sc.
  Hypothesis HE : endless_packets wide sc ok.
  Hypothesis Hnao : Z.of_nat (nao sc * ((nao sc + N - 1) / N) * N) <= 2 ^ 24.
  Hypothesis Hw : Z.of_nat w <= 2 ^ 24.
  Hypothesis Hh : Z.of_nat h <= 2 ^ 24.
  Hypothesis Hn : Z.of_nat ns <= 2 ^ 24.
  Hypothesis HL : length (fdata img) = (3 * (h * w))%nat.
  Hypothesis HF : Forall is_f32 (fdata img).

  Lemma occlusion_vector_ok i st : is_isect i -> ok st ->
    exists r st', ao_vector wide false X tg junk sc i st = Ok (r, st') /\ is_f32 r /\ occlusion_vector wide mad cosine sine sc i st (dat r) st' /\ ok st'.
  Proof.
    intros I O. destruct (endless_packet_draws wide sc ok HE (nao sc * steps (nao sc) N) st O) as (l & st' & D & L & F & O').
    destruct (ao_vector_ok wide X Sx tg junk mad cosine sine HW HFL HSL HM HJ HT sc i st l st' HSC I D F L) as (r & hs & E & P & S1 & V).
    { rewrite L. exact Hnao. }
    exists r, st'. split; [exact E|]. split; [exact P|]. split; [|exact O']. exists l, hs. repeat (split; [assumption|]); assumption.
  Qed.
  Theorem vector_ao_ok st : ok st ->
    exists css new st', vector_ao sc ns img wide false X tg junk st = Ok (new, st') /\
      in_turn (pixel_seen (occlusion_vector wide mad cosine sine sc) (view times_part w h ns) (objects sc) ns) (grid h w) st css st' /\
      painted (scaled ns) (fdata img) css new /\ ok st'.
  Proof.
    apply (all_pixels_ok sc ns w h _ _ _ _ ok occlusion_vector_ok (vector_dir_ok w h ns Hw Hh Hn) (scaled ns)).
    - apply vector_pixel_fine; [exact HSC|exact occlusion_vector_ok|apply vector_dir_ok; [exact Hw|exact Hh|exact Hn]|exact Hn].
    - exact HL.
    - exact HF.
  Qed.
  Theorem vector_par_ao_ok start : (forall y, ok (start y)) -> (0 < w)%nat ->
    exists csss new, vector_par_ao sc ns img wide false X tg junk start = Ok new /\ length csss = h /\ painted (scaled ns) (fdata img) (concat csss) new /\
      forall y css, nth_error csss y = Some css -> exists st',
        in_turn (pixel_seen (occlusion_vector wide mad cosine sine sc) (view times_part w h ns) (objects sc) ns) (map (pair y) (seq 0 w)) (start y) css st'.
  Proof.
    intros OS W. apply (par_ok sc ns w h _ _ _ _ ok occlusion_vector_ok (vector_par_dir_ok w h ns Hw Hh Hn) (scaled ns)); [|exact OS|exact W|exact HL|exact HF].
    apply vector_pixel_fine; [exact HSC|exact occlusion_vector_ok|apply vector_par_dir_ok; [exact Hw|exact Hh|exact Hn]|exact Hn].
  Qed.
End Vector.

(** *** Exact means *)
Definition in_256 (m : nat) : datum := Fin false (INR m / 256).
Lemma INR_IZR n z : Z.of_nat n = z -> INR n = IZR z.
Proof. intros <-. apply INR_IZR_INZ. Qed.
Lemma exact_256 m x z d : (m <= 1024)%nat -> x = (INR m / 256)%R -> z = false -> rounds_to 4 x z d -> d = Fin false x.
Proof.
  assert (B : bpow radix2 (-8) = (/ 256)%R) by (change (-8) with (- (8)); rewrite (bpow_inv 8) by lia; reflexivity).
  assert (UE : unit_exponent 4 (-8)) by (vm_compute; split; congruence).
  intros Hc -> -> (s & (S1 & S2 & S3) & ->).
  assert (X : (INR m / 256 = IZR (Z.of_nat m) * bpow radix2 (-8))%R) by (rewrite B, INR_IZR_INZ; reflexivity).
  assert (T : Z.abs (Z.of_nat m) <= top 4) by (change (top 4) with (2 ^ 24); lia).
  assert (G : rounded 4 (INR m / 256) = (INR m / 256)%R) by (rewrite X; exact (grid_rounded 4 _ _ fs4 UE T)).
  assert (G2 : Rlt_bool (Rabs (INR m / 256)) (bpow radix2 (bias 4 + 1)) = true) by (rewrite X; exact (grid_small 4 _ _ fs4 UE T)).
  rewrite G, G2. f_equal. pose proof (pos_INR m). destruct (Req_dec (INR m) 0) as [E|E].
  - apply S3. rewrite E. lra.
  - apply S2. lra.
Qed.
Lemma add_256 a b r : (a + b <= 1024)%nat -> ieee_add 4 (in_256 a) (in_256 b) r -> r = in_256 (a + b).
Proof.
  intros H A. unfold in_256 in *. cbn [ieee_add] in A. eapply exact_256 in A; [|exact H| |reflexivity].
  - rewrite A. f_equal. rewrite plus_INR. lra.
  - rewrite plus_INR. lra.
Qed.
Definition total_of (l : list nat) : nat := fold_right Nat.add 0%nat l.
Lemma added_256 l : forall a r, (a + total_of l <= 1024)%nat -> added (in_256 a) (map in_256 l) r -> r = in_256 (a + total_of l).
Proof.
  induction l as [|b l IH]; intros a r H A; cbn [map total_of fold_right] in *; inversion A as [|? ? ? s ? S1 S2]; subst.
  - now rewrite Nat.add_0_r.
  - apply add_256 in S1; [|lia]. subst s. apply IH in S2; [|unfold total_of; lia]. rewrite S2. f_equal. unfold total_of. lia.
Qed.
(** With 64 samples the value is 4 j / 256. *)
Lemma share_256 hs r : (count hs <= 64)%nat -> free_share 64 hs r -> exists j, (j <= 64)%nat /\ r = in_256 (4 * j).
Proof.
  intros C F. apply share_64 in F; [|exact C]. exists (64 - count hs)%nat. split; [lia|]. rewrite F. unfold in_256. f_equal.
  rewrite mult_INR, minus_INR by exact C. rewrite (INR_IZR 64 64) by reflexivity. rewrite (INR_IZR 4 4) by reflexivity. lra.
Qed.
Lemma zero_256 : zero = in_256 (4 * 0).
Proof. unfold in_256, zero. f_equal. change (INR (4 * 0)) with 0%R. lra. Qed.
Lemma mean_256 l r : length l = 4%nat -> r = in_256 (total_of l) -> mean_of (map (fun j => in_256 (4 * j)) l) r.
Proof.
  intros L ->. exists (map (fun j => INR (4 * j) / 256)%R l). split; [rewrite map_map; reflexivity|]. unfold in_256. f_equal. rewrite map_length, L.
  destruct l as [|a [|b [|c [|d [|? ?]]]]]; try discriminate L. cbn [map fold_right total_of]. rewrite !plus_INR, !mult_INR.
  rewrite (INR_IZR 4 4) by reflexivity. cbn [INR]. lra.
Qed.
Lemma total_4 l : length l = 4%nat -> Forall (fun j => (j <= 64)%nat) l -> (total_of l <= 256)%nat.
Proof.
  intros L F. destruct l as [|a [|b [|c [|d [|? ?]]]]]; try discriminate L. cbn [total_of fold_right].
  inversion F as [|? ? A F1]; subst. inversion F1 as [|? ? B F2]; subst. inversion F2 as [|? ? C F3]; subst. inversion F3 as [|? ? D F4]; subst. lia.
Qed.
Lemma total_quad l : total_of (map (fun j => 4 * j)%nat l) = (4 * total_of l)%nat.
Proof. induction l as [|a l IH]; cbn [map total_of fold_right] in *; [reflexivity|]. unfold total_of in *. lia. Qed.
Lemma divided_256 l p q : length l = 4%nat -> Forall (fun j => (j <= 64)%nat) l -> p = zero ->
  divided 2 p (map (fun j => in_256 (4 * j)) l) q -> q = in_256 (total_of l).
Proof.
  intros L F -> (s & A & D). pose proof (total_4 l L F) as T.
  rewrite zero_256 in A. rewrite <- (map_map (fun j => 4 * j)%nat in_256) in A. apply added_256 in A; [|rewrite total_quad; lia].
  subst s. rewrite total_quad in D. unfold whole in D. unfold in_256 in D. cbn [ieee_div] in D. rewrite (INR_IZR (2 * 2) 4) in D by reflexivity.
  rewrite Req_bool_false in D by lra. eapply (exact_256 (total_of l)) in D; [|lia| |reflexivity].
  - rewrite D. unfold in_256. f_equal. rewrite Nat.mul_0_r, Nat.add_0_l, mult_INR. rewrite (INR_IZR 4 4) by reflexivity. lra.
  - rewrite Nat.mul_0_r, Nat.add_0_l, mult_INR. rewrite (INR_IZR 4 4) by reflexivity. lra.
Qed.
Lemma scaled_256 l p q : length l = 4%nat -> Forall (fun j => (j <= 64)%nat) l -> p = zero ->
  scaled 2 p (map (fun j => in_256 (4 * j)) l) q -> q = in_256 (total_of l).
Proof.
  intros L F -> (i & ds & I & D & A). pose proof (total_4 l L F) as T.
  unfold one, whole in I. cbn [ieee_div] in I. rewrite (INR_IZR 2 2) in I by reflexivity. rewrite Req_bool_false in I by lra.
  apply (exact_256 128) in I; [|lia|rewrite (INR_IZR 128 128) by reflexivity; lra|reflexivity]. subst i.
  assert (E : ds = map in_256 l).
  { clear - D F. revert ds D. induction F as [|j l J F IH]; intros ds D; inversion D as [|? ? ? ds' (e & E1 & E2) D']; subst; [reflexivity|]. cbn [map]. f_equal; [|now apply IH].
    unfold in_256 in E1. cbn [ieee_mul] in E1. apply (exact_256 (2 * j)) in E1; [|lia|rewrite ?plus_INR, ?mult_INR; cbn [INR]; lra|reflexivity].
    subst e. cbn [ieee_mul] in E2. apply (exact_256 j) in E2; [|lia|rewrite ?plus_INR, ?mult_INR; cbn [INR]; lra|reflexivity].
    rewrite E2. unfold in_256. f_equal. rewrite ?plus_INR, ?mult_INR; cbn [INR]; lra. }
  subst ds. rewrite zero_256 in A. apply added_256 in A; [|lia]. exact A.
Qed.

(** What the rays of a pixel see, if an occlusion has 64 samples. *)
Lemma seen_256 {St} (occlusion : isect -> St -> datum -> St -> Prop) direction obs yx st cs st' :
  (forall i st c st', occlusion i st c st' -> exists j, (j <= 64)%nat /\ c = in_256 (4 * j)) ->
  pixel_seen occlusion direction obs 2 yx st cs st' ->
  exists l, length l = 4%nat /\ Forall (fun j => (j <= 64)%nat) l /\ cs = map (fun j => in_256 (4 * j)) l.
Proof.
  intros H P. unfold pixel_seen in P. pose proof (in_turn_length _ _ _ _ _ P) as L. change (length (grid 2 2)) with 4%nat in L.
  enough (G : exists l, Forall (fun j => (j <= 64)%nat) l /\ cs = map (fun j => in_256 (4 * j)) l).
  { destruct G as (l & F & ->). exists l. rewrite map_length in L. now split. }
  clear L. induction P as [|a l st b st1 bs st' R P IH]; [exists []; now split|].
  destruct IH as (js & F & ->). destruct R as (d & i & _ & _ & [(_ & -> & _)|(_ & O)]).
  - exists (0%nat :: js). split; [constructor; [lia|exact F]|]. cbn [map]. now rewrite zero_256.
  - destruct (H _ _ _ _ O) as (j & J & ->). exists (j :: js). now split; [constructor|].
Qed.
Lemma occlusion_scalar_256 {St} cosine sine (sc : scene St) i st c st' : nao sc = 8%nat -> occlusion_scalar cosine sine sc i st c st' ->
  exists j, (j <= 64)%nat /\ c = in_256 (4 * j).
Proof.
  intros N8 (l & hs & D & L & F & V). rewrite N8 in *. change (8 * 8)%nat with 64%nat in *. apply (share_256 hs); [|exact V].
  apply Forall2_length in F. rewrite (pairs_length 64 l L) in F. pose proof (count_length hs). lia.
Qed.
Lemma in_turn_nth {A B St} (R : A -> St -> B -> St -> Prop) l st bs st' k b : in_turn R l st bs st' -> nth_error bs k = Some b ->
  exists a st1 st2, nth_error l k = Some a /\ R a st1 b st2.
Proof.
  intros T. revert k. induction T as [|a l st b0 st1 bs st' H T IH]; intros [|k] E; cbn [nth_error] in *; try discriminate.
  - injection E as ->. now exists a, st, st1.
  - exact (IH k E).
Qed.
Lemma occlusion_vector_256 {St} wide mad cosine sine (sc : scene St) i st c st' : nao sc = 8%nat -> occlusion_vector wide mad cosine sine sc i st c st' ->
  exists j, (j <= 64)%nat /\ c = in_256 (4 * j).
Proof.
  intros N8 (ps & hs & D & A & L & F & V). rewrite N8 in *. change (8 * 8)%nat with 64%nat in V. apply (share_256 hs); [|exact V].
  apply Forall2_length in F. rewrite (lane_pairs_length wide ps A), L in F. pose proof (count_length hs). destruct wide; cbn in F; lia.
Qed.

(** Four values 4 j / 256. *)
Definition quad (cs : list datum) : Prop := exists l, length l = 4%nat /\ Forall (fun j => (j <= 64)%nat) l /\ cs = map (fun j => in_256 (4 * j)) l.
Lemma in_turn_all {A B St} (R : A -> St -> B -> St -> Prop) (P : B -> Prop) : (forall a st b st', R a st b st' -> P b) ->
  forall l st bs st', in_turn R l st bs st' -> Forall P bs.
Proof. intros H l st bs st' T. induction T; constructor; eauto. Qed.
Definition exactly (becomes : datum -> list datum -> datum -> Prop) : Prop :=
  forall cs q, quad cs -> becomes zero cs q -> mean_of cs q /\ exists m, (m <= 256)%nat /\ q = in_256 m.
Lemma divided_exactly : exactly (divided 2).
Proof.
  intros cs q (l & L & F & ->) D. apply divided_256 in D; [|exact L|exact F|reflexivity]. split; [now apply mean_256|]. exists (total_of l). split; [now apply total_4|exact D].
Qed.
Lemma scaled_exactly : exactly (scaled 2).
Proof.
  intros cs q (l & L & F & ->) D. apply scaled_256 in D; [|exact L|exact F|reflexivity]. split; [now apply mean_256|]. exists (total_of l). split; [now apply total_4|exact D].
Qed.

Section Black.
  Variable becomes : datum -> list datum -> datum -> Prop.
  Hypothesis HB : exactly becomes.
  Variables (n : nat) (css : list (list datum)) (new : list Z).
  Hypothesis HP : painted becomes (repeat f32_0 (3 * n)) css new.
  Hypothesis HL : length css = n.
  Hypothesis HQ : Forall quad css.

  Lemma black_means k c cs q : (c < 3)%nat -> nth_error css k = Some cs -> nth_error new (3 * k + c) = Some q ->
    mean_of cs (dat q) /\ exists m, (m <= 256)%nat /\ dat q = Fin false (INR m / 256).
  Proof.
    intros C E EQ. destruct HP as (L & F & H). assert (K : (k < n)%nat) by (rewrite <- HL; apply nth_error_Some; congruence).
    assert (EP : nth_error (repeat f32_0 (3 * n)) (3 * k + c) = Some f32_0).
    { rewrite nth_error_repeat; [reflexivity|lia]. }
    pose proof (H k c cs f32_0 q C E EP EQ) as B. rewrite d_0 in B. apply HB; [|exact B]. rewrite Forall_forall in HQ. apply HQ. eapply nth_error_In; eassumption.
  Qed.
  Lemma black_length : length new = (3 * n)%nat.
  Proof. destruct HP as (L & _). now rewrite L, repeat_length. Qed.
  Lemma black_values : Forall (fun q => is_f32 q /\ exists m, (m <= 256)%nat /\ dat q = Fin false (INR m / 256)) new.
  Proof.
    apply Forall_forall. intros q I. destruct HP as (_ & F & _). split; [rewrite Forall_forall in F; now apply F|].
    apply In_nth_error in I. destruct I as [j E]. assert (J : (j < 3 * n)%nat) by (rewrite <- black_length; apply nth_error_Some; congruence).
    pose proof (Nat.div_mod j 3) as DM. pose proof (Nat.mod_upper_bound j 3) as UB.
    destruct (nth_error css (j / 3)) as [cs|] eqn:EC.
    - rewrite DM in E by lia. apply (black_means (j / 3) (j mod 3) cs q); [lia|exact EC|exact E].
    - apply nth_error_None in EC. exfalso. clear - EC J DM UB HL. specialize (DM ltac:(discriminate)). lia.
  Qed.
End Black.

(** *** Bytes *)
Lemma d_255_5 : pat f32_255_5 /\ dat f32_255_5 = Fin false (511 / 2).
Proof.
  split; [vm_compute; split; congruence|].
  unfold f32_datum, datum_of, magnitude. change (exp_field 4 f32_255_5) with 134. change (sig_field 4 f32_255_5) with 8355840.
  change (sign_field 4 f32_255_5) with false. change (2 ^ exp_width 4 - 1) with 255. cbn [Z.eqb Pos.eqb]. f_equal. vm_compute. lra.
Qed.
Lemma clamp_ok x : pat x -> (exists b, clamp x = Ok b /\ shade (dat x) b) \/ (clamp x = UB /\ forall b, ~ shade (dat x) b).
Proof.
  intros P. destruct d_255_5 as [K1 K2]. unfold clamp. set (y := fl_mul 4 x f32_255_5). assert (PY : pat y) by now apply p_mul.
  pose proof (d_mul _ _ P K1) as D. fold y in D. rewrite K2 in D.
  assert (U : forall s u, ieee_mul 4 (dat x) (Fin false (511 / 2)) (Fin s u) -> dat y = Fin s u).
  { intros s u H. exact (mul_unique 4 _ _ _ _ D H). }
  unfold lane_cast. pose proof (trunc_datum 4 fs4 y PY) as T. change (datum_of 4 y) with (dat y) in T.
  destruct (dat y) as [|s|s u] eqn:EY; rewrite T; [right|right|].
  - split; [reflexivity|]. intros b (s' & u' & H & _). apply U in H. discriminate H.
  - split; [reflexivity|]. intros b (s' & u' & H & _). apply U in H. discriminate H.
  - change (int_min KInt 8) with (- 2 ^ 63). change (int_max KInt 8) with (2 ^ 63 - 1).
    destruct ((- 2 ^ 63 <=? Ztrunc u) && (Ztrunc u <=? 2 ^ 63 - 1)) eqn:EB.
    + left. apply andb_true_iff in EB. destruct EB as [E1 E2]. apply Z.leb_le in E1. apply Z.leb_le in E2.
      assert (IV : ival KInt 8 (wrap 8 (Ztrunc u)) = Ztrunc u).
      { unfold ival. cbn [is_signed]. apply sval_wrap; [lia|]. change (bits 8 - 1) with 63. clear - E1 E2. lia. }
      rewrite IV. eexists. split; [reflexivity|]. exists s, u. split; [exact D|]. split; [lia|].
      unfold wrap. change (modulus 1) with 256. destruct (Ztrunc u <? 0) eqn:E0; [apply Z.ltb_lt in E0|apply Z.ltb_ge in E0].
      * change (255 <? 0) with false. cbn [negb]. rewrite Z.mod_0_l by lia. lia.
      * destruct (255 <? Ztrunc u) eqn:E9; [apply Z.ltb_lt in E9|apply Z.ltb_ge in E9]; rewrite Z.mod_small by lia; lia.
    + right. split; [reflexivity|]. intros b (s' & u' & H & R & _). apply U in H. injection H as _ H. subst u'.
      apply andb_false_iff in EB. destruct EB as [E1|E1]; apply Z.leb_gt in E1; lia.
Qed.

Lemma clamps_ok l : Forall is_f32 l ->
  (exists bs, clamps l = Ok bs /\ Forall2 (fun x b => shade (dat x) b) l bs) \/
  (clamps l = UB /\ exists x, In x l /\ forall b, ~ shade (dat x) b).
Proof.
  intros F. induction F as [|x l P F IH]; cbn [clamps]; [left; exists []; split; [reflexivity|constructor]|].
  destruct (clamp_ok x P) as [(b & E & H)|(E & H)]; rewrite E; cbn [bind].
  - destruct IH as [(bs & E' & H')|(E' & y & I & H')]; rewrite E'; cbn [bind].
    + left. exists (b :: bs). split; [reflexivity|]. now constructor.
    + right. split; [reflexivity|]. exists y. split; [now right|exact H'].
  - right. split; [reflexivity|]. exists x. split; [now left|exact H].
Qed.
Theorem png_aos_ok img : length (data img) = length (fdata img) -> Forall is_f32 (fdata img) ->
  (exists bs, png_bytes false img = Ok bs /\ Forall2 (fun x b => shade (dat x) b) (fdata img) bs) \/
  (png_bytes false img = UB /\ exists x, In x (fdata img) /\ forall b, ~ shade (dat x) b).
Proof.
  intros L F. unfold png_bytes. rewrite L, Nat.min_id. rewrite firstn_all. rewrite <- L. rewrite skipn_all.
  destruct (clamps_ok (fdata img) F) as [(bs & E & H)|(E & H)]; rewrite E; cbn [bind]; [left|right].
  - exists bs. split; [now rewrite app_nil_r|exact H].
  - split; [reflexivity|exact H].
Qed.

(** Planes: red, green, blue. *)
Lemma nth_error_Forall {A} (P : A -> Prop) l i x : Forall P l -> nth_error l i = Some x -> P x.
Proof. intros F E. rewrite Forall_forall in F. apply F. eapply nth_error_In; eassumption. Qed.
Section Soa.
  Variables (r g b : list Z) (n : nat).
  Hypothesis Lr : length r = n.
  Hypothesis Lg : length g = n.
  Hypothesis Lb : length b = n.
  Hypothesis Fr : Forall is_f32 r.
  Hypothesis Fg : Forall is_f32 g.
  Hypothesis Fb : Forall is_f32 b.
  Definition plane_of (c : nat) : list Z := match c with 0 => r | 1 => g | _ => b end%nat.
  Definition soa_step (i : nat) (d : list Z) : outcome (list Z) :=
    x <- clamp (nth i r 0) ;; y <- clamp (nth i g 0) ;; z <- clamp (nth i b 0) ;;
    if Nat.ltb (3 * i + 2) (length d)
    then Ok (Base.update (Base.update (Base.update d (3 * i) x) (3 * i + 1) y) (3 * i + 2) z)
    else Panic.
  Lemma soa_ok m : forall pre tail, length pre = (3 * m)%nat -> length tail = (3 * (n - m))%nat -> (m <= n)%nat ->
    (exists bs, foreach (seq m (n - m)) (pre ++ tail) soa_step = Ok (pre ++ bs) /\ length bs = (3 * (n - m))%nat /\
      forall i c y, (c < 3)%nat -> nth_error bs (3 * i + c) = Some y -> exists x, nth_error (plane_of c) (m + i) = Some x /\ shade (dat x) y) \/
    (foreach (seq m (n - m)) (pre ++ tail) soa_step = UB /\ exists x, In x (r ++ g ++ b) /\ forall y, ~ shade (dat x) y).
  Proof.
    remember (n - m)%nat as k eqn:EK. revert m EK. induction k as [|k IH]; intros m EK pre tail LP LT HM.
    - left. destruct tail; [|discriminate LT]. exists []. split; [reflexivity|]. split; [reflexivity|]. intros i c y _ H. destruct (3 * i + c)%nat; discriminate H.
    - destruct tail as [|t0 [|t1 [|t2 tail]]]; cbn [length] in LT; try lia. cbn [seq foreach].
      assert (K : (m < n)%nat) by lia.
      destruct (nth_error r m) as [xr|] eqn:Er; [|apply nth_error_None in Er; lia].
      destruct (nth_error g m) as [xg|] eqn:Eg; [|apply nth_error_None in Eg; lia].
      destruct (nth_error b m) as [xb|] eqn:Eb; [|apply nth_error_None in Eb; lia].
      unfold soa_step at 1 3. rewrite (nth_error_nth _ _ 0 Er), (nth_error_nth _ _ 0 Eg), (nth_error_nth _ _ 0 Eb).
      destruct (clamp_ok xr (nth_error_Forall _ _ _ _ Fr Er)) as [(yr & Cr & Sr)|(Cr & Sr)]; rewrite Cr; cbn [bind].
      2:{ right. split; [reflexivity|]. exists xr. split; [apply in_or_app; left; eapply nth_error_In; eassumption|exact Sr]. }
      destruct (clamp_ok xg (nth_error_Forall _ _ _ _ Fg Eg)) as [(yg & Cg & Sg)|(Cg & Sg)]; rewrite Cg; cbn [bind].
      2:{ right. split; [reflexivity|]. exists xg. split; [apply in_or_app; right; apply in_or_app; left; eapply nth_error_In; eassumption|exact Sg]. }
      destruct (clamp_ok xb (nth_error_Forall _ _ _ _ Fb Eb)) as [(yb & Cb & Sb)|(Cb & Sb)]; rewrite Cb; cbn [bind].
      2:{ right. split; [reflexivity|]. exists xb. split; [apply in_or_app; right; apply in_or_app; right; eapply nth_error_In; eassumption|exact Sb]. }
      replace (Nat.ltb (3 * m + 2) (length (pre ++ t0 :: t1 :: t2 :: tail))) with true.
      2:{ symmetry. apply Nat.ltb_lt. rewrite app_length. cbn [length]. lia. }
      cbn [bind].
      assert (EU : Base.update (Base.update (Base.update (pre ++ t0 :: t1 :: t2 :: tail) (3 * m) yr) (3 * m + 1) yg) (3 * m + 2) yb = (pre ++ [yr; yg; yb]) ++ tail).
      { rewrite <- LP, update_mid.
        replace (length pre + 1)%nat with (length (pre ++ [yr])) by (rewrite app_length; reflexivity).
        replace (pre ++ yr :: t1 :: t2 :: tail) with ((pre ++ [yr]) ++ t1 :: t2 :: tail) by now rewrite <- app_assoc.
        rewrite update_mid. replace (length pre + 2)%nat with (length (pre ++ [yr; yg])) by (rewrite app_length; reflexivity).
        replace ((pre ++ [yr]) ++ yg :: t2 :: tail) with ((pre ++ [yr; yg]) ++ t2 :: tail) by now rewrite <- !app_assoc.
        rewrite update_mid. now rewrite <- !app_assoc. }
      rewrite EU. destruct (IH (S m)) with (pre := pre ++ [yr; yg; yb]) (tail := tail) as [(bs & E & LB & H)|(E & H)]; [lia|rewrite app_length; cbn [length]; lia|lia|lia| |].
      + left. rewrite E. exists (yr :: yg :: yb :: bs). split; [now rewrite <- app_assoc|]. split; [cbn [length]; lia|].
        intros [|i] c y C EY.
        * rewrite Nat.mul_0_r, Nat.add_0_l in EY. rewrite Nat.add_0_r. destruct c as [|[|[|c]]]; [| | |lia]; cbn [nth_error] in EY; injection EY as <-; cbn [plane_of]; eauto.
        * replace (3 * S i + c)%nat with (S (S (S (3 * i + c)))) in EY by lia. cbn [nth_error] in EY. destruct (H i c y C EY) as (x & EX & SX).
          exists x. split; [|exact SX]. now rewrite Nat.add_succ_r.
      + right. rewrite E. split; [reflexivity|exact H].
  Qed.
End Soa.
Theorem png_soa_ok img : let n := (img_w img * img_h img)%nat in length (data img) = (3 * n)%nat -> length (fdata img) = (3 * n)%nat -> Forall is_f32 (fdata img) ->
  (exists bs, png_bytes true img = Ok bs /\ length bs = (3 * n)%nat /\
     forall i c y, (c < 3)%nat -> nth_error bs (3 * i + c) = Some y -> exists x, nth_error (fdata img) (c * n + i) = Some x /\ shade (dat x) y) \/
  (png_bytes true img = UB /\ exists x, In x (fdata img) /\ forall b, ~ shade (dat x) b).
Proof.
  intros n LD LF F. unfold png_bytes. fold n.
  set (r := firstn n (fdata img)). set (tail := skipn n (fdata img)). set (g := firstn n tail). set (b := skipn n tail).
  assert (Lr : length r = n) by (unfold r; rewrite firstn_length; lia).
  assert (Lt : length tail = (2 * n)%nat) by (unfold tail; rewrite skipn_length; lia).
  assert (Lg : length g = n) by (unfold g; rewrite firstn_length; lia).
  assert (Lb : length b = n) by (unfold b; rewrite skipn_length; lia).
  assert (EQ : fdata img = r ++ g ++ b) by (unfold r, g, b; rewrite firstn_skipn; unfold tail; now rewrite firstn_skipn).
  assert (FA : Forall is_f32 (r ++ g ++ b)) by now rewrite <- EQ.
  apply Forall_app in FA. destruct FA as [Fr FA]. apply Forall_app in FA. destruct FA as [Fg Fb].
  rewrite Lr, Lg, Lb, Nat.eqb_refl. cbn [andb].
  destruct (soa_ok r g b n Lr Lg Lb Fr Fg Fb 0 [] (data img)) as [(bs & E & LB & H)|(E & H)]; [reflexivity|lia|lia| |].
  - left. exists bs. rewrite Nat.sub_0_r in E, LB. cbn [app] in E. split; [exact E|]. split; [exact LB|].
    intros i c y C EY. destruct (H i c y C EY) as (x & EX & SX). exists x. split; [|exact SX]. rewrite Nat.add_0_l in EX.
    assert (I : (i < n)%nat). { assert (3 * i + c < length bs)%nat by (apply nth_error_Some; congruence). lia. }
    rewrite EQ. destruct c as [|[|[|c]]]; [| | |lia]; cbn [plane_of] in EX.
    + rewrite Nat.mul_0_l, Nat.add_0_l, nth_error_app1 by lia. exact EX.
    + rewrite nth_error_app2 by lia. rewrite nth_error_app1 by lia. rewrite Lr. replace (1 * n + i - n)%nat with i by lia. exact EX.
    + rewrite nth_error_app2 by lia. rewrite nth_error_app2 by lia. rewrite Lr, Lg. replace (2 * n + i - n - n)%nat with i by lia. exact EX.
  - right. rewrite Nat.sub_0_r in E. split; [exact E|]. now rewrite EQ.
Qed.

(** m / 256 becomes 511 m / 512 rounded down. *)
Lemma shade_256 m : (m <= 256)%nat -> shade (in_256 m) (511 * Z.of_nat m / 512).
Proof.
  intros M. set (z := 511 * Z.of_nat m).
  assert (B : bpow radix2 (-9) = (/ 512)%R) by (change (-9) with (- (9)); rewrite (bpow_inv 9) by lia; reflexivity).
  assert (UE : unit_exponent 4 (-9)) by (vm_compute; split; congruence).
  assert (X : (INR m / 256 * (511 / 2) = IZR z * bpow radix2 (-9))%R) by (unfold z; rewrite B, mult_IZR, INR_IZR_INZ; lra).
  assert (T : Z.abs z <= top 4) by (change (top 4) with (2 ^ 24); lia).
  assert (TR : Ztrunc (IZR z * bpow radix2 (-9)) = z / 512).
  { rewrite B. change (IZR z * / 512)%R with (IZR z / IZR 512)%R. rewrite Ztrunc_floor; [|apply Rmult_le_pos; [apply IZR_le; lia|lra]]. apply Zfloor_div. lia. }
  exists false, (IZR z * bpow radix2 (-9))%R. split; [|rewrite TR; split; [|symmetry]].
  - unfold in_256. cbn [ieee_mul]. rewrite X. exists false. split.
    + pose proof (bpow_gt_0 radix2 (-9)) as BG. assert (0 <= IZR z)%R by (apply IZR_le; lia). split; [|split]; auto.
      intros N. exfalso. assert (0 <= IZR z * bpow radix2 (-9))%R by (apply Rmult_le_pos; lra). lra.
    + now rewrite (grid_rounded 4 _ _ fs4 UE T), (grid_small 4 _ _ fs4 UE T).
  - change (2 ^ 63) with 9223372036854775808. unfold z. clear - M. split; [apply Z.le_trans with 0; [lia|apply Z.div_pos; lia]|]. apply Z.div_lt_upper_bound; lia.
  - assert (0 <= z / 512 <= 255). { split; [apply Z.div_pos; lia|]. apply Z.lt_succ_r. apply Z.div_lt_upper_bound; unfold z; lia. } lia.
Qed.
Lemma shade_unique x b b' : shade x b -> shade x b' -> b = b'.
Proof.
  intros (s & u & H & _ & ->) (s' & u' & H' & _ & ->). pose proof (mul_unique 4 _ _ _ _ H H') as E. injection E as _ ->. reflexivity.
Qed.
Lemma png_256 w h (bytes new : list Z) : length bytes = length new ->
  Forall (fun q => is_f32 q /\ exists m, (m <= 256)%nat /\ dat q = Fin false (INR m / 256)) new ->
  exists bs, png_bytes false (Image w h bytes new) = Ok bs /\
    Forall2 (fun q y => exists m, (m <= 256)%nat /\ dat q = Fin false (INR m / 256) /\ y = 511 * Z.of_nat m / 512) new bs.
Proof.
  intros L F. destruct (png_aos_ok (Image w h bytes new)) as [(bs & E & H)|(_ & x & I & H)]; cbn [data fdata] in *; [exact L| | |].
  - eapply Forall_impl; [|exact F]. intros q [P _]. exact P.
  - exists bs. split; [exact E|]. clear E L. revert H. revert bs. induction F as [|q new (P & m & M & D) F IH]; intros bs H; inversion H as [|? y ? bs' S1 H']; subst; constructor; [|now apply IH].
    exists m. split; [exact M|]. split; [exact D|]. eapply shade_unique; [exact S1|]. rewrite D. now apply shade_256.
  - exfalso. rewrite Forall_forall in F. destruct (F x I) as (_ & m & M & D). apply (H (511 * Z.of_nat m / 512)). rewrite D. now apply shade_256.
Qed.
Lemma fresh_length w h : length (fdata (image_new w h)) = (3 * (h * w))%nat.
Proof. unfold image_new. cbn [fdata]. rewrite repeat_length. lia. Qed.
Lemma fresh_f32 w h : Forall is_f32 (fdata (image_new w h)).
Proof. unfold image_new. cbn [fdata]. apply Forall_forall. intros x I. apply repeat_spec in I. subst x. exact p_0. Qed.
Lemma fresh_repeat w h : fdata (image_new w h) = repeat f32_0 (3 * (h * w)).
Proof. unfold image_new. cbn [fdata]. f_equal. lia. Qed.
Lemma grid_length a b : length (grid a b) = (a * b)%nat.
Proof. unfold grid. now rewrite prod_length, !seq_length. Qed.

(** The result of a run on a fresh image. *)
Lemma fresh_result becomes w h css new : exactly becomes -> painted becomes (fdata (image_new w h)) css new -> length css = (h * w)%nat -> Forall quad css ->
  averages (h * w) css new.
Proof.
  intros HB P L Q. rewrite fresh_repeat in P. split; [exact L|]. split; [exact (black_length becomes _ _ _ P)|]. split; [exact (proj1 (proj2 P))|].
  intros k c cs q C E EQ. pose proof (proj1 (Forall_forall _ _) Q cs (nth_error_In _ _ E)) as (l & Ll & _ & El). split; [now rewrite El, map_length|].
  exact (black_means becomes HB _ css new P L Q k c cs q C E EQ).
Qed.
Lemma averages_values n css new : averages n css new -> Forall (fun q => is_f32 q /\ exists m, (m <= 256)%nat /\ dat q = Fin false (INR m / 256)) new.
Proof.
  intros (L & LN & F & H). apply Forall_forall. intros q I. split; [exact (proj1 (Forall_forall _ _) F q I)|]. apply In_nth_error in I. destruct I as [j E].
  assert (J : (j < 3 * n)%nat). { rewrite <- LN. apply nth_error_Some. congruence. }
  assert (D : j = (3 * (j / 3) + j mod 3)%nat) by (apply Nat.div_mod; lia). assert (M : (j mod 3 < 3)%nat) by (apply Nat.mod_upper_bound; lia).
  assert (K : (j / 3 < length css)%nat) by (rewrite L; apply Nat.div_lt_upper_bound; lia).
  destruct (nth_error css (j / 3)) as [cs|] eqn:EC; [|apply nth_error_None in EC; lia].
  rewrite D in E. exact (proj2 (proj2 (H _ _ _ _ M EC E))).
Qed.
Theorem png_picture w h css new : averages (h * w) css new ->
  exists bs, png_bytes false (Image w h (data (image_new w h)) new) = Ok bs /\
    Forall2 (fun q y => exists m, (m <= 256)%nat /\ dat q = Fin false (INR m / 256) /\ y = 511 * Z.of_nat m / 512) new bs.
Proof.
  intros H. apply png_256; [|exact (averages_values _ _ _ H)]. destruct H as (_ & LN & _). unfold image_new. cbn [data]. rewrite repeat_length, LN. lia.
Qed.

Section Main.
  Context {St : Type}.
  Variables (sc : scene St) (ok : St -> Prop) (w h : nat).
  Hypothesis HSC : is_scene sc.
  Hypothesis H8 : nao sc = 8%nat.
  Hypothesis Hw : Z.of_nat w <= 2 ^ 24.
  Hypothesis Hh : Z.of_nat h <= 2 ^ 24.
  Lemma concat_rows {A} n (ls : list (list A)) : Forall (fun l => length l = n) ls -> length (concat ls) = (length ls * n)%nat.
  Proof. intros F. induction F as [|l ls L F IH]; cbn [concat length Nat.mul]; [reflexivity|]. rewrite app_length, IH, L. reflexivity. Qed.
  Lemma rows_quads (R : nat * nat -> St -> list datum -> St -> Prop) csss (start : nat -> St) : (forall a st cs st', R a st cs st' -> quad cs) -> length csss = h ->
    (forall y css, nth_error csss y = Some css -> exists st', in_turn R (map (pair y) (seq 0 w)) (start y) css st') ->
    length (concat csss) = (h * w)%nat /\ Forall quad (concat csss).
  Proof.
    intros HR L H. split.
    - rewrite (concat_rows w), L; [reflexivity|]. apply Forall_forall. intros css I. apply In_nth_error in I. destruct I as [y E].
      destruct (H y css E) as [st' T]. apply in_turn_length in T. now rewrite map_length, seq_length in T.
    - apply Forall_concat. apply Forall_forall. intros css I. apply In_nth_error in I. destruct I as [y E]. destruct (H y css E) as [st' T].
      exact (in_turn_all R quad HR _ _ _ _ T).
  Qed.

  Section S.
    Variables (cosf sinf : Z -> Z) (cosine sine : datum -> datum -> Prop).
    Hypothesis HC : computes cosf cosine.
    Hypothesis HS : computes sinf sine.
    Hypothesis HE : endless sc ok.
    Local Notation seen := (pixel_seen (occlusion_scalar cosine sine sc) (view part_of w h 2) (objects sc) 2).
    Lemma seen_quad_s a st cs st' : seen a st cs st' -> quad cs.
    Proof. apply seen_256. intros i s c s'. apply occlusion_scalar_256. exact H8. Qed.
    Lemma nao_s : Z.of_nat (nao sc * nao sc) <= 2 ^ 24.
    Proof. rewrite H8. vm_compute. discriminate. Qed.
    Theorem main_scalar st : ok st ->
      exists css new st', scalar_ao sc 2 (image_new w h) cosf sinf st = Ok (new, st') /\ in_turn seen (grid h w) st css st' /\ ok st' /\ averages (h * w) css new.
    Proof.
      intros O. destruct (scalar_ao_ok cosf sinf cosine sine HC HS sc ok 2 (image_new w h) HSC HE nao_s Hw Hh) with (st := st) as (css & new & st' & E & T & P & O');
        [vm_compute; discriminate|apply fresh_length|apply fresh_f32|exact O|].
      exists css, new, st'. split; [exact E|]. split; [exact T|]. split; [exact O'|]. apply (fresh_result (divided 2)); [exact divided_exactly|exact P| |].
      - rewrite (in_turn_length _ _ _ _ _ T). apply grid_length.
      - exact (in_turn_all seen quad seen_quad_s _ _ _ _ T).
    Qed.
    Theorem main_scalar_par start : (forall y, ok (start y)) -> (0 < w)%nat ->
      exists csss new, scalar_par_ao sc 2 (image_new w h) cosf sinf start = Ok new /\ length csss = h /\
        (forall y css, nth_error csss y = Some css -> exists st', in_turn seen (map (pair y) (seq 0 w)) (start y) css st') /\ averages (h * w) (concat csss) new.
    Proof.
      intros O W. destruct (scalar_par_ao_ok cosf sinf cosine sine HC HS sc ok 2 (image_new w h) HSC HE nao_s Hw Hh) with (start := start) as (csss & new & E & L & P & T);
        [vm_compute; discriminate|apply fresh_length|apply fresh_f32|exact O|exact W|].
      exists csss, new. split; [exact E|]. split; [exact L|]. split; [exact T|].
      destruct (rows_quads seen csss start seen_quad_s L T) as [L1 Q]. apply (fresh_result (divided 2)); [exact divided_exactly|exact P|exact L1|exact Q].
    Qed.
  End S.
  Section VV.
    Variables (wide : bool) (X : externals) (Sx : lane_functions) (tg : target) (junk : vec) (mad : mul_adder) (cosine sine : datum -> datum -> Prop).
    Hypothesis HW : works_lanewise X Sx.
    Hypothesis HFL : follows_llvm Sx.
    Hypothesis HSL : ~ uses_sleef tg.
    Hypothesis HM : mul_adde_is tg Sx mad.
    Hypothesis HJ : is_vector (f32xN wide) junk.
    Hypothesis HT : trig_is Sx cosine sine.
    Hypothesis HE : endless_packets wide sc ok.
    Local Notation seen := (pixel_seen (occlusion_vector wide mad cosine sine sc) (view times_part w h 2) (objects sc) 2).
    Lemma seen_quad_v a st cs st' : seen a st cs st' -> quad cs.
    Proof. apply seen_256. intros i s c s'. apply occlusion_vector_256. exact H8. Qed.
    Lemma nao_v : Z.of_nat (nao sc * ((nao sc + vn (f32xN wide) - 1) / vn (f32xN wide)) * vn (f32xN wide)) <= 2 ^ 24.
    Proof. rewrite H8. destruct wide; vm_compute; discriminate. Qed.
    Theorem main_vector st : ok st ->
      exists css new st', vector_ao sc 2 (image_new w h) wide false X tg junk st = Ok (new, st') /\ in_turn seen (grid h w) st css st' /\ ok st' /\ averages (h * w) css new.
    Proof.
      intros O. destruct (vector_ao_ok wide X Sx tg junk mad cosine sine HW HFL HSL HM HJ HT sc ok 2 (image_new w h) HSC HE nao_v Hw Hh) with (st := st) as (css & new & st' & E & T & P & O');
        [vm_compute; discriminate|apply fresh_length|apply fresh_f32|exact O|].
      exists css, new, st'. split; [exact E|]. split; [exact T|]. split; [exact O'|]. apply (fresh_result (scaled 2)); [exact scaled_exactly|exact P| |].
      - rewrite (in_turn_length _ _ _ _ _ T). apply grid_length.
      - exact (in_turn_all seen quad seen_quad_v _ _ _ _ T).
    Qed.
    Theorem main_vector_par start : (forall y, ok (start y)) -> (0 < w)%nat ->
      exists csss new, vector_par_ao sc 2 (image_new w h) wide false X tg junk start = Ok new /\ length csss = h /\
        (forall y css, nth_error csss y = Some css -> exists st', in_turn seen (map (pair y) (seq 0 w)) (start y) css st') /\ averages (h * w) (concat csss) new.
    Proof.
      intros O W. destruct (vector_par_ao_ok wide X Sx tg junk mad cosine sine HW HFL HSL HM HJ HT sc ok 2 (image_new w h) HSC HE nao_v Hw Hh) with (start := start) as (csss & new & E & L & P & T);
        [vm_compute; discriminate|apply fresh_length|apply fresh_f32|exact O|exact W|].
      exists csss, new. split; [exact E|]. split; [exact L|]. split; [exact T|].
      destruct (rows_quads seen csss start seen_quad_v L T) as [L1 Q]. apply (fresh_result (scaled 2)); [exact scaled_exactly|exact P|exact L1|exact Q].
    Qed.
  End VV.
End Main.

(** An image without columns cannot be cut into rows. *)
Lemma par_panics body l : par_chunks body 0 l = Panic.
Proof. reflexivity. Qed.

(** Halves are exact: for ns = 2 all versions look in the same directions. *)
Lemma div_unique b x y r r' : ieee_div b x y r -> ieee_div b x y r' -> r = r'.
Proof.
  destruct x, y; cbn [ieee_div]; try congruence. match goal with |- context [Req_bool ?u 0] => destruct (Req_bool u 0) end; [congruence|]. apply rounds_unique.
Qed.
Lemma part_2 u a b : (u < 2)%nat -> part_of 2 u a -> times_part 2 u b -> a = b.
Proof.
  intros U A (i & I & B). unfold part_of, one, whole in *. cbn [ieee_div] in *. rewrite (INR_IZR 2 2) in * by reflexivity. rewrite Req_bool_false in A by lra. rewrite Req_bool_false in I by lra.
  apply (exact_256 128) in I; [|lia|rewrite (INR_IZR 128 128) by reflexivity; lra|reflexivity]. subst i. cbn [ieee_mul] in B.
  destruct u as [|[|u]]; [| |lia]; cbn [INR] in A, B.
  - apply (exact_256 0) in A; [|lia|cbn [INR]; lra|reflexivity]. apply (exact_256 0) in B; [|lia|cbn [INR]; lra|reflexivity]. subst. f_equal. lra.
  - apply (exact_256 128) in A; [|lia|rewrite (INR_IZR 128 128) by reflexivity; lra|reflexivity].
    apply (exact_256 128) in B; [|lia|rewrite (INR_IZR 128 128) by reflexivity; lra|reflexivity]. subst. f_equal. lra.
Qed.
Theorem same_view w h x y u v d d' : (u < 2)%nat -> (v < 2)%nat -> view part_of w h 2 x y u v d -> view times_part w h 2 x y u v d' -> d = d'.
Proof.
  intros U V (a & b & hw & hh & x1 & x2 & x3 & x4 & x5 & y1 & y2 & y3 & A & B & HW & HH & X1 & X2 & X3 & X4 & X5 & Y1 & Y2 & Y3 & ->)
    (a' & b' & hw' & hh' & x1' & x2' & x3' & x4' & x5' & y1' & y2' & y3' & A' & B' & HW' & HH' & X1' & X2' & X3' & X4' & X5' & Y1' & Y2' & Y3' & ->).
  pose proof (part_2 u a a' U A A'). pose proof (part_2 v b b' V B B'). subst a' b'.
  pose proof (div_unique 4 _ _ _ _ HW HW'). pose proof (div_unique 4 _ _ _ _ HH HH'). subst hw' hh'.
  pose proof (add_unique 4 _ _ _ _ X1 X1'). subst x1'. pose proof (add_unique 4 _ _ _ _ X2 X2'). subst x2'. pose proof (div_unique 4 _ _ _ _ X3 X3'). subst x3'.
  pose proof (mul_unique 4 _ _ _ _ X4 X4'). subst x4'. pose proof (div_unique 4 _ _ _ _ X5 X5'). subst x5'.
  pose proof (add_unique 4 _ _ _ _ Y1 Y1'). subst y1'. pose proof (add_unique 4 _ _ _ _ Y2 Y2'). subst y2'. pose proof (div_unique 4 _ _ _ _ Y3 Y3'). subst y3'. reflexivity.
Qed.
