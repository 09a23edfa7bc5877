(** The images of the ambient occlusion example: packets of rays in the program, and debug builds. *)
From Coq Require Import ZArith List Bool Lia Reals Lra Permutation.
From Flocq Require Import Core.
From Verif.Model Require Import Base FloatLane Llvm Tables MathTables Math Minimal MaskReduce Ops Cmp Float Reduce ExStencil ExRandom ExGeometry ExIntersect ExOcclusion ExImage.
From Verif.Spec Require Import Spec Floats MathSpec Examples Stencil Rays Occlusion.
From Verif.Proofs Require Import Lib FloatP FloatVecP ExPacketP ExIntersectP ExIntersectMainP ExIntersectTopP ExOcclusionP ExOcclusionPacketP ExSceneP ExSceneTopP ExImageP ExImageTopP ExTiledP ExTiledTopP.
From Verif.Spec Require Import Picture.
Import ListNotations.
Open Scope Z_scope.
Local Notation pat := (pattern 4).
Local Notation dat := f32_datum.
Local Opaque fl_add fl_sub fl_mul fl_div fl_sqrt fl_lt fl_gt fl_ge fl_abs f32_neg.

(** *** Four rays *)
Definition or_zero (c : option nat) : nat := match c with Some j => j | None => 0%nat end.
Definition quarter_of : option nat -> option datum := option_map (fun j => in_256 (4 * j)).
Definition quad_hits (cs : list (option datum)) : Prop :=
  exists l, length l = 4%nat /\ Forall (fun c => (or_zero c <= 64)%nat) l /\ cs = map quarter_of l.
Fixpoint somes (l : list (option nat)) : list nat :=
  match l with
  | [] => []
  | Some j :: l => j :: somes l
  | None :: l => somes l
  end.
Lemma hits_somes l : hits (map quarter_of l) = map (fun j => in_256 (4 * j)) (somes l).
Proof. induction l as [|[j|] l IH]; cbn [map hits somes quarter_of option_map]; congruence. Qed.
Lemma total_somes l : total_of (somes l) = total_of (map or_zero l).
Proof. induction l as [|[j|] l IH]; cbn [map somes total_of fold_right or_zero] in *; unfold total_of in *; rewrite ?IH; reflexivity. Qed.
Lemma somes_small l : Forall (fun c => (or_zero c <= 64)%nat) l -> Forall (fun j => (j <= 64)%nat) (somes l).
Proof. intros F. induction F as [|[j|] l H F IH]; cbn [somes]; [constructor|constructor; assumption|assumption]. Qed.
Lemma black_quarter c : or_black (quarter_of c) = in_256 (4 * or_zero c).
Proof. destruct c as [j|]; [reflexivity|]. cbn [quarter_of option_map or_black or_zero]. now rewrite Nat.mul_0_r, zero_256. Qed.
Lemma quad_black cs : quad_hits cs -> quad (map or_black cs).
Proof.
  intros (l & L & F & ->). exists (map or_zero l). split; [now rewrite map_length|]. split; [apply Forall_forall; intros j I; apply in_map_iff in I; destruct I as (c & <- & I); rewrite Forall_forall in F; now apply F|].
  rewrite !map_map. apply map_ext. exact black_quarter.
Qed.
Lemma scaled_hits_exactly cs q : quad_hits cs -> scaled_hits 2 zero cs q -> mean_of (map or_black cs) q /\ exists m, (m <= 256)%nat /\ q = in_256 m.
Proof.
  intros (l & L & F & ->) (i & ii & ds & I & II & D & A).
  assert (L' : length (map or_zero l) = 4%nat) by now rewrite map_length.
  assert (F' : Forall (fun j => (j <= 64)%nat) (map or_zero l)).
  { apply Forall_forall. intros j J. apply in_map_iff in J. destruct J as (c & <- & J). rewrite Forall_forall in F. now apply F. }
  pose proof (total_4 _ L' F') as T.
  unfold one, whole in I. cbn [ieee_div] in I. rewrite (INR_IZR 2 2) in I by reflexivity. rewrite Req_bool_false in I by lra.
  apply (exact_256 128) in I; [|lia|rewrite (INR_IZR 128 128) by reflexivity; lra|reflexivity]. subst i.
  cbn [ieee_mul] in II. apply (exact_256 64) in II; [|lia|rewrite (INR_IZR 64 64) by reflexivity; lra|reflexivity]. subst ii.
  rewrite hits_somes in D. assert (E : ds = map in_256 (somes l)).
  { pose proof (somes_small l F) as FS. clear - D FS. revert ds D. induction FS as [|j s J FS IH]; intros ds D; inversion D as [|? d ? ds' E1 D']; subst; [reflexivity|]. cbn [map]. f_equal; [|now apply IH].
    unfold in_256 in E1. cbn [ieee_mul] in E1. apply (exact_256 j) in E1; [|lia|rewrite ?plus_INR, ?mult_INR; cbn [INR]; lra|reflexivity].
    rewrite E1. unfold in_256. f_equal. rewrite ?plus_INR, ?mult_INR; cbn [INR]; lra. }
  subst ds. rewrite zero_256 in A. apply added_256 in A; [|rewrite total_somes; lia]. cbn [Nat.add] in A. rewrite total_somes in A.
  split; [|exists (total_of (map or_zero l)); now split]. rewrite map_map, (map_ext _ (fun c => in_256 (4 * or_zero c)) black_quarter), <- (map_map or_zero (fun j => in_256 (4 * j))). now apply mean_256.
Qed.

Section Main.
  Variables (wide : bool) (X : externals) (Sx : lane_functions) (tg : target) (junk : vec) (mad : mul_adder) (cosine sine : datum -> datum -> Prop).
  Hypothesis HW : works_lanewise X Sx.
  Hypothesis HFL : follows_llvm Sx.
  Hypothesis HSL : ~ uses_sleef tg.
  Hypothesis HM : mul_adde_is tg Sx mad.
  Hypothesis HJ : is_vector (f32xN wide) junk.
  Hypothesis HT : trig_is Sx cosine sine.
  Local Notation N := (vn (f32xN wide)).
  Context {St : Type}.
  Variables (sc : scene St) (ok : St -> Prop).
  Hypothesis HSC : is_scene sc.
  Hypothesis HE : endless_packets wide sc ok.

  Section Any.
    Variables (ns w h : nat).
    Hypothesis Hnao : Z.of_nat (nao sc * nao sc) <= 2 ^ 24.
    Hypothesis Hw : Z.of_nat w <= 2 ^ 24.
    Hypothesis Hh : Z.of_nat h <= 2 ^ 24.
    Hypothesis Hn : Z.of_nat ns <= 2 ^ 24.
    Hypothesis HN : (w mod N = 0)%nat.
    Local Notation seen := (packets_seen wide mad cosine sine sc w h ns).
    Lemma whole_packets : w = (w / N * N)%nat.
    Proof. pose proof (N_pos wide) as NP. rewrite (Nat.div_mod w N) at 1 by (clear - NP; lia). rewrite HN, Nat.add_0_r. apply Nat.mul_comm. Qed.
    Theorem tiled_ao_ok image : length image = (3 * (h * w))%nat -> Forall is_f32 image -> forall st, ok st ->
      exists csls new st', tiled_ao wide false X tg junk sc ns w h image st = Ok (new, st') /\ in_turn seen (grid h (w / N)) st csls st' /\
        painted (scaled_hits ns) image (concat (map (pixels_of wide) csls)) new /\ ok st'.
    Proof.
      intros L F st O. exact (tiled_serial wide X Sx tg junk mad cosine sine HW HFL HSL HM HJ HT sc ok ns w h HSC HE Hnao Hw Hh Hn _ whole_packets image st (conj L F) O).
    Qed.
    Theorem tiled_par_ao_ok image : length image = (3 * (h * w))%nat -> Forall is_f32 image ->
      forall start, (forall y, ok (start y)) -> (0 < w)%nat ->
      forall schedule, complete h (w / N * (ns * ns)) schedule ->
      exists csss new, tiled_par_ao wide false X tg junk sc ns w h schedule start image = Ok new /\ length csss = h /\
        painted (scaled_hits ns) image (concat (map (pixels_of wide) (concat csss))) new /\
        forall y csls, nth_error csss y = Some csls -> exists st', in_turn seen (map (pair y) (seq 0 (w / N))) (start y) csls st'.
    Proof.
      intros L F start O W schedule [FS CS].
      exact (tiled_parallel wide X Sx tg junk mad cosine sine HW HFL HSL HM HJ HT sc ok ns w h HSC HE Hnao Hw Hh Hn _ whole_packets schedule start image (conj L F) O W FS CS).
    Qed.
    Theorem tiled_schedules image : length image = (3 * (h * w))%nat -> Forall is_f32 image ->
      forall start, (forall y, ok (start y)) -> (0 < w)%nat ->
      forall l1 l2, complete h (w / N * (ns * ns)) l1 -> complete h (w / N * (ns * ns)) l2 ->
      tiled_par_ao wide false X tg junk sc ns w h l1 start image = tiled_par_ao wide false X tg junk sc ns w h l2 start image.
    Proof.
      intros L F start O W l1 l2 H1 H2.
      exact (tiled_any_schedule wide X Sx tg junk mad cosine sine HW HFL HSL HM HJ HT sc ok ns w h HSC HE Hnao Hw Hh Hn _ whole_packets l1 l2 start image (conj L F) O W
        (fun l Hl => match Hl with or_introl e => eq_ind_r (complete h (w / N * (ns * ns))) H1 e | or_intror e => eq_ind_r (complete h (w / N * (ns * ns))) H2 e end)).
    Qed.
  End Any.

  Section Program.
    Variables (w h : nat).
    Hypothesis H8 : nao sc = 8%nat.
    Hypothesis Hw : Z.of_nat w <= 2 ^ 24.
    Hypothesis Hh : Z.of_nat h <= 2 ^ 24.
    Hypothesis HN : (w mod N = 0)%nat.
    Local Notation seen := (packets_seen wide mad cosine sine sc w h 2).
    Lemma nao_t : Z.of_nat (nao sc * nao sc) <= 2 ^ 24.
    Proof. rewrite H8. vm_compute. discriminate. Qed.
    Lemma packet_values x y uv st cs st' : packet_seen wide mad cosine sine sc w h 2 x y uv st cs st' ->
      length cs = N /\ Forall (fun c => exists o, (or_zero o <= 64)%nat /\ c = quarter_of o) cs.
    Proof.
      intros (is_ & L1 & L2 & _ & H). split; [exact L2|]. destruct H as [(_ & F & _)|(_ & ps & _ & _ & LP & H)].
      - apply Forall_forall. intros c I. rewrite Forall_forall in F. rewrite (F c I). exists None. split; [apply Nat.le_0_l|reflexivity].
      - apply Forall_forall. intros c I. apply In_nth_error in I. destruct I as [k E].
        assert (K : (k < length is_)%nat) by (rewrite L1, <- L2; apply nth_error_Some; congruence).
        destruct (nth_error is_ k) as [i|] eqn:EI; [|apply nth_error_None in EI; lia].
        destruct (H k i EI) as [[_ E']|(_ & hs & c' & E' & F2 & FS)]; rewrite E in E'.
        + exists None. split; [apply Nat.le_0_l|]. cbn [quarter_of option_map]. congruence.
        + rewrite H8 in *. change (8 * 8)%nat with 64%nat in *. destruct (share_256 hs c') as (j & J & ->); [|exact FS|].
          * apply Forall2_length in F2. apply (Nat.le_trans _ _ _ (count_length hs)). rewrite <- F2. apply Nat.eq_le_incl. exact LP.
          * exists (Some j). split; [exact J|]. cbn [quarter_of option_map]. congruence.
    Qed.
    Lemma pixels_quads a st b st' : seen a st b st' -> Forall quad_hits (pixels_of wide b).
    Proof.
      intros H. unfold packets_seen in H. apply Forall_forall. intros cs I. unfold pixels_of in I. apply in_map_iff in I. destruct I as (k & <- & K). apply in_seq in K.
      pose proof (in_turn_length _ _ _ _ _ H) as L. change (length (grid 2 2)) with 4%nat in L.
      enough (G : exists l, Forall (fun c => (or_zero c <= 64)%nat) l /\ map (fun cs => nth k cs None) b = map quarter_of l).
      { destruct G as (l & F & E). exists l. split; [|now split]. rewrite <- (map_length quarter_of l), <- E, map_length. exact L. }
      clear L. induction H as [|uv l st b st1 bs st' R T IH]; [exists []; now split|].
      destruct IH as (l' & F & E). destruct (packet_values _ _ _ _ _ _ R) as [LB FB]. rewrite Forall_forall in FB.
      destruct (FB (nth k b None)) as (o & O1 & O2); [apply nth_In; lia|]. exists (o :: l'). split; [now constructor|]. cbn [map]. now rewrite O2, E.
    Qed.
    Lemma fresh_tiled (csls : list (list (list (option datum)))) new : Forall (fun b => Forall quad_hits (pixels_of wide b)) csls -> length csls = (h * (w / N))%nat ->
      painted (scaled_hits 2) (fdata (image_new w h)) (concat (map (pixels_of wide) csls)) new ->
      averages (h * w) (map (map or_black) (concat (map (pixels_of wide) csls))) new.
    Proof.
      intros Q L P. rewrite fresh_repeat in P. set (css := concat (map (pixels_of wide) csls)) in *.
      assert (LC : length css = (h * w)%nat).
      { unfold css. rewrite (concat_rows N); [rewrite map_length, L; rewrite (whole_packets w HN) at 2; lia|].
        apply Forall_forall. intros l I. apply in_map_iff in I. destruct I as (b & <- & _). apply pixels_length. }
      assert (QC : Forall quad_hits css).
      { unfold css. apply Forall_concat. apply Forall_forall. intros l I. apply in_map_iff in I. destruct I as (b & <- & I). rewrite Forall_forall in Q. now apply Q. }
      destruct P as (P1 & P2 & P3). rewrite repeat_length in P1. split; [now rewrite map_length|]. split; [exact P1|]. split; [exact P2|].
      intros k c cs q C E EQ. rewrite nth_error_map in E. destruct (nth_error css k) as [cs0|] eqn:EC; [|discriminate E]. cbn [option_map] in E.
      assert (ECS : cs = map or_black cs0) by congruence. subst cs.
      assert (Q0 : quad_hits cs0) by (rewrite Forall_forall in QC; apply QC; eapply nth_error_In; exact EC).
      assert (K : (k < h * w)%nat) by (rewrite <- LC; apply nth_error_Some; congruence).
      split; [destruct Q0 as (l & L4 & _ & ->); now rewrite !map_length|].
      apply scaled_hits_exactly; [exact Q0|]. rewrite <- d_0. apply (P3 k c cs0 f32_0 q C EC); [|exact EQ]. apply nth_error_repeat. lia.
    Qed.
    Theorem main_tiled st : ok st ->
      exists csls new st', tiled_ao wide false X tg junk sc 2 w h (fdata (image_new w h)) st = Ok (new, st') /\ in_turn seen (grid h (w / N)) st csls st' /\ ok st' /\
        averages (h * w) (map (map or_black) (concat (map (pixels_of wide) csls))) new.
    Proof.
      intros O. destruct (tiled_ao_ok 2 w h nao_t Hw Hh ltac:(vm_compute; discriminate) HN (fdata (image_new w h)) (fresh_length w h) (fresh_f32 w h) st O) as (csls & new & st' & E & T & P & O').
      exists csls, new, st'. split; [exact E|]. split; [exact T|]. split; [exact O'|]. apply fresh_tiled; [|rewrite (in_turn_length _ _ _ _ _ T); apply grid_length|exact P].
      exact (in_turn_all seen (fun b => Forall quad_hits (pixels_of wide b)) pixels_quads _ _ _ _ T).
    Qed.
    Theorem main_tiled_par start : (forall y, ok (start y)) -> (0 < w)%nat ->
      forall schedule, complete h (w / N * 4) schedule ->
      exists csss new, tiled_par_ao wide false X tg junk sc 2 w h schedule start (fdata (image_new w h)) = Ok new /\ length csss = h /\
        (forall y csls, nth_error csss y = Some csls -> exists st', in_turn seen (map (pair y) (seq 0 (w / N))) (start y) csls st') /\
        averages (h * w) (map (map or_black) (concat (map (pixels_of wide) (concat csss)))) new.
    Proof.
      intros O W schedule CS.
      destruct (tiled_par_ao_ok 2 w h nao_t Hw Hh ltac:(vm_compute; discriminate) HN (fdata (image_new w h)) (fresh_length w h) (fresh_f32 w h) start O W schedule CS) as (csss & new & E & L & P & T).
      exists csss, new. split; [exact E|]. split; [exact L|]. split; [exact T|]. apply fresh_tiled; [| |exact P].
      - apply Forall_concat. apply Forall_forall. intros csls I. apply In_nth_error in I. destruct I as [y I]. destruct (T y csls I) as [st' T'].
        exact (in_turn_all seen (fun b => Forall quad_hits (pixels_of wide b)) pixels_quads _ _ _ _ T').
      - rewrite (concat_rows (w / N)), L; [reflexivity|]. apply Forall_forall. intros csls I. apply In_nth_error in I. destruct I as [y I]. destruct (T y csls I) as [st' T'].
        apply in_turn_length in T'. now rewrite map_length, seq_length in T'.
    Qed.
  End Program.
End Main.

(** *** Widths that are not whole packets *)
Theorem tiled_panics {St} wide debug X tg junk (sc : scene St) ns w h image st schedule start : (w mod vn (f32xN wide) <> 0)%nat ->
  tiled_ao wide debug X tg junk sc ns w h image st = Panic /\ tiled_par_ao wide debug X tg junk sc ns w h schedule start image = Panic.
Proof. intros H. unfold tiled_ao, tiled_par_ao. apply Nat.eqb_neq in H. rewrite H. now split. Qed.
Theorem tiled_par_panics {St} wide debug X tg junk (sc : scene St) ns h image schedule start :
  tiled_par_ao wide debug X tg junk sc ns 0 h schedule start image = Panic.
Proof. unfold tiled_par_ao. cbn [Nat.eqb negb]. rewrite andb_false_r. reflexivity. Qed.

(** *** Debug builds *)
Lemma foreach_release {A S} (b b' : A -> S -> outcome S) : (forall a s x, b a s = Ok x -> b' a s = Ok x) -> forall l s x, foreach l s b = Ok x -> foreach l s b' = Ok x.
Proof.
  intros H l. induction l as [|a l IH]; intros s x; cbn [foreach]; [auto|]. destruct (b a s) as [s1| |] eqn:E; cbn [bind]; [|discriminate..]. rewrite (H _ _ _ E). cbn [bind]. apply IH.
Qed.
Section Debug.
  Variables (wide : bool) (X : externals) (tg : target) (junk : vec).
  Context {St : Type}.
  Variables (sc : scene St).
  Lemma tiled_rays_release ns w h offset x y u v s r : tiled_rays wide true X tg junk sc ns w h offset x y u v s = Ok r -> tiled_rays wide false X tg junk sc ns w h offset x y u v s = Ok r.
  Proof.
    destruct s as [image st]. unfold tiled_rays. cbv zeta. apply bind_debug. intros d1. apply bind_debug. intros d2. intros H.
    destruct (intersects_scene wide true X tg junk (sc_spheres sc) (sc_plane sc) (Rays (v3s_0 wide) d2) (isects_0 wide)) as [i| |] eqn:E; cbn [bind] in H; [|discriminate H..].
    rewrite (scene_release wide X tg junk _ _ _ _ _ E). cbn [bind]. revert H. apply bind_debug. intros []; [|auto]. apply bind_release. intros a. apply ao_tiled_release.
  Qed.
  Theorem tiled_ao_release ns w h image st r : tiled_ao wide true X tg junk sc ns w h image st = Ok r -> tiled_ao wide false X tg junk sc ns w h image st = Ok r.
  Proof.
    unfold tiled_ao. destruct (Nat.eqb _ 0); [|discriminate]. apply foreach_release. intros y s x. apply foreach_release. intros j s' x'. unfold tiled_packet.
    apply foreach_release. intros u s1 x1. apply foreach_release. intros v s2 x2. apply tiled_rays_release.
  Qed.
  Theorem tiled_par_ao_release ns w h schedule start image r :
    tiled_par_ao wide true X tg junk sc ns w h schedule start image = Ok r -> tiled_par_ao wide false X tg junk sc ns w h schedule start image = Ok r.
  Proof.
    unfold tiled_par_ao. destruct (_ && _); [|discriminate]. apply bind_release. intros a. apply foreach_release. intros y [im rows] x.
    destruct (rows y) as [[|[x0 [u v]] rest] st]; [auto|]. apply bind_release. intros r0. apply tiled_rays_release.
  Qed.
  Lemma vector_pixel_release ns w h dir offset x y s r :
    vector_pixel sc ns w h (ao_vector wide true X tg junk sc) dir offset x y s = Ok r -> vector_pixel sc ns w h (ao_vector wide false X tg junk sc) dir offset x y s = Ok r.
  Proof.
    unfold vector_pixel, pixel_rays. cbv zeta. apply foreach_release. intros u s1 x1. apply foreach_release. intros v [im st] x2. apply bind_release. intros a.
    unfold ray_value. cbv zeta. destruct (i_hit _); [|auto]. apply ao_vector_release.
  Qed.
  Theorem vector_ao_release ns img st r : vector_ao sc ns img wide true X tg junk st = Ok r -> vector_ao sc ns img wide false X tg junk st = Ok r.
  Proof. unfold vector_ao, all_pixels. apply foreach_release. intros y s x. apply foreach_release. intros j s' x'. apply vector_pixel_release. Qed.
  Lemma parts_release (b b' : nat -> list Z -> outcome (list Z)) n : (forall y l x, b y l = Ok x -> b' y l = Ok x) -> forall fuel y l x, parts b n fuel y l = Ok x -> parts b' n fuel y l = Ok x.
  Proof.
    intros H. induction fuel as [|fuel IH]; intros y l x; cbn [parts]; [auto|]. destruct l as [|c l]; [auto|].
    destruct (b y (firstn n (c :: l))) as [r| |] eqn:E; cbn [bind]; [|discriminate..]. rewrite (H _ _ _ E). cbn [bind].
    destruct (parts b n fuel (S y) (skipn n (c :: l))) as [r'| |] eqn:E'; cbn [bind]; [|discriminate..]. rewrite (IH _ _ _ E'). auto.
  Qed.
  Theorem vector_par_ao_release ns img start r : vector_par_ao sc ns img wide true X tg junk start = Ok r -> vector_par_ao sc ns img wide false X tg junk start = Ok r.
  Proof.
    unfold vector_par_ao, par_chunks. destruct (3 * img_w img)%nat; [discriminate|]. apply parts_release. intros y l x. unfold row_pixels. destruct (Nat.eqb _ _); [|discriminate].
    apply bind_release. intros a. apply foreach_release. intros j s' x'. apply vector_pixel_release.
  Qed.
End Debug.
