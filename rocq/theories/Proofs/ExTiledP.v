(** The images of the ambient occlusion example: packets of rays. *)
From Coq Require Import ZArith List Bool Lia Reals Lra.
From Verif.Model Require Import Base FloatLane Llvm Tables MathTables Math Minimal MaskReduce Ops Cmp Float Reduce ExStencil ExRandom ExGeometry ExIntersect ExOcclusion ExImage.
From Verif.Spec Require Import Spec Floats MathSpec Examples Stencil Rays Occlusion Picture.
From Verif.Proofs Require Import Lib MinimalP FloatP FloatVecP MathApiP ExMandelbrotP ExPacketP ExIntersectP ExIntersectMainP ExIntersectTopP ExBasisP ExHemisphereP ExOcclusionP ExOcclusionPacketP ExSceneP ExSceneTopP ExImageP ExImageTopP.
Import ListNotations.
Open Scope Z_scope.
Local Notation pat := (pattern 4).
Local Notation dat := f32_datum.
Local Opaque fl_add fl_sub fl_mul fl_div fl_sqrt fl_lt fl_gt fl_ge fl_abs f32_neg.

(** *** Reading and writing some cells *)
Lemma nth_error_update_same (l : list Z) k v : (k < length l)%nat -> nth_error (Base.update l k v) k = Some v.
Proof. revert k. induction l as [|a l IH]; intros [|k] H; cbn [length] in H; try lia; cbn [Base.update nth_error]; [reflexivity|]. apply IH. lia. Qed.
Lemma nth_error_update_other (l : list Z) k v j : j <> k -> nth_error (Base.update l k v) j = nth_error l j.
Proof. revert k j. induction l as [|a l IH]; intros [|k] [|j] H; cbn [Base.update nth_error]; try reflexivity; try lia. apply IH. lia. Qed.
Lemma update_len (l : list Z) k v : length (Base.update l k v) = length l.
Proof. revert k. induction l as [|a l IH]; intros [|k]; cbn [Base.update length]; try reflexivity. now rewrite IH. Qed.

Lemma truth_0 u : (mlane 4 u =? 0) = negb u.
Proof. destruct u; reflexivity. Qed.

Section Cells.
  Variables (ix : nat -> nat) (u : nat -> bool).
  Lemma read_cells (image : list Z) (d : nat -> Z) (L : list nat) : (forall k, In k L -> u k = true -> (ix k < length image)%nat) ->
    read_img image (map ix L) (map (fun k => mlane 4 (u k)) L) (map d L) = Ok (map (fun k => if u k then nth (ix k) image 0 else d k) L).
  Proof.
    induction L as [|k L IH]; intros H; cbn [map read_img]; [reflexivity|]. rewrite truth_0. rewrite IH by (intros j J; apply H; now right).
    destruct (u k) eqn:E; cbn [negb].
    - rewrite (nth_error_nth' image 0) by (apply H; [now left|exact E]). reflexivity.
    - reflexivity.
  Qed.
  Lemma write_cells (v : nat -> Z) (L : list nat) : (forall j k, ix j = ix k -> j = k) -> NoDup L ->
    forall image : list Z, (forall k, In k L -> u k = true -> (ix k < length image)%nat) ->
    exists new, write_img image (map ix L) (map (fun k => mlane 4 (u k)) L) (map v L) = Ok new /\ length new = length image /\
      (forall k, In k L -> u k = true -> nth_error new (ix k) = Some (v k)) /\
      (forall j, (forall k, In k L -> u k = true -> j <> ix k) -> nth_error new j = nth_error image j).
  Proof.
    intros INJ ND. induction ND as [|k L NI ND IH]; intros image H; cbn [map write_img].
    - exists image. split; [reflexivity|]. split; [reflexivity|]. split; [intros k []|reflexivity].
    - rewrite truth_0. destruct (u k) eqn:E; cbn [negb].
      + assert (K : (ix k < length image)%nat) by (apply H; [now left|exact E]). rewrite (nth_error_nth' image 0) by exact K. cbn [bind].
        destruct (IH (Base.update image (ix k) (v k))) as (new & EN & LN & W & O).
        { intros j J U. rewrite update_len. apply H; [now right|exact U]. }
        exists new. split; [exact EN|]. rewrite update_len in LN. split; [exact LN|]. split.
        * intros j [->|J] U; [|now apply W]. rewrite O; [now apply nth_error_update_same|]. intros i I _ X. apply INJ in X. subst i. contradiction.
        * intros j J. rewrite O by (intros i I U; apply J; [now right|exact U]). apply nth_error_update_other. apply J; [now left|exact E].
      + cbn [bind]. destruct (IH image) as (new & EN & LN & W & O); [intros j J U; apply H; [now right|exact U]|].
        exists new. split; [exact EN|]. split; [exact LN|]. split.
        * intros j [->|J] U; [congruence|now apply W].
        * intros j J. apply O. intros i I U. apply J; [now right|exact U].
  Qed.
End Cells.

(** The cells of pixels [base] to [base + n]: pixel [base + k] changes by [F k]; nothing else changes. *)
Definition redrawn (base n : nat) (F : nat -> Z -> Z) (image new : list Z) : Prop :=
  length new = length image /\
  forall j p, nth_error image j = Some p ->
    nth_error new j = Some (if (base <=? j / 3)%nat && (j / 3 <? base + n)%nat then F (j / 3 - base)%nat p else p).
Lemma redrawn_trans base n F G image i1 new : redrawn base n F image i1 -> redrawn base n G i1 new -> redrawn base n (fun k p => G k (F k p)) image new.
Proof.
  intros [L1 H1] [L2 H2]. split; [congruence|]. intros j p E. specialize (H1 j p E). rewrite (H2 _ _ H1). destruct (_ && _); reflexivity.
Qed.
Lemma redrawn_id base n F image : (forall k p, F k p = p) -> redrawn base n F image image.
Proof. intros H. split; [reflexivity|]. intros j p E. rewrite E, H. now destruct (_ && _). Qed.

Section Packets.
  Variables (wide : bool) (X : externals) (Sx : lane_functions) (tg : target) (junk : vec) (mad : mul_adder) (cosine sine : datum -> datum -> Prop).
  Hypothesis HW : works_lanewise X Sx.
  Hypothesis HFL : follows_llvm Sx.
  Hypothesis HSL : ~ uses_sleef tg.
  Hypothesis HM : mul_adde_is tg Sx mad.
  Hypothesis HJ : is_vector (f32xN wide) junk.
  Hypothesis HT : trig_is Sx cosine sine.
  Local Notation f := (f32xN wide).
  Local Notation N := (vn (f32xN wide)).
  Local Notation Ls := (Ls wide).

  (** *** The image *)
  Definition cell (base c k : nat) : nat := (3 * base + (c + k * 3))%nat.
  Lemma cells_at base c : map (fun k => 3 * base + k)%nat (incr_usize wide c 3) = map (cell base c) Ls.
  Proof. unfold incr_usize. now rewrite map_map. Qed.
  Definition add_lanes (base : nat) (hit ret : vec) (image : list Z) : outcome (list Z) :=
    img_r <- read_img image (map (fun k => 3 * base + k)%nat (incr_usize wide 0 3)) hit (splat f f32_0) ;;
    img_g <- read_img image (map (fun k => 3 * base + k)%nat (incr_usize wide 1 3)) hit (splat f f32_0) ;;
    img_b <- read_img image (map (fun k => 3 * base + k)%nat (incr_usize wide 2 3)) hit (splat f f32_0) ;;
    image <- write_img image (map (fun k => 3 * base + k)%nat (incr_usize wide 0 3)) hit (add f img_r ret) ;;
    image <- write_img image (map (fun k => 3 * base + k)%nat (incr_usize wide 1 3)) hit (add f img_g ret) ;;
    write_img image (map (fun k => 3 * base + k)%nat (incr_usize wide 2 3)) hit (add f img_b ret).
  Lemma cell_range base (image : list Z) c k : (3 * (base + N) <= length image)%nat -> (c < 3)%nat -> In k Ls -> (cell base c k < length image)%nat.
  Proof. intros L C K. apply Ls_In in K. unfold cell. lia. Qed.
  Lemma cell_inj base c j k : cell base c j = cell base c k -> j = k.
  Proof. unfold cell. lia. Qed.
  Lemma Ls_nodup : NoDup Ls.
  Proof. apply seq_NoDup. Qed.
  Lemma add_lanes_ok base u ret image : (3 * (base + N) <= length image)%nat ->
    exists new, add_lanes base (map (fun k => mlane 4 (u k)) Ls) (map ret Ls) image = Ok new /\
      redrawn base N (fun k p => if u k : bool then fl_add 4 p (ret k) else p) image new.
  Proof.
    intros L. unfold add_lanes. rewrite !cells_at. rewrite !(o_splat wide Ls (Ls_len wide)).
    rewrite !read_cells by (intros k K _; apply cell_range; [exact L|lia|exact K]). cbn [bind].
    rewrite !o_add.
    set (v := fun c k => fl_add 4 (if u k then nth (cell base c k) image 0 else f32_0) (ret k)).
    destruct (write_cells (cell base 0) u (v 0%nat) Ls (cell_inj base 0) Ls_nodup image) as (i1 & E1 & L1 & W1 & O1);
      [intros k K _; apply cell_range; [exact L|lia|exact K]|].
    change (fun k => fl_add 4 (if u k then nth (cell base 0 k) image 0 else f32_0) (ret k)) with (v 0%nat). rewrite E1. cbn [bind].
    destruct (write_cells (cell base 1) u (v 1%nat) Ls (cell_inj base 1) Ls_nodup i1) as (i2 & E2 & L2 & W2 & O2);
      [intros k K _; rewrite L1; apply cell_range; [exact L|lia|exact K]|].
    change (fun k => fl_add 4 (if u k then nth (cell base 1 k) image 0 else f32_0) (ret k)) with (v 1%nat). rewrite E2. cbn [bind].
    destruct (write_cells (cell base 2) u (v 2%nat) Ls (cell_inj base 2) Ls_nodup i2) as (i3 & E3 & L3 & W3 & O3);
      [intros k K _; rewrite L2, L1; apply cell_range; [exact L|lia|exact K]|].
    change (fun k => fl_add 4 (if u k then nth (cell base 2 k) image 0 else f32_0) (ret k)) with (v 2%nat). rewrite E3.
    exists i3. split; [reflexivity|]. split; [congruence|]. intros j p EP.
    assert (D : j = (3 * (j / 3) + j mod 3)%nat) by (apply Nat.div_mod; lia). assert (M : (j mod 3 < 3)%nat) by (apply Nat.mod_upper_bound; lia).
    assert (OUT : forall k c, In k Ls -> u k = true -> j = cell base c k -> (c < 3)%nat -> (k = j / 3 - base /\ c = j mod 3 /\ base <= j / 3 < base + N)%nat).
    { intros k c K U J C. apply Ls_In in K. unfold cell in J. clear - D M J C K. lia. }
    destruct ((base <=? j / 3)%nat && (j / 3 <? base + N)%nat) eqn:IN.
    - apply andb_true_iff in IN. destruct IN as [I1 I2]. apply Nat.leb_le in I1. apply Nat.ltb_lt in I2. set (k := (j / 3 - base)%nat) in *.
      assert (K : In k Ls) by (apply in_seq; unfold k; lia).
      destruct (u k) eqn:U.
      + assert (V : forall c, j = cell base c k -> v c k = fl_add 4 p (ret k)).
        { intros c J. unfold v. rewrite U, <- J. rewrite (nth_error_nth image j 0 EP). reflexivity. }
        assert (J : j = cell base (j mod 3) k) by (unfold cell, k; lia).
        assert (NE : forall c c' k', c <> c' -> (c < 3)%nat -> (c' < 3)%nat -> cell base c k <> cell base c' k') by (intros; unfold cell; lia).
        destruct (j mod 3)%nat as [|[|[|]]] eqn:EM; [| | |lia].
        * rewrite J, O3 by (intros; apply NE; lia). rewrite O2 by (intros; apply NE; lia). rewrite (W1 k K U). f_equal. now apply V.
        * rewrite J, O3 by (intros; apply NE; lia). rewrite (W2 k K U). f_equal. now apply V.
        * rewrite J, (W3 k K U). f_equal. now apply V.
      + assert (G : forall c, (c < 3)%nat -> forall k', In k' Ls -> u k' = true -> j <> cell base c k').
        { intros c C k' K' U' J. destruct (OUT k' c K' U' J C) as (-> & _). congruence. }
        rewrite O3 by (apply (G 2%nat); lia). rewrite O2 by (apply (G 1%nat); lia). rewrite O1 by (apply (G 0%nat); lia). exact EP.
    - assert (G : forall c, (c < 3)%nat -> forall k', In k' Ls -> u k' = true -> j <> cell base c k').
      { intros c C k' K' U' J. destruct (OUT k' c K' U' J C) as (_ & _ & R). rewrite andb_false_iff, Nat.leb_gt, Nat.ltb_ge in IN. lia. }
      rewrite O3 by (apply (G 2%nat); lia). rewrite O2 by (apply (G 1%nat); lia). rewrite O1 by (apply (G 0%nat); lia). exact EP.
  Qed.

  (** *** The rays *)
  Context {St : Type}.
  Variables (sc : scene St) (ok : St -> Prop) (ns w h : nat).
  Hypothesis HSC : is_scene sc.
  Hypothesis HE : endless_packets wide sc ok.
  Hypothesis Hnao : Z.of_nat (nao sc * nao sc) <= 2 ^ 24.
  Hypothesis Hw : Z.of_nat w <= 2 ^ 24.
  Hypothesis Hh : Z.of_nat h <= 2 ^ 24.
  Hypothesis Hn : Z.of_nat ns <= 2 ^ 24.

  Lemma one_mul p n : pat p -> dat p = whole n -> Z.of_nat n <= 2 ^ 24 -> pat (fl_mul 4 p f32_1) /\ dat (fl_mul 4 p f32_1) = whole n.
  Proof.
    intros P D H. split; [apply p_mul; [exact P|exact p_1]|]. pose proof (d_mul p f32_1 P p_1) as M. rewrite D, d_1 in M. unfold whole in M. cbn [ieee_mul xorb] in M.
    rewrite Rmult_1_r in M. apply (small_rounds n _ _ H) in M; [exact M|reflexivity].
  Qed.
  Lemma incr_ok x k : Z.of_nat (x + k) <= 2 ^ 24 -> let p := fl_add 4 (usize_f32 x) (fl_mul 4 (usize_f32 k) f32_1) in pat p /\ dat p = whole (x + k).
  Proof.
    intros H p. destruct (whole_ok k) as [K1 K2]; [lia|]. destruct (one_mul _ k K1 K2) as [M1 M2]; [lia|].
    exact (cnt_add _ _ x k (cnt_of x ltac:(lia)) (conj M1 M2) H).
  Qed.
  Definition lane_dir (x y u v k : nat) : v3 :=
    let inv_ns := fl_div 4 f32_1 (usize_f32 ns) in
    let du := fl_mul 4 (usize_f32 u) inv_ns in
    let dv := fl_mul 4 (usize_f32 v) inv_ns in
    V3 (fl_div 4 (fl_add 4 (fl_add 4 (usize_f32 x) (fl_mul 4 (usize_f32 k) f32_1)) (fl_sub 4 du (fl_div 4 (usize_f32 w) f32_2)))
                 (fl_div 4 (fl_mul 4 (fl_div 4 (usize_f32 w) f32_2) (usize_f32 h)) (usize_f32 w)))
       (fl_div 4 (lneg (fl_add 4 (usize_f32 y) (fl_sub 4 dv (fl_div 4 (usize_f32 h) f32_2)))) (fl_div 4 (usize_f32 h) f32_2))
       (f32_neg f32_1).
  Lemma tiled_dir_lanes x y u v : tiled_dir wide ns w h x y u v = Ok (v3s_of Ls (lane_dir x y u v)).
  Proof.
    unfold tiled_dir, incr_f32. rewrite !(o_splat wide Ls (Ls_len wide)).
    change (seq 0 N) with Ls. rewrite o_add, o_div. cbn [bind]. rewrite o_add, (o_neg wide Ls (Ls_len wide)), o_div. cbn [bind]. reflexivity.
  Qed.
  Lemma lane_dir_ok x y u v k : (x + k < w)%nat -> (y < h)%nat -> (u < ns)%nat -> (v < ns)%nat ->
    pat3 (lane_dir x y u v k) /\ view_tiled w h ns (x + k) y u v (point_of (lane_dir x y u v k)).
  Proof.
    intros K Y U V. destruct (incr_ok x k) as [X1 X2]; [lia|]. destruct (whole_ok y) as [Y1 Y2]; [lia|].
    destruct (times_part_ok w h ns Hn u U) as [A1 A2]. destruct (times_part_ok w h ns Hn v V) as [B1 B2].
    destruct (half_div w Hw) as [C1 C2]. destruct (half_div h Hh) as [D1 D2].
    destruct (whole_ok w Hw) as [W1 W2]. destruct (whole_ok h Hh) as [H1 H2]. destruct p_m1 as [M1 M2].
    unfold lane_dir. cbv zeta in X1, X2, A1, A2, B1, B2 |- *.
    set (xk := fl_add 4 (usize_f32 x) (fl_mul 4 (usize_f32 k) f32_1)) in *. set (a := fl_mul 4 (usize_f32 u) _) in *. set (b := fl_mul 4 (usize_f32 v) _) in *.
    set (hw := fl_div 4 (usize_f32 w) f32_2) in *. set (hh := fl_div 4 (usize_f32 h) f32_2) in *.
    assert (P1 : pat (fl_sub 4 a hw)) by now apply p_sub. assert (P2 : pat (fl_add 4 xk (fl_sub 4 a hw))) by now apply p_add.
    assert (P3 : pat (fl_mul 4 hw (usize_f32 h))) by now apply p_mul. assert (P4 : pat (fl_div 4 (fl_mul 4 hw (usize_f32 h)) (usize_f32 w))) by now apply p_div.
    assert (Q1 : pat (fl_sub 4 b hh)) by now apply p_sub. assert (Q2 : pat (fl_add 4 (usize_f32 y) (fl_sub 4 b hh))) by now apply p_add.
    assert (Q3 : pat (lneg (fl_add 4 (usize_f32 y) (fl_sub 4 b hh)))) by now apply p_lneg.
    split.
    - split; [|split]; cbn [vx vy vz]; [now apply p_div|now apply p_div|exact M1].
    - unfold point_of. cbn [vx vy vz]. rewrite M2. exists (dat a), (dat b), (dat hw), (dat hh). eexists _, _, _, _, _, _, _, _.
      split; [exact A2|]. split; [exact B2|]. split; [exact C2|]. split; [exact D2|].
      split; [now apply d_sub|]. split; [rewrite <- X2; now apply d_add|]. split; [rewrite <- H2; now apply d_mul|].
      split; [rewrite <- W2; now apply d_div|]. split; [now apply d_div|].
      split; [now apply d_sub|]. split; [rewrite <- Y2; now apply d_add|]. split; [|reflexivity].
      rewrite <- d_lneg by exact Q2. now apply d_div.
  Qed.

  (** What the rays of a packet meet. *)
  Lemma packet_sees x y u v : (x + N <= w)%nat -> (y < h)%nat -> (u < ns)%nat -> (v < ns)%nat ->
    exists dir i, tiled_dir wide ns w h x y u v = Ok dir /\ exists dir', normalizeds wide X tg dir = Ok dir' /\
      intersects_scene wide false X tg junk (sc_spheres sc) (sc_plane sc) (Rays (v3s_0 wide) dir') (isects_0 wide) = Ok i /\ is_isects wide i /\
      forall k, (k < N)%nat -> exists d, view_tiled w h ns (x + k) y u v d /\ sees (nested mad) mad (objects sc) d (isect_at i k).
  Proof.
    intros XW Y U V. destruct (find_lane_ops wide X Sx tg junk mad HW HFL HSL HM HJ) as (M & Q & HO).
    assert (LD : forall k, In k Ls -> pat3 (lane_dir x y u v k) /\ view_tiled w h ns (x + k) y u v (point_of (lane_dir x y u v k))).
    { intros k K. apply Ls_In in K. apply lane_dir_ok; [lia|exact Y|exact U|exact V]. }
    assert (NR : forall a, pat3 a -> pat3 (lnormalized M a) /\ unit_vector (nested mad) (point_of a) (point_of (lnormalized M a))).
    { intros a A. rewrite lnormalized_nrm. apply (nrm_ok (nested mad) (ldot M) lscale); [|exact lane_scale|exact A].
      intros p q. exact (lane_dot wide X tg junk mad M Q HO p q). }
    exists (v3s_of Ls (lane_dir x y u v)).
    assert (I0 : isects_0 wide = isects_of Ls (fun _ => isect_0)).
    { unfold isects_0, isects_of, v3s_0, v3s_of. cbn [isect_0 i_t i_p i_n i_hit v3_0 vx vy vz].
      rewrite !(o_splat wide Ls (Ls_len wide)). f_equal. rewrite mask_splat_repeat, m_b, m_n.
      apply (repeat_map _ Ls). apply Ls_len. }
    assert (V0 : v3s_0 wide = v3s_of Ls (fun _ => v3_0)).
    { unfold v3s_0, v3s_of. cbn [v3_0 vx vy vz]. now rewrite !(o_splat wide Ls (Ls_len wide)). }
    assert (EN : normalizeds wide X tg (v3s_of Ls (lane_dir x y u v)) = Ok (v3s_of Ls (fun k => lnormalized M (lane_dir x y u v k)))).
    { apply (o_normal wide X tg junk mad M Q HO Ls (Ls_len wide)). intros k K. apply LD. exact K. }
    set (dir' := v3s_of Ls (fun k => lnormalized M (lane_dir x y u v k))) in *.
    assert (R : is_rays wide (Rays (v3s_0 wide) dir')).
    { split; cbn [rs_origin rs_dir]; [rewrite V0|]; apply of_v3s; intros k K; [exact v3_0_ok|]. apply NR, LD, K. }
    assert (I : is_isects wide (isects_0 wide)) by (rewrite I0; apply of_isects; intros k K; exact isect_0_ok).
    destruct (scene_packet wide X Sx tg junk mad HW HFL HSL HM HJ _ _ (sc_spheres sc) (sc_plane sc) R I (proj2 HSC) (proj1 HSC)) as (i & E & I' & Rel).
    exists i. split; [apply tiled_dir_lanes|]. exists dir'. split; [exact EN|]. split; [exact E|]. split; [exact I'|].
    intros k K. assert (IK : In k Ls) by (apply in_seq; lia). destruct (LD k IK) as [P1 P2]. destruct (NR _ P1) as [N1 N2].
    exists (point_of (lane_dir x y u v k)). split; [exact P2|].
    destruct (Rel k (Ray v3_0 (lnormalized M (lane_dir x y u v k))) isect_0) as (j & Lj & H).
    - split; cbn [rs_origin rs_dir r_origin r_dir]; [rewrite V0; apply (of_v3_lane wide (fun _ => v3_0)); exact K|].
      apply (of_v3_lane wide (fun k => lnormalized M (lane_dir x y u v k))). exact K.
    - rewrite I0. apply (of_isect_lane wide (fun _ => isect_0)). exact K.
    - apply (isect_lane_eq wide) in Lj as [_ ->]; [|exact I']. eexists. split; [|split; [|exact H]]; [reflexivity|exact N2].
  Qed.

  Local Notation ii := (fl_mul 4 (fl_div 4 f32_1 (usize_f32 ns)) (fl_div 4 f32_1 (usize_f32 ns))).
  Definition lane_values (hc : (nat -> bool) * (nat -> Z)) : list (option datum) := map (fun k => if fst hc k then Some (dat (snd hc k)) else None) Ls.
  Definition add_one (k : nat) (s : Z) (hc : (nat -> bool) * (nat -> Z)) : Z := if fst hc k then fl_add 4 s (fl_mul 4 (snd hc k) ii) else s.
  Lemma at_lane {A} (g : nat -> A) k b : nth_error (map g Ls) k = Some b -> (k < N)%nat /\ b = g k.
  Proof.
    intros E. assert (K : (k < N)%nat) by (rewrite <- (Ls_len wide), <- (map_length g); apply nth_error_Some; congruence). split; [exact K|].
    rewrite nth_error_map, (nth_error_nth' Ls 0%nat) in E by (rewrite Ls_len; exact K). unfold ExIntersectTopP.Ls in E. rewrite seq_nth in E by exact K. cbn [option_map Nat.add] in E. congruence.
  Qed.
  Lemma lane_at {A} (g : nat -> A) k : (k < N)%nat -> nth_error (map g Ls) k = Some (g k).
  Proof.
    intros K. rewrite nth_error_map, (nth_error_nth' Ls 0%nat) by (rewrite Ls_len; exact K). unfold ExIntersectTopP.Ls. rewrite seq_nth by exact K. reflexivity.
  Qed.

  Lemma tiled_rays_ok x y u v st : (x + N <= w)%nat -> (y < h)%nat -> (u < ns)%nat -> (v < ns)%nat -> ok st ->
    exists hc st', (forall k, (k < N)%nat -> pat (snd hc k)) /\ packet_seen wide mad cosine sine sc w h ns x y (u, v) st (lane_values hc) st' /\ ok st' /\
      forall base image, (3 * (base + N) <= length image)%nat ->
        exists new, tiled_rays wide false X tg junk sc ns w h (3 * base) x y u v (image, st) = Ok (new, st') /\
          redrawn base N (fun k p => add_one k p hc) image new.
  Proof.
    intros XW Y U V O. destruct (packet_sees x y u v XW Y U V) as (dir & i & E1 & dir' & E2 & E3 & I & SE).
    set (hit := fun k => i_hit (isect_at i k)).
    assert (HH : is_hit i = map (fun k => mlane 4 (hit k)) Ls) by (apply hit_at; apply I).
    destruct (existsb hit Ls) eqn:EX.
    - destruct (endless_packet_draws wide sc ok HE (nao sc * nao sc) st O) as (ps & st' & D & LP & AP & O').
      destruct (ao_tiled_ok wide X Sx tg junk mad cosine sine HW HFL HSL HM HJ HT sc i st ps st' HSC I D AP LP Hnao) as (r & EA & [RL RF] & HR).
      assert (ER : r = map (fun k => nth k r 0) Ls) by (apply Ls_lane; exact RL).
      assert (PR : forall k, (k < N)%nat -> pat (nth k r 0)) by (intros k K; apply at_pat with (wide := wide); [split; assumption|exact K]).
      exists (hit, fun k => nth k r 0), st'. split; [exact PR|]. split; [|split; [exact O'|]].
      + exists (map (isect_at i) Ls). split; [now rewrite map_length, Ls_len|]. split; [unfold lane_values; now rewrite map_length, Ls_len|]. split.
        * intros k b EB. apply at_lane in EB. destruct EB as [K ->]. exact (SE k K).
        * right. split.
          -- apply Exists_exists. apply existsb_exists in EX. destruct EX as (k & K & HK). exists (isect_at i k). split; [now apply in_map|exact HK].
          -- exists ps. split; [exact D|]. split; [exact AP|]. split; [exact LP|]. intros k b EB. apply at_lane in EB. destruct EB as [K ->].
             unfold lane_values. rewrite lane_at by exact K. cbn [fst snd]. fold (hit k). destruct (hit k) eqn:EH; [right|left; split; reflexivity].
             split; [reflexivity|].
             destruct (HR k (isect_at i k)) as (q & hs & LQ & F2 & FS).
             { rewrite (isects_at wide i I) at 1. apply of_isect_lane. exact K. }
             apply (lane_eq wide) in LQ; [|exact RL]. destruct LQ as [_ ->]. exists hs, (dat (nth k r 0)). split; [reflexivity|]. split; [exact F2|exact FS].
      + intros base image L. unfold tiled_rays. cbv zeta. rewrite E1. cbn [bind]. rewrite E2. cbn [bind]. rewrite E3. cbn [bind].
        rewrite HH, (any_lanes wide tg Ls hit (Ls_len wide)). cbn [bind]. rewrite EX, EA. cbn [bind].
        set (ret := mul f r (splat f ii)).
        assert (EM : ret = map (fun k => fl_mul 4 (nth k r 0) ii) Ls).
        { unfold ret. rewrite ER at 1. rewrite (o_splat wide Ls (Ls_len wide)), o_mul. reflexivity. }
        destruct (add_lanes_ok base hit (fun k => fl_mul 4 (nth k r 0) ii) image L) as (new & EN & RN). rewrite <- EM in EN.
        exists new. split; [|exact RN]. unfold add_lanes in EN.
        repeat match type of EN with (bind ?e _ = _) => let X := fresh in destruct e eqn:X; cbn [bind] in EN |- *; [|discriminate EN|discriminate EN] end.
        rewrite EN. reflexivity.
    - assert (NH : forall k, In k Ls -> hit k = false).
      { intros k K. destruct (hit k) eqn:E; [|reflexivity]. assert (existsb hit Ls = true) by (apply existsb_exists; now exists k). congruence. }
      exists (fun _ => false, fun _ => f32_0), st. split; [intros k _; exact p_0|]. split; [|split; [exact O|]].
      + exists (map (isect_at i) Ls). split; [now rewrite map_length, Ls_len|]. split; [unfold lane_values; now rewrite map_length, Ls_len|]. split.
        * intros k b EB. apply at_lane in EB. destruct EB as [K ->]. exact (SE k K).
        * left. split; [|split; [|reflexivity]].
          -- apply Forall_forall. intros b B. apply in_map_iff in B. destruct B as (k & <- & K). exact (NH k K).
          -- apply Forall_forall. intros b B. apply in_map_iff in B. destruct B as (k & <- & K). reflexivity.
      + intros base image L. exists image. split; [|apply redrawn_id; reflexivity].
        unfold tiled_rays. cbv zeta. rewrite E1. cbn [bind]. rewrite E2. cbn [bind]. rewrite E3. cbn [bind].
        rewrite HH, (any_lanes wide tg Ls hit (Ls_len wide)). cbn [bind]. rewrite EX. reflexivity.
  Qed.

  Definition packet_pats (hcs : list ((nat -> bool) * (nat -> Z))) : Prop := Forall (fun hc => forall k, (k < N)%nat -> pat (snd hc k)) hcs.
  Lemma tiled_packet_ok x y image st : (3 * (y * w + x + N) <= length image)%nat -> (x + N <= w)%nat -> (y < h)%nat -> ok st ->
    exists hcs new st', tiled_packet wide false X tg junk sc ns w h x y (image, st) = Ok (new, st') /\ packet_pats hcs /\
      redrawn (y * w + x) N (fun k p => fold_left (add_one k) hcs p) image new /\
      in_turn (packet_seen wide mad cosine sine sc w h ns x y) (grid ns ns) st (map lane_values hcs) st' /\ ok st'.
  Proof.
    intros L XW Y O. unfold tiled_packet.
    rewrite (foreach_prod (fun u v s => tiled_rays wide false X tg junk sc ns w h (3 * (y * w + x)) x y u v s)). fold (grid ns ns).
    assert (IN : forall p, In p (grid ns ns) -> (fst p < ns)%nat /\ (snd p < ns)%nat) by (intros [a b] I; exact (grid_In _ _ _ _ I)).
    revert IN image L st O. generalize (grid ns ns). intros l. induction l as [|[u v] l IH]; intros IN image L st O; cbn [foreach].
    - exists [], image, st. split; [reflexivity|]. split; [constructor|]. split; [now apply redrawn_id|]. split; [constructor|exact O].
    - destruct (IN (u, v) (or_introl eq_refl)) as [U V]. cbn [fst snd] in *.
      destruct (tiled_rays_ok x y u v st XW Y U V O) as (hc & st1 & P & Q & O1 & G). destruct (G (y * w + x)%nat image L) as (i1 & E & R). rewrite E. cbn [bind].
      destruct (IH (fun p I => IN p (or_intror I)) i1) with (st := st1) as (hcs & new & st' & E' & P' & R' & Q' & O'); [rewrite (proj1 R); exact L|exact O1|].
      exists (hc :: hcs), new, st'. split; [exact E'|]. split; [now constructor|]. split; [exact (redrawn_trans _ _ _ _ _ _ _ R R')|].
      split; [|exact O']. cbn [map]. econstructor; eassumption.
  Qed.

  (** What becomes of a component. *)
  Lemma lane_becomes k hcs : (k < N)%nat -> packet_pats hcs -> forall p, pat p ->
    pat (fold_left (add_one k) hcs p) /\ scaled_hits ns (dat p) (map (fun cs => nth k cs None) (map lane_values hcs)) (dat (fold_left (add_one k) hcs p)).
  Proof.
    intros K P. destruct (inv_ok ns Hn) as [I1 I2]. assert (PI2 : pat ii) by now apply p_mul.
    assert (G : forall p, pat p -> pat (fold_left (add_one k) hcs p) /\ exists ds,
      Forall2 (fun c d => ieee_mul 4 c (dat ii) d) (hits (map (fun cs => nth k cs None) (map lane_values hcs))) ds /\ added (dat p) ds (dat (fold_left (add_one k) hcs p))).
    { induction P as [|hc hcs Hc P IH]; intros p Hp; cbn [fold_left map hits].
      - split; [exact Hp|]. exists []. split; constructor.
      - assert (EN : nth k (lane_values hc) None = if fst hc k then Some (dat (snd hc k)) else None).
        { unfold lane_values. erewrite nth_error_nth; [reflexivity|]. apply (lane_at (fun k => if fst hc k then Some (dat (snd hc k)) else None)). exact K. }
        rewrite EN. unfold add_one at 2 4. destruct (fst hc k); cbn [hits].
        + assert (PM : pat (fl_mul 4 (snd hc k) ii)) by (apply p_mul; [now apply Hc|exact PI2]).
          assert (PA : pat (fl_add 4 p (fl_mul 4 (snd hc k) ii))) by now apply p_add.
          destruct (IH _ PA) as (Q & ds & F & A). split; [exact Q|]. exists (dat (fl_mul 4 (snd hc k) ii) :: ds).
          split; [constructor; [apply d_mul; [now apply Hc|exact PI2]|exact F]|]. econstructor; [|exact A]. now apply d_add.
        + exact (IH p Hp). }
    intros p Hp. destruct (G p Hp) as (Q & ds & F & A). split; [exact Q|]. exists (dat (fl_div 4 f32_1 (usize_f32 ns))), (dat ii), ds.
    split; [exact I2|]. split; [now apply d_mul|]. split; [exact F|exact A].
  Qed.
End Packets.
