(** How much light reaches a point, for packets of rays. *)
From Coq Require Import ZArith List Bool Lia Reals Lra.
From Flocq Require Import Core.
From Verif.Model Require Import Base FloatLane Llvm Tables MathTables Math Minimal MaskReduce Ops Cmp Float Reduce ExStencil ExRandom ExGeometry ExIntersect ExOcclusion.
From Verif.Spec Require Import Spec Floats MathSpec Examples Stencil Rays Occlusion.
From Verif.Proofs Require Import Lib MinimalP ReduceP FloatP FloatOpsP FloatVecP FloatConstsP FloatApi2P MathApiP ExactP ExMandelbrotP ExPacketP ExIntersectP ExIntersectMainP ExIntersectTopP ExIntersectDebugP ExBasisP ExHemisphereP ExOcclusionP.
Import ListNotations.
Open Scope Z_scope.
Local Notation pat := (pattern 4).
Local Notation dat := f32_datum.
Local Notation PI := Rtrigo1.PI.
Local Opaque fl_add fl_sub fl_mul fl_div fl_sqrt fl_lt fl_gt fl_ge fl_abs f32_neg.

Section Packet.
  Variables (wide : bool) (X : externals) (Sx : lane_functions) (tg : target) (junk : vec) (mad : mul_adder).
  Variables (cosine sine : datum -> datum -> Prop).
  Hypothesis HW : works_lanewise X Sx.
  Hypothesis HF : follows_llvm Sx.
  Hypothesis HS : ~ uses_sleef tg.
  Hypothesis HM : mul_adde_is tg Sx mad.
  Hypothesis HJ : is_vector (f32xN wide) junk.
  Hypothesis HT : trig_is Sx cosine sine.
  Local Notation f := (f32xN wide).
  Local Notation N := (vn (f32xN wide)).

  (** *** The external functions *)
  Lemma unary_lanes_of (m : externals -> target -> vec -> vty -> vec -> option vec) fs :
    (forall X S, works_lanewise X S -> maps_lanes f (fun junk v => m X tg junk f v) (l1 S fs)) ->
    (forall (L : list nat) a, length L = N -> (forall k, In k L -> pat (a k)) -> m X tg junk f (map a L) = Some (map (fun k => l1 Sx fs (a k)) L)) /\
    (forall p, pat p -> pat (l1 Sx fs p)).
  Proof.
    intros H. specialize (H X Sx HW).
    assert (G : forall (L : list nat) a, length L = N -> (forall k, In k L -> pat (a k)) ->
      m X tg junk f (map a L) = Some (map (fun k => l1 Sx fs (a k)) L) /\ is_vector f (map (fun k => l1 Sx fs (a k)) L)).
    { intros L a HL Ha. destruct (H (map a L) junk (vector_map wide L a HL Ha) HJ) as (r & E & R).
      rewrite E. rewrite <- (lanes1_map _ L a r _ HL R). split; [reflexivity|exact (proj1 R)]. }
    split.
    - intros L a HL Ha. now apply G.
    - intros p P. destruct (G (L0 wide) (fun _ => p) (L0_len wide) (fun _ _ => P)) as [_ V].
      exact (lane_of_vector wide (L0 wide) _ (L0_len wide) V 0%nat (L0_0 wide junk HJ)).
  Qed.

  Lemma find_trig : exists qe cosl sinl : Z -> Z,
    (forall (L : list nat) a, length L = N -> (forall k, In k L -> pat (a k)) -> method (sqrte X tg junk f (map a L)) = Ok (map (fun k => qe (a k)) L)) /\
    (forall (L : list nat) a, length L = N -> (forall k, In k L -> pat (a k)) ->
       sin_cos_pi X tg junk junk f (map a L) =
         Some (map (fun k => sinl (fl_mul 4 (a k) f32_PI)) L, map (fun k => cosl (fl_mul 4 (a k) f32_PI)) L)) /\
    (forall p, pat p -> pat (qe p) /\ ieee_sqrt 4 (dat p) (dat (qe p))) /\
    (forall p, pat p -> pat (cosl p) /\ cosine (dat p) (dat (cosl p))) /\
    (forall p, pat p -> pat (sinl p) /\ sine (dat p) (dat (sinl p))).
  Proof.
    destruct (unary_methods tg f (f_math wide)) as (_ & U & _). cbv zeta in U.
    destruct (U HS) as (_ & (fc & Ec & Ebc & Elc & Hc) & (fs & Es & Ebs & Els & Hs) & _ & (fq & Eq & Ebq & Elq & Hq) & _).
    destruct (unary_lanes_of cos fc Hc) as [C1 C2]. destruct (unary_lanes_of sin fs Hs) as [S1 S2].
    destruct (unary_lanes_of sqrte fq Hq) as [Q1 Q2]. rewrite f_b in Ebc, Ebs, Ebq.
    exists (l1 Sx fq), (l1 Sx fc), (l1 Sx fs). split; [|split; [|split; [|split]]].
    - intros L a HL Ha. now rewrite Q1.
    - intros L a HL Ha. unfold sin_cos_pi.
      pose proof (sin_cos_pi_entries tg) as T. rewrite forallb_forall in T. pose proof (T f (f_math wide)) as P. cbv beta in P. clear T.
      pose proof (sleef_on_iff tg) as SI. destruct (sleef_on tg); [now contradiction HS; apply SI|].
      unfold is_pi in P. destruct (lookup (sin_cos_pi_table tg) f) as [[]|]; try discriminate. cbv zeta.
      rewrite f_b. fold f32_PI. rewrite (o_splat wide L HL), o_mul.
      rewrite S1, C1; [reflexivity|exact HL| |exact HL|]; intros k K; apply p_mul; auto using p_PI.
    - intros p P. split; [now apply Q2|]. destruct (HF fq Elq) as (_ & H & _); [now left|]. rewrite Ebq in H. apply H; [exact Eq|].
      unfold lane_pattern. rewrite Ebq. exact P.
    - intros p P. split; [now apply C2|]. destruct (HT fc Elc Ebc) as [H _]. now apply H.
    - intros p P. split; [now apply S2|]. destruct (HT fs Els Ebs) as [_ H]. now apply H.
  Qed.

  (** *** What a ray meets *)
  Lemma shot {St} (sc : scene St) o d : is_scene sc ->
    (forall k, In k (Ls wide) -> pat3 (o k)) -> (forall k, In k (Ls wide) -> pat3 (d k)) ->
    exists i' h, intersects_scene wide false X tg junk (sc_spheres sc) (sc_plane sc) (Rays (v3s_of (Ls wide) o) (v3s_of (Ls wide) d)) (isects_0 wide) = Ok i' /\
      is_hit i' = map (fun k => mlane 4 (h k)) (Ls wide) /\
      forall k, In k (Ls wide) -> exists j, nearest (nested mad) mad (Ray (o k) (d k)) (objects sc) isect_0 j /\ h k = i_hit j.
  Proof.
    intros [HP HSp] HO HD.
    assert (I0 : isects_0 wide = isects_of (Ls wide) (fun _ => isect_0)).
    { unfold isects_0, isects_of, v3s_0, v3s_of. cbn [isect_0 i_t i_p i_n i_hit v3_0 vx vy vz].
      rewrite !(o_splat wide (Ls wide) (Ls_len wide)). f_equal. rewrite mask_splat_repeat, m_b, m_n.
      apply (repeat_map _ (Ls wide)). apply Ls_len. }
    assert (R : is_rays wide (Rays (v3s_of (Ls wide) o) (v3s_of (Ls wide) d))).
    { split; cbn [rs_origin rs_dir]; apply of_v3s; assumption. }
    assert (I : is_isects wide (isects_0 wide)) by (rewrite I0; apply of_isects; intros k K; exact isect_0_ok).
    destruct (scene_packet wide X Sx tg junk mad HW HF HS HM HJ _ _ (sc_spheres sc) (sc_plane sc) R I HSp HP) as (i' & E & I' & Rel).
    exists i', (fun k => truth (nth k (is_hit i') 0)). split; [exact E|].
    split; [apply hit_at; apply I'|]. intros k K. apply Ls_In in K.
    destruct (Rel k (Ray (o k) (d k)) isect_0) as (j & Lj & H).
    - split; cbn [rs_origin rs_dir r_origin r_dir]; apply of_v3_lane; exact K.
    - rewrite I0. apply (of_isect_lane wide (fun _ => isect_0)). exact K.
    - exists j. split; [exact H|]. apply (isect_lane_eq wide) in Lj as [_ ->]; [reflexivity|exact I'].
  Qed.

  (** *** The samples *)
  Lemma Ok_same {A} (a b : A) : Ok a = Ok b -> b = a.
  Proof. congruence. Qed.
  Lemma packet_numbers r : is_vector f r -> r = map (fun k => nth k r 0) (Ls wide) /\ forall k, In k (Ls wide) -> pat (nth k r 0).
  Proof. intros [V F]. split; [now apply Ls_lane|]. intros k K. apply Ls_In in K. now apply at_pat with (wide := wide). Qed.

  Definition turn2 (p : Z) : Z := fl_mul 4 (fl_mul 4 f32_2 p) f32_PI.
  Lemma turn2_ok p : pat p -> pat (turn2 p) /\ ieee_mul 4 (Fin false (2 * rounded 4 PI)) (dat p) (dat (turn2 p)).
  Proof. intros P. split; [apply p_mul; [now apply p_mul; [exact p_2|]|exact p_PI]|now apply angle_packet]. Qed.

  Lemma find_hemisphere : exists v : Z -> Z -> v3,
    (forall om r1 r2, (forall a, om (map a (Ls wide)) = map (fun k => fl_sub 4 f32_1 (a k)) (Ls wide)) ->
       is_vector f r1 -> is_vector f r2 ->
       hemisphere wide X tg junk om r1 r2 = Ok (v3s_of (Ls wide) (fun k => v (nth k r1 0) (nth k r2 0)))) /\
    (forall r1 r2, pat r1 -> pat r2 -> pat3 (v r1 r2) /\ hemisphere_point cosine sine (dat r1) (dat r2) (point_of (v r1 r2))).
  Proof.
    destruct (find_lane_ops wide X Sx tg junk mad HW HF HS HM HJ) as (M & Q & HO).
    destruct find_trig as (qe & cosl & sinl & HQ & HSC & PQ & PC & PS).
    exists (hemi qe Q turn2 cosl sinl). split.
    - intros om r1 r2 Hom V1 V2. destruct (packet_numbers r1 V1) as [E1 P1]. destruct (packet_numbers r2 V2) as [E2 P2].
      unfold hemisphere. rewrite E1 at 1. rewrite (HQ _ _ (Ls_len wide) P1). cbn [bind].
      unfold mul_sv. rewrite E2 at 1. rewrite (o_splat wide (Ls wide) (Ls_len wide)), o_mul.
      rewrite (HSC _ _ (Ls_len wide)) by (intros k K; apply p_mul; [exact p_2|auto]).
      rewrite o_mul, Hom. destruct HO as (_ & _ & HV & _).
      rewrite (HV _ _ (Ls_len wide)).
      2: { intros k K. apply p_sub; [exact p_1|]. apply p_mul; apply PQ; auto. }
      cbn [bind]. rewrite !o_mul. reflexivity.
    - intros r1 r2 P1 P2. apply hemi_ok; auto; [|exact turn2_ok].
      destruct HO as (_ & _ & _ & _ & HQ'). exact HQ'.
  Qed.

  Section OneSample.
    Context {St : Type}.
    Variable sc : scene St.
    Hypothesis HSc : is_scene sc.

    Lemma one_minus1 a : sub f (splat f f32_1) (map a (Ls wide)) = map (fun k => fl_sub 4 f32_1 (a k)) (Ls wide).
    Proof. rewrite (o_splat wide (Ls wide) (Ls_len wide)), o_sub. reflexivity. Qed.

    Lemma sample_vector_ok i st r1 r2 st1 : is_isect i -> sc_rands sc st = Ok (r1, r2, st1) -> is_vector f r1 -> is_vector f r2 ->
      let o := v3_add (i_p i) (scale_v3 f32_1em4 (i_n i)) in
      exists h, sample_vector wide false X tg junk sc (ortho_basis (i_n i)) (V3s (splat f (vx o)) (splat f (vy o)) (splat f (vz o))) st =
          Ok (map (fun k => if h k : bool then f32_1 else f32_0) (Ls wide), st1) /\
        forall k, In k (Ls wide) -> sampled left_to_right (nested mad) mad cosine sine (objects sc) i (nth k r1 0) (nth k r2 0) (h k).
    Proof.
      intros HI E V1 V2 o. destruct (find_lane_ops wide X Sx tg junk mad HW HF HS HM HJ) as (M & Q & HO).
      destruct find_hemisphere as (v & HV & PV). destruct (origin_ok i HI) as [O1 O2]. fold o in O1, O2.
      destruct (packet_numbers r1 V1) as [_ P1]. destruct (packet_numbers r2 V2) as [_ P2].
      destruct (basis_ok left_to_right dot scale_v3 ldot_scalar scale_ok (i_n i) (proj2 (proj2 HI))) as [B1 B2].
      assert (T : forall k, In k (Ls wide) -> pat3 (turn (ldot M) (basis_at dot scale_v3 (i_n i)) (v (nth k r1 0) (nth k r2 0))) /\
        turned (nested mad) (points (basis_at dot scale_v3 (i_n i))) (point_of (v (nth k r1 0) (nth k r2 0)))
          (point_of (turn (ldot M) (basis_at dot scale_v3 (i_n i)) (v (nth k r1 0) (nth k r2 0))))).
      { intros k K. apply (turn_ok (nested mad) (ldot M) (lane_dot wide X tg junk mad M Q HO)); [exact B1|]. apply PV; auto. }
      destruct (shot sc (fun _ => o) (fun k => turn (ldot M) (basis_at dot scale_v3 (i_n i)) (v (nth k r1 0) (nth k r2 0))) HSc) as (i' & h & E' & EH & HN).
      { intros k K. exact O1. }
      { intros k K. apply T. exact K. }
      exists h. split.
      - unfold sample_vector. rewrite E. cbn [bind]. pose proof (HV (fun x : vec => sub f (splat f f32_1) x) r1 r2 one_minus1 V1 V2) as HV1. rewrite HV1. cbn [bind].
        rewrite ortho_basis_eq. rewrite (o_turn1 wide X tg junk mad M Q HO (Ls wide) (Ls_len wide) _ _ B1).
        2: { intros k K. apply PV; auto. }
        cbn [bind]. rewrite !(o_splat wide (Ls wide) (Ls_len wide)) in *. unfold v3s_of at 1 in E'. rewrite E'. cbn [bind]. rewrite EH.
        rewrite (o_sel wide (Ls wide) (Ls_len wide)). reflexivity.
      - intros k K. destruct (HN k K) as (j & Nj & ->). destruct (PV _ _ (P1 k K) (P2 k K)) as [_ H2]. destruct (T k K) as [_ T2].
        eexists _, _, (Ray o _), j. split; [exact B2|]. split; [exact H2|]. split; [exact O2|]. split; [exact T2|]. split; [exact Nj|reflexivity].
    Qed.

    Lemma sample_tiled_ok i basis origin st r1 r2 st1 : is_isects wide i ->
      ortho_bases wide X tg (is_n i) = Ok basis -> origin = v3s_add wide (is_p i) (scale_v3s wide (splat f f32_1em4) (is_n i)) ->
      sc_rands sc st = Ok (r1, r2, st1) -> is_vector f r1 -> is_vector f r2 ->
      exists h, sample_tiled wide false X tg junk sc basis origin st =
          Ok (map (fun k => if h k : bool then f32_1 else f32_0) (Ls wide), st1) /\
        forall k, In k (Ls wide) -> sampled (nested mad) (nested mad) mad cosine sine (objects sc) (isect_at i k) (nth k r1 0) (nth k r2 0) (h k).
    Proof.
      intros HI EB EO E V1 V2. destruct (find_lane_ops wide X Sx tg junk mad HW HF HS HM HJ) as (M & Q & HO).
      destruct find_hemisphere as (v & HV & PV).
      destruct (packet_numbers r1 V1) as [_ P1]. destruct (packet_numbers r2 V2) as [_ P2].
      assert (NP : forall k, In k (Ls wide) -> pat3 (v3_at (is_p i) k) /\ pat3 (v3_at (is_n i) k)).
      { intros k K. apply Ls_In in K. destruct HI as (_ & A & B & _). split; now apply v3_at_pat with (wide := wide). }
      set (n k := v3_at (is_n i) k) in *. set (p k := v3_at (is_p i) k) in *.
      assert (EN : is_n i = v3s_of (Ls wide) n) by (apply v3s_at; apply HI).
      assert (EP : is_p i = v3s_of (Ls wide) p) by (apply v3s_at; apply HI).
      rewrite EN in EB. rewrite (o_basis wide X tg junk mad M Q HO (Ls wide) (Ls_len wide)) in EB by (intros k K; now apply NP).
      assert (DD := lane_dot wide X tg junk mad M Q HO).
      set (o k := v3_add (p k) (lscale f32_1em4 (n k))).
      rewrite EN, EP, (o_splat wide (Ls wide) (Ls_len wide)), o_scale, o_add3 in EO. fold o in EO. subst origin.
      set (b k := basis_at (ldot M) lscale (n k)).
      assert (basis = m3s_of (Ls wide) b) as -> by exact (Ok_same _ _ EB). clear EB.
      assert (B : forall k, In k (Ls wide) -> pat_m3 (b k) /\ basis_of (nested mad) (point_of (n k)) (points (b k))).
      { intros k K. apply (basis_ok (nested mad) (ldot M) lscale DD lane_scale). now apply NP. }
      assert (O : forall k, In k (Ls wide) -> pat3 (o k) /\
        along (point_of (p k)) (point_of (n k)) (Fin false (rounded 4 (/ 10000))) (point_of (o k))).
      { intros k K. destruct (NP k K) as [A1 A2]. split.
        - apply p3_add; [exact A1|]. apply lane_scale; [exact p_eps|exact A2].
        - rewrite <- d_eps. apply (along_ok lscale lane_scale); [exact A1|exact A2|exact p_eps]. }
      set (w k := v (nth k r1 0) (nth k r2 0)).
      assert (W : forall k, In k (Ls wide) -> pat3 (w k) /\ hemisphere_point cosine sine (dat (nth k r1 0)) (dat (nth k r2 0)) (point_of (w k))).
      { intros k K. apply PV; auto. }
      assert (T : forall k, In k (Ls wide) -> pat3 (turn (ldot M) (b k) (w k)) /\
        turned (nested mad) (points (b k)) (point_of (w k)) (point_of (turn (ldot M) (b k) (w k)))).
      { intros k K. apply (turn_ok (nested mad) (ldot M) DD); [now apply B|now apply W]. }
      destruct (shot sc o (fun k => turn (ldot M) (b k) (w k)) HSc) as (i' & h & E' & EH & HN).
      { intros k K. now apply O. }
      { intros k K. now apply T. }
      exists h. split.
      - unfold sample_tiled. rewrite E. cbn [bind]. unfold sub_sv. pose proof (HV (fun x : vec => sub f (splat f f32_1) x) r1 r2 one_minus1 V1 V2) as HV1. rewrite HV1. cbn [bind]. fold w.
        rewrite (o_turn wide X tg junk mad M Q HO (Ls wide) (Ls_len wide) b w) by (intros k K; first [now apply B|now apply W]).
        cbn [bind]. rewrite E'. cbn [bind]. rewrite EH.
        rewrite !(o_splat wide (Ls wide) (Ls_len wide)), (o_sel wide (Ls wide) (Ls_len wide)). reflexivity.
      - intros k K. destruct (HN k K) as (j & Nj & ->). destruct (W k K) as [_ H2]. destruct (T k K) as [_ T2].
        destruct (O k K) as [_ O2]. destruct (B k K) as [_ B2].
        eexists _, _, (Ray (o k) _), j. split; [exact B2|]. split; [exact H2|]. split; [exact O2|]. split; [exact T2|]. split; [exact Nj|reflexivity].
    Qed.
  End OneSample.

  (** *** The loops *)
  Section Loop.
    Context {St : Type}.
    Variables (rands : St -> outcome (vec * vec * St)) (R : nat -> Z -> Z -> bool -> Prop) (body : vec * St -> outcome (vec * St)).
    Hypothesis HB : forall g st r1 r2 st1, rands st = Ok (r1, r2, st1) -> is_vector f r1 -> is_vector f r2 ->
      exists h, body (map g (Ls wide), st) = Ok (map (fun k => fl_add 4 (g k) (if h k : bool then f32_1 else f32_0)) (Ls wide), st1) /\
        forall k, In k (Ls wide) -> R k (nth k r1 0) (nth k r2 0) (h k).
    Lemma packet_loop : forall ps st st' g c, draws rands st ps st' ->
      Forall (fun p => is_vector f (fst p) /\ is_vector f (snd p)) ps ->
      (forall k, In k (Ls wide) -> cnt (g k) (c k) /\ Z.of_nat (c k + length ps) <= 2 ^ 24) ->
      exists g' hs, iterate (length ps) body (map g (Ls wide), st) = Ok (map g' (Ls wide), st') /\
        Forall2 (fun p h => forall k, In k (Ls wide) -> R k (nth k (fst p) 0) (nth k (snd p) 0) (h k)) ps hs /\
        forall k, In k (Ls wide) -> cnt (g' k) (c k + count (map (fun h => h k) hs)).
    Proof.
      induction ps as [|[r1 r2] ps IH]; intros st st' g c Hd Hf Hc.
      - inversion Hd; subst. exists g, []. split; [reflexivity|]. split; [constructor|]. intros k K. destruct (Hc k K) as [C _].
        cbn [map count filter length]. now rewrite Nat.add_0_r.
      - inversion Hd as [|? ? st1 ? ? E1 Hd1]; subst. inversion Hf as [|? ? [F1 F2] Hf1]; subst. cbn [fst snd] in F1, F2.
        destruct (HB g st r1 r2 st1 E1 F1 F2) as (h & EB & HR).
        destruct (IH st1 st' (fun k => fl_add 4 (g k) (if h k : bool then f32_1 else f32_0)) (fun k => c k + if h k then 1 else 0)%nat Hd1 Hf1)
          as (g' & hs & E & F & C).
        { intros k K. destruct (Hc k K) as [C B]. cbn [length] in B. split; [|destruct (h k); lia].
          destruct (h k); (apply cnt_add; [exact C|first [exact cnt_1|exact cnt_0]|lia]). }
        exists g', (h :: hs). split; [|split].
        + cbn [length iterate]. rewrite EB. cbn [bind]. exact E.
        + constructor; assumption.
        + intros k K. cbn [map]. rewrite count_cons, Nat.add_assoc. apply C. exact K.
    Qed.
  End Loop.

  Lemma zero_lanes : splat f f32_0 = map (fun _ : nat => f32_0) (Ls wide).
  Proof. apply (o_splat wide (Ls wide) (Ls_len wide)). Qed.

  Definition packet_draws (ps : list (vec * vec)) : Prop := Forall (fun p => is_vector f (fst p) /\ is_vector f (snd p)) ps.

  Theorem ao_tiled_ok {St} (sc : scene St) i st ps st' : is_scene sc -> is_isects wide i ->
    draws (sc_rands sc) st ps st' -> packet_draws ps -> length ps = (nao sc * nao sc)%nat -> Z.of_nat (nao sc * nao sc) <= 2 ^ 24 ->
    exists v, ao_tiled wide false X tg junk sc i st = Ok (v, st') /\ is_vector f v /\
      forall k b, isect_lane i k b -> exists r hs, lane v k r /\
        Forall2 (fun p h => sampled (nested mad) (nested mad) mad cosine sine (objects sc) b (nth k (fst p) 0) (nth k (snd p) 0) h) ps hs /\
        free_share (nao sc * nao sc) hs (dat r).
  Proof.
    intros HSc HI Hd Hf Hl Hb. unfold ao_tiled.
    destruct (find_lane_ops wide X Sx tg junk mad HW HF HS HM HJ) as (M & Q & HO).
    assert (EB : exists basis, ortho_bases wide X tg (is_n i) = Ok basis).
    { assert (EN : is_n i = v3s_of (Ls wide) (v3_at (is_n i))) by (apply v3s_at; apply HI). rewrite EN.
      eexists. apply (o_basis wide X tg junk mad M Q HO (Ls wide) (Ls_len wide)). intros k K. apply Ls_In in K.
      apply v3_at_pat with (wide := wide); [apply HI|exact K]. }
    destruct EB as (basis & EB). rewrite EB. cbn [bind]. rewrite iterate_mul, zero_lanes.
    match goal with |- context [iterate _ ?b _] => set (body := b) end.
    destruct (packet_loop (sc_rands sc) (fun k => sampled (nested mad) (nested mad) mad cosine sine (objects sc) (isect_at i k)) body)
      with (ps := ps) (st := st) (st' := st') (g := fun _ : nat => f32_0) (c := fun _ : nat => 0%nat) as (g' & hs & E & F & C); auto.
    - intros g s r1 r2 s1 E1 F1 F2.
      destruct (sample_tiled_ok sc HSc i basis _ s r1 r2 s1 HI EB eq_refl E1 F1 F2) as (h & E & R).
      exists h. split; [|exact R]. subst body. cbv beta. cbn [fst snd]. rewrite E. cbn [bind]. now rewrite o_add.
    - intros k K. split; [exact cnt_0|]. rewrite Hl. exact Hb.
    - rewrite <- Hl. match type of E with ?l = _ => match goal with |- context [bind ?e _] => change e with l end end. rewrite E. cbn [bind]. unfold div_vs. rewrite !(o_splat wide (Ls wide) (Ls_len wide)), o_div. cbn [bind]. rewrite o_sub.
      rewrite Hl.
      assert (SH : forall k, In k (Ls wide) -> let r := fl_sub 4 f32_1 (fl_div 4 (g' k) (usize_f32 (nao sc * nao sc))) in
        is_f32 r /\ free_share (nao sc * nao sc) (map (fun h => h k) hs) (dat r)).
      { intros k K. apply (share_ok (g' k) (nao sc * nao sc) _ (map (fun h => h k) hs) (C k K) Hb eq_refl). }
      eexists. split; [reflexivity|]. split; [apply vector_map; [apply Ls_len|]; intros k K; apply SH; exact K|].
      intros k b Lb. apply (isect_lane_eq wide) in Lb as [K ->]; [|exact HI].
      assert (KI : In k (Ls wide)) by (unfold Ls; apply in_seq; lia).
      eexists _, (map (fun h => h k) hs). split; [unfold lane; rewrite Ls_nth by exact K; reflexivity|]. split; [|apply SH; exact KI].
      clear - F KI. induction F as [|p h ps hs H _ IH]; cbn [map]; constructor; [apply H; exact KI|exact IH].
  Qed.

  (** *** The sum over the lanes *)
  Lemma fold_cnt g (c : nat -> nat) : forall L p a, cnt p a -> (forall k, In k L -> cnt (g k) (c k)) ->
    Z.of_nat (a + list_sum (map c L)) <= 2 ^ 24 -> cnt (fold_left (fl_add 4) (map g L) p) (a + list_sum (map c L)).
  Proof.
    induction L as [|k L IH]; intros p a P G H; cbn [map list_sum fold_right fold_left] in *.
    - now rewrite Nat.add_0_r.
    - change (fold_right Nat.add 0%nat (map c L)) with (list_sum (map c L)) in *.
      rewrite Nat.add_assoc. apply IH.
      + apply cnt_add; [exact P|apply G; now left|lia].
      + intros j J. apply G. now right.
      + lia.
  Qed.
  Lemma fsum_cnt g c : (forall k, In k (Ls wide) -> cnt (g k) (c k)) -> Z.of_nat (list_sum (map c (Ls wide))) <= 2 ^ 24 ->
    exists s, fsum tg f (map g (Ls wide)) = Ok s /\ cnt s (list_sum (map c (Ls wide))).
  Proof.
    intros G H. unfold fsum. rewrite f_k, f_b. destruct (on_aarch64 tg).
    - assert (V : is_vector f (map g (Ls wide))) by (apply vector_map; [apply Ls_len|]; intros k K; now apply G).
      destruct (reduce_loop_fold f (fl_add 4) (map g (Ls wide)) (f_vt wide) V) as (p & l & E & ->).
      eexists. split; [reflexivity|]. revert E G H. generalize (Ls wide). intros [|k L] E G H; [discriminate E|].
      cbn [map] in E. assert (p = g k) as -> by congruence. assert (l = map g L) as -> by congruence.
      cbn [map list_sum fold_right] in *. change (fold_right Nat.add 0%nat (map c L)) with (list_sum (map c L)) in *.
      apply fold_cnt; [apply G; now left|intros j J; apply G; now right|exact H].
    - eexists. split; [reflexivity|]. unfold simd_reduce_add_ordered. cbn [lane_add].
      change (lit KFloat 4 0) with f32_0. apply (fold_cnt g c (Ls wide) f32_0 0 cnt_0 G). exact H.
  Qed.

  Lemma sum_plus {A} (a b : A -> nat) L : list_sum (map (fun k => a k + b k)%nat L) = (list_sum (map a L) + list_sum (map b L))%nat.
  Proof. induction L as [|k L IH]; [reflexivity|]. cbn [map list_sum fold_right]. unfold list_sum in IH. rewrite IH. lia. Qed.
  Lemma count_lanes {A} (h : A -> bool) L : count (map h L) = list_sum (map (fun k => if h k then 1 else 0)%nat L).
  Proof. induction L as [|k L IH]; [reflexivity|]. cbn [map]. rewrite count_cons, IH. reflexivity. Qed.
  Lemma count_rows {A} (L : list A) hs : count (concat (map (fun h => map h L) hs)) = list_sum (map (fun k => count (map (fun h => h k) hs)) L).
  Proof.
    induction hs as [|h hs IH]; cbn [map concat].
    - clear. induction L as [|k L IH]; [reflexivity|]. cbn [map list_sum fold_right]. exact IH.
    - rewrite count_app, IH, count_lanes, <- sum_plus. f_equal. apply map_ext. intros k. now rewrite count_cons.
  Qed.
  Lemma rows_related (R : Z -> Z -> bool -> Prop) ps hs : packet_draws ps ->
    Forall2 (fun p h => forall k, In k (Ls wide) -> R (nth k (fst p) 0) (nth k (snd p) 0) (h k)) ps hs ->
    Forall2 (fun q h => R (fst q) (snd q) h) (concat (map lane_pairs ps)) (concat (map (fun h => map h (Ls wide)) hs)).
  Proof.
    intros HP F. induction F as [|[r1 r2] h ps hs H _ IH]; cbn [map concat]; [constructor|].
    inversion HP as [|? ? [V1 V2] HP']; subst. apply Forall2_app; [|now apply IH]. cbn [fst snd] in *. unfold lane_pairs. cbn [fst snd].
    destruct (packet_numbers r1 V1) as [E1 _]. destruct (packet_numbers r2 V2) as [E2 _].
    assert (EC : combine r1 r2 = map (fun k => (nth k r1 0, nth k r2 0)) (Ls wide)).
    { rewrite E1 at 1. rewrite E2 at 1. clear. induction (Ls wide) as [|k L IH]; [reflexivity|]. cbn [map combine]. now rewrite IH. }
    rewrite EC. revert H. generalize (Ls wide). clear. intros L H. induction L as [|k L IH]; cbn [map]; constructor.
    - cbn [fst snd]. apply H. now left.
    - apply IH. intros j J. apply H. now right.
  Qed.
  Lemma enough_steps n : (n <= steps n N * N)%nat.
  Proof. unfold steps. destruct wide; cbn [f32xN vn f32x8 f32x4]; lia. Qed.
  Lemma rows_length (hs : list (nat -> bool)) : length (concat (map (fun h => map h (Ls wide)) hs)) = (length hs * N)%nat.
  Proof.
    induction hs as [|h hs IH]; [reflexivity|]. cbn [map concat length Nat.mul]. rewrite app_length, map_length, Ls_len, IH. reflexivity.
  Qed.

  Theorem ao_vector_ok {St} (sc : scene St) i st ps st' : is_scene sc -> is_isect i ->
    draws (sc_rands sc) st ps st' -> packet_draws ps -> length ps = (nao sc * steps (nao sc) N)%nat ->
    Z.of_nat (length ps * N) <= 2 ^ 24 ->
    exists r hs, ao_vector wide false X tg junk sc i st = Ok (r, st') /\ is_f32 r /\
      Forall2 (fun p h => sampled left_to_right (nested mad) mad cosine sine (objects sc) i (fst p) (snd p) h) (concat (map lane_pairs ps)) hs /\
      free_share (nao sc * nao sc) hs (dat r).
  Proof.
    intros HSc HI Hd Hf Hl Hb. unfold ao_vector. rewrite iterate_mul, zero_lanes.
    match goal with |- context [iterate _ ?b _] => set (body := b) end.
    destruct (packet_loop (sc_rands sc) (fun _ => sampled left_to_right (nested mad) mad cosine sine (objects sc) i) body)
      with (ps := ps) (st := st) (st' := st') (g := fun _ : nat => f32_0) (c := fun _ : nat => 0%nat) as (g' & hs & E & F & C); auto.
    - intros g s r1 r2 s1 E1 F1 F2.
      destruct (sample_vector_ok sc HSc i s r1 r2 s1 HI E1 F1 F2) as (h & E & R).
      exists h. split; [|exact R]. subst body. cbv beta. cbn [fst snd]. rewrite E. cbn [bind]. now rewrite o_add.
    - intros k K. split; [exact cnt_0|]. cbn [Nat.add]. revert Hb. destruct wide; cbn [f32xN vn f32x8 f32x4]; intros Hb; clear - Hb; lia.
    - assert (LH : length hs = length ps) by (clear - F; induction F; cbn [length]; congruence).
      assert (CB : (count (concat (map (fun h => map h (Ls wide)) hs)) <= length ps * N)%nat).
      { rewrite <- LH, <- rows_length. apply count_le. }
      destruct (fsum_cnt g' (fun k => count (map (fun h => h k) hs)) C) as (s & ES & CS).
      { rewrite <- count_rows. clear - CB Hb. lia. }
      rewrite <- Hl. match type of E with ?l = _ => match goal with |- context [bind ?e _] => change e with l end end. rewrite E. cbn [bind]. rewrite ES. cbn [bind]. rewrite <- count_rows in CS.
      assert (NB : Z.of_nat (nao sc * nao sc) <= 2 ^ 24).
      { assert (nao sc * nao sc <= length ps * N)%nat; [|clear - H Hb; lia].
        rewrite Hl, <- Nat.mul_assoc. apply Nat.mul_le_mono_l. apply enough_steps. }
      destruct (share_ok s (nao sc * nao sc) _ _ CS NB eq_refl) as [S1 S2].
      eexists _, _. split; [reflexivity|]. split; [exact S1|]. split; [|exact S2].
      apply rows_related; assumption.
  Qed.
End Packet.
