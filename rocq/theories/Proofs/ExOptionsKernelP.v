(** The vector kernels of the option pricing example, lane by lane. *)
From Coq Require Import ZArith List Bool Lia Reals.
From Verif.Model Require Import Base FloatLane Llvm Tables MathTables Math Minimal MaskReduce Ops Cmp Float ExSum ExStencil ExRandom ExGeometry ExOptions.
From Verif.Spec Require Import Spec Floats MathSpec Stencil Rays Formulas Pricing.
From Verif.Proofs Require Import Lib MinimalP OpsP2 MaskReduceP FloatP FloatOpsP FloatVecP FloatApiP MathApiP MathLlvmP ExSumP ExMandelbrotP ExPacketP ExIntersectP ExIntersectMainP ExOptionsP.
Import ListNotations.
Open Scope Z_scope.
Local Notation pat := (pattern 4).
Local Notation dat := f32_datum.
Local Notation f := f32x8.
Local Opaque fl_add fl_sub fl_mul fl_div fl_sqrt fl_lt fl_gt fl_ge fl_abs fl_max f32_neg fl_of_int tree BINOMIAL_NUM roll_back.

Lemma lanes2_map {A} t (L : list A) a b r g : length L = vn t ->
  lanewise2 t (map a L) (map b L) r (fun p q s => s = g p q) -> r = map (fun k => g (a k) (b k)) L.
Proof.
  intros HL [[V _] H]. apply nth_error_ext; [now rewrite V, map_length|]. intros i p q Hp Hq.
  rewrite nth_error_map in Hq. destruct (nth_error L i) as [k|] eqn:E; [|discriminate]. cbn in Hq.
  destruct (H i (a k) (b k)) as (u & U & ->); try (unfold lane; now rewrite nth_error_map, E).
  unfold lane in U. congruence.
Qed.

Section Kernels.
  Variables (X : externals) (Sx : lane_functions) (tg : target) (junk junk' : vec).
  Variables (exponential logarithm : datum -> datum -> Prop) (power : datum -> datum -> datum -> Prop).
  Hypothesis HW : works_lanewise X Sx.
  Hypothesis HF : follows_llvm Sx.
  Hypothesis HM : math_is Sx exponential logarithm power.
  Hypothesis HS : ~ uses_sleef_sse2 tg.
  Hypothesis HJ : is_vector f junk.
  Hypothesis HJ' : is_vector f junk'.

  Definition L8 : list nat := seq 0 8.
  Local Notation L := L8.
  Lemma L8_len : length L = vn (f32xN true).
  Proof. reflexivity. Qed.
  Lemma L8_0 : In 0%nat L.
  Proof. left. reflexivity. Qed.

  Definition is_map (m : vec -> option vec) (g : Z -> Z) : Prop :=
    forall a, (forall k, In k L -> pat (a k)) -> method (m (map a L)) = Ok (map (fun k => g (a k)) L).
  Definition math_ops (SQ EX LN : Z -> Z) (PW : Z -> Z -> Z) : Prop :=
    is_map (fabs X tg junk f) (fl_abs 4) /\ is_map (fsqrt X tg junk f) SQ /\ is_map (exp X tg junk f) EX /\ is_map (ln X tg junk f) LN /\
    (forall a b, (forall k, In k L -> pat (a k)) -> (forall k, In k L -> pat (b k)) ->
       method (powf X tg junk junk' f (map a L) (map b L)) = Ok (map (fun k => PW (a k) (b k)) L)) /\
    (forall p, pat p -> pat (SQ p) /\ ieee_sqrt 4 (dat p) (dat (SQ p))) /\
    (forall p, pat p -> pat (EX p) /\ exponential (dat p) (dat (EX p))) /\
    (forall p, pat p -> pat (LN p) /\ logarithm (dat p) (dat (LN p))) /\
    (forall p q, pat p -> pat q -> pat (PW p q) /\ power (dat p) (dat q) (dat (PW p q))).

  Lemma from_maps (m : vec -> vec -> option vec) g : maps_lanes f m g ->
    is_map (m junk) g /\ (forall p, pat p -> pat (g p)).
  Proof.
    intros H.
    assert (A : forall a, (forall k, In k L -> pat (a k)) -> method (m junk (map a L)) = Ok (map (fun k => g (a k)) L) /\
       is_vector (f32xN true) (map (fun k => g (a k)) L)).
    { intros a Ha. destruct (H (map a L) junk (vector_map true L a L8_len Ha) HJ) as (r & E & R).
      rewrite E. cbn [method]. rewrite <- (lanes1_map _ L a r _ L8_len R). split; [reflexivity|exact (proj1 R)]. }
    split; [intros a Ha; now apply A|]. intros p P. destruct (A (fun _ => p) (fun _ _ => P)) as [_ V].
    exact (lane_of_vector true L _ L8_len V 0%nat L8_0).
  Qed.

  Lemma no_sleef : ~ uses_sleef tg.
  Proof. intros (A & B & C). apply HS. split; [exact A|]. split; [exact B|]. tauto. Qed.

  Lemma find_math : exists SQ EX LN PW, math_ops SQ EX LN PW.
  Proof.
    pose proof (f_math true) as F8. change (f32xN true) with f in F8.
    assert (AB : is_map (fabs X tg junk f) (fl_abs 4)).
    { intros a Ha. destruct (llvm_methods tg f X Sx F8 no_sleef HW HF) as (H & _ & _).
      destruct (H (map a L) junk (vector_map true L a L8_len Ha) HJ) as ((r & E & R) & _ & _).
      rewrite E. cbn [method]. f_equal.
      assert (R' : lanewise1 f (map a L) r (fun p q => q = if sign_field 4 p then p - 2 ^ (8 * Z.of_nat 4 - 1) else p)) by exact R.
      rewrite (lanes1_map _ L a r _ L8_len R'). apply map_ext_in. intros k K. cbv beta. rewrite abs_pattern; [reflexivity|exact fs4|auto]. }
    destruct (unary_methods tg f F8) as (_ & U & _ & U2).
    destruct (U no_sleef) as (_ & _ & _ & (fs & Es & Ebs & Els & Hs) & _).
    destruct (U2 HS) as ((fe & Ee & Ebe & Ele & He) & (fl & El & Ebl & Ell & Hl)).
    destruct (powf_method tg f F8) as (fp & Ep & Ebp & _ & Elp & Hp).
    specialize (Hs X Sx HW). specialize (He X Sx HW). specialize (Hl X Sx HW). specialize (Hp X Sx HW). specialize (Elp HS).
    apply from_maps in Hs as [MS PS]. apply from_maps in He as [ME PE]. apply from_maps in Hl as [ML PL].
    assert (MP : forall a b, (forall k, In k L -> pat (a k)) -> (forall k, In k L -> pat (b k)) ->
       method (powf X tg junk junk' f (map a L) (map b L)) = Ok (map (fun k => l2 Sx fp (a k) (b k)) L) /\
       is_vector (f32xN true) (map (fun k => l2 Sx fp (a k) (b k)) L)).
    { intros a b Ha Hb. destruct (Hp (map a L) (map b L) junk junk') as (r & E & R); auto;
        try (apply (vector_map true L); [exact L8_len|assumption]).
      rewrite E. cbn [method]. rewrite <- (lanes2_map _ L a b r _ L8_len R). split; [reflexivity|exact (proj1 R)]. }
    exists (l1 Sx fs), (l1 Sx fe), (l1 Sx fl), (l2 Sx fp).
    split; [exact AB|]. split; [exact MS|]. split; [exact ME|]. split; [exact ML|].
    split; [intros a b Ha Hb; now apply MP|].
    split; [|split; [|split]].
    - intros p P. split; [auto|]. destruct (HF fs Els) as (_ & H & _); [now left|].
      change (vb f) with 4%nat in Ebs. rewrite Ebs in H. apply H; [exact Es|]. unfold lane_pattern. rewrite Ebs. exact P.
    - intros p P. split; [auto|]. destruct (HM fe Ele Ebe) as (H & _). exact (H Ee p P).
    - intros p P. split; [auto|]. destruct (HM fl Ell Ebl) as (_ & H & _). exact (H El p P).
    - intros p q P Q. split.
      + destruct (MP (fun _ => p) (fun _ => q) (fun _ _ => P) (fun _ _ => Q)) as [_ V].
        exact (lane_of_vector true L _ L8_len V 0%nat L8_0).
      + destruct (HM fp Elp Ebp) as (_ & _ & H). exact (H Ep p q P Q).
  Qed.

  Variables (SQ EX LN : Z -> Z) (PW : Z -> Z -> Z).
  Hypothesis HO : math_ops SQ EX LN PW.
  Lemma q_SQ p : pat p -> pat (SQ p). Proof. intros P. destruct HO as (_ & _ & _ & _ & _ & H & _). now apply H. Qed.
  Lemma q_EX p : pat p -> pat (EX p). Proof. intros P. destruct HO as (_ & _ & _ & _ & _ & _ & H & _). now apply H. Qed.
  Lemma q_LN p : pat p -> pat (LN p). Proof. intros P. destruct HO as (_ & _ & _ & _ & _ & _ & _ & H & _). now apply H. Qed.
  Lemma q_PW p q : pat p -> pat q -> pat (PW p q). Proof. intros P Q. destruct HO as (_ & _ & _ & _ & _ & _ & _ & _ & H). now apply H. Qed.
  Local Hint Resolve q_SQ q_EX q_LN q_PW : pats.

  Lemma v_splat c : splat f c = map (fun _ : nat => c) L.
  Proof. exact (o_splat true L L8_len c). Qed.
  Lemma v_add a b : add f (map a L) (map b L) = map (fun k => fl_add 4 (a k) (b k)) L.
  Proof. exact (o_add true L a b). Qed.
  Lemma v_sub a b : sub f (map a L) (map b L) = map (fun k => fl_sub 4 (a k) (b k)) L.
  Proof. exact (o_sub true L a b). Qed.
  Lemma v_mul a b : mul f (map a L) (map b L) = map (fun k => fl_mul 4 (a k) (b k)) L.
  Proof. exact (o_mul true L a b). Qed.
  Lemma v_div a b : div f (map a L) (map b L) = Ok (map (fun k => fl_div 4 (a k) (b k)) L).
  Proof. exact (o_div true L a b). Qed.
  Lemma v_neg a : neg f (map a L) = map (fun k => lneg (a k)) L.
  Proof. exact (o_neg true L L8_len a). Qed.
  Lemma v_gt a b : vgt f (map a L) (map b L) = map (fun k => mlane 4 (fl_gt 4 (a k) (b k))) L.
  Proof. exact (o_gt true L a b). Qed.
  Lemma v_sel u a b : select m32x8 (map (fun k => mlane 4 (u k)) L) (map a L) (map b L) = Ok (map (fun k => if u k then a k else b k) L).
  Proof. exact (o_sel true L L8_len u a b). Qed.
  Lemma v_max a b : float_max f (map a L) (map b L) = map (fun k => fl_max 4 (a k) (b k)) L.
  Proof. unfold float_max, simd_fmax. change (vb f) with 4%nat. apply map2_maps. Qed.

  Ltac vec := unfold div_sv, div_vs, add_sv, mul_sv, mul_vs, sub_sv; repeat first [rewrite v_splat | rewrite v_add | rewrite v_sub | rewrite v_mul | rewrite v_neg | rewrite v_max].

  Lemma v_cnd a : (forall k, In k L -> pat (a k)) -> simd_cnd X tg junk (map a L) = Ok (map (fun k => lane_cnd lneg EX (a k)) L).
  Proof.
    intros P. destruct HO as (HA & _ & HE & _). unfold simd_cnd. rewrite HA by exact P. cbn [bind]. vec. rewrite v_div. cbn [bind]. cbv zeta. vec.
    rewrite HE by (intros k K; specialize (P k K); pp). cbn [bind]. vec. rewrite v_gt, v_sel. reflexivity.
  Qed.
  Lemma v_call s x t r v : (forall k, In k L -> pat (s k)) -> (forall k, In k L -> pat (x k)) -> (forall k, In k L -> pat (t k)) ->
    (forall k, In k L -> pat (r k)) -> (forall k, In k L -> pat (v k)) ->
    simd_call X tg junk (map s L) (map x L) (map t L) (map r L) (map v L) =
    Ok (map (fun k => lane_call lneg SQ EX LN (s k) (x k) (t k) (r k) (v k)) L).
  Proof.
    intros Ps Px Pt Pr Pv. destruct HO as (_ & HQ & HE & HL & _). unfold simd_call.
    rewrite v_div. cbn [bind]. rewrite HL by (intros k K; specialize (Ps k K); specialize (Px k K); pp). cbn [bind].
    rewrite HQ by exact Pt. cbn [bind]. vec. rewrite v_div. cbn [bind]. rewrite HQ by exact Pt. cbn [bind]. cbv zeta. vec.
    rewrite v_cnd by (intros k K; specialize (Ps k K); specialize (Px k K); specialize (Pt k K); specialize (Pr k K); specialize (Pv k K); pp; apply q_LN; pp).
    cbn [bind]. rewrite HE by (intros k K; specialize (Pt k K); specialize (Pr k K); pp). cbn [bind].
    rewrite v_cnd by (intros k K; specialize (Ps k K); specialize (Px k K); specialize (Pt k K); specialize (Pr k K); specialize (Pv k K); pp; apply q_LN; pp).
    cbn [bind]. vec. reflexivity.
  Qed.

  Lemma v_tree (g : vec -> vec -> vec) (gk : nat -> Z -> Z -> Z) (leaf : nat -> vec) (leafk : nat -> nat -> Z) :
    (forall a b, g (map a L) (map b L) = map (fun k => gk k (a k) (b k)) L) -> (forall j, leaf j = map (fun k => leafk k j) L) ->
    forall n j, tree g leaf n j = map (fun k => tree (gk k) (leafk k) n j) L.
  Proof.
    intros G F. induction n as [|n IH]; intros j.
    - rewrite tree_0, F. apply map_ext. intros k. now rewrite tree_0.
    - rewrite tree_S, !IH, G. apply map_ext. intros k. now rewrite tree_S.
  Qed.
  Lemma v_roll om pu inv (leaf : nat -> nat -> Z) :
    (vs <- roll_back (fun a b => Ok (mul f (add f (mul f (map om L) a) (mul f (map pu L) b)) (map inv L)))
       (map (fun j => map (fun k => leaf k j) L) (seq 0 BINOMIAL_NUM)) ;; at_ vs 0%nat) =
    Ok (map (fun k => tree (fun a b => fl_mul 4 (fl_add 4 (fl_mul 4 (om k) a) (fl_mul 4 (pu k) b)) (inv k)) (leaf k) (BINOMIAL_NUM - 1) 0) L).
  Proof.
    rewrite (roll_back_ok (fun a b => mul f (add f (mul f (map om L) a) (mul f (map pu L) b)) (map inv L))). apply (f_equal Ok).
    apply (v_tree _ (fun k a b => fl_mul 4 (fl_add 4 (fl_mul 4 (om k) a) (fl_mul 4 (pu k) b)) (inv k)) _ leaf); [|reflexivity].
    intros a b. vec. reflexivity.
  Qed.
  Lemma v_leaves (u s x : nat -> Z) : (forall k, In k L -> pat (u k)) ->
    map_ok (fun j => upow <- method (powf X tg junk junk' f (map u L) (splat f (exponent_f32 j))) ;;
                     Ok (float_max f (splat f f32_0) (sub f (map x L) (mul f (map s L) upow)))) (seq 0 BINOMIAL_NUM) =
    Ok (map (fun j => map (fun k => fl_max 4 f32_0 (fl_sub 4 (x k) (fl_mul 4 (s k) (PW (u k) (exponent_f32 j))))) L) (seq 0 BINOMIAL_NUM)).
  Proof.
    intros Pu. destruct HO as (_ & _ & _ & _ & HP & _). apply map_ok_all. generalize (seq 0 BINOMIAL_NUM). intros l.
    induction l as [|j js IH]; cbn [map]; constructor; [|exact IH].
    rewrite v_splat. rewrite (HP u (fun _ => exponent_f32 j) Pu); [|intros; exact (proj1 (of_int_datum 4 fs4 _))].
    cbn [bind]. vec. reflexivity.
  Qed.
  Lemma bind_ok {A B} (a : A) (k : A -> outcome B) : bind (Ok a) k = k a.
  Proof. reflexivity. Qed.
  Lemma v_put s x t r v : (forall k, In k L -> pat (s k)) -> (forall k, In k L -> pat (x k)) -> (forall k, In k L -> pat (t k)) ->
    (forall k, In k L -> pat (r k)) -> (forall k, In k L -> pat (v k)) ->
    simd_put X tg junk junk' (map s L) (map x L) (map t L) (map r L) (map v L) =
    Ok (map (fun k => lane_put SQ EX PW step_mul (s k) (x k) (t k) (r k) (v k)) L).
  Proof.
    intros Ps Px Pt Pr Pv. pose proof HO as (_ & HQ & HE & _ & _ & _). unfold simd_put.
    unfold div_vs at 1. rewrite v_splat, v_div. rewrite bind_ok.
    change (fun k : nat => fl_div 4 (t k) steps_f32) with (fun k : nat => lane_dt (t k)).
    assert (Pd : forall k, In k L -> pat (lane_dt (t k))) by (intros k K; specialize (Pt k K); unfold lane_dt; pp).
    rewrite HQ by exact Pd. rewrite bind_ok. rewrite v_mul. rewrite HE by (intros k K; specialize (Pv k K); specialize (Pd k K); pp). rewrite bind_ok.
    change (fun k : nat => EX (fl_mul 4 (v k) (SQ (lane_dt (t k))))) with (fun k : nat => lane_u SQ EX (t k) (v k)).
    assert (Pu : forall k, In k L -> pat (lane_u SQ EX (t k) (v k))) by (intros k K; specialize (Pv k K); specialize (Pd k K); unfold lane_u; apply q_EX; pp).
    unfold div_sv at 1. rewrite v_splat, v_div. rewrite bind_ok. rewrite v_mul. rewrite HE by (intros k K; specialize (Pr k K); specialize (Pd k K); pp). rewrite bind_ok.
    change (fun k : nat => EX (fl_mul 4 (r k) (lane_dt (t k)))) with (fun k : nat => lane_disc EX (t k) (r k)).
    unfold div_sv at 1. rewrite v_splat, v_div. rewrite bind_ok. rewrite !v_sub, v_div. rewrite bind_ok. cbv zeta. unfold sub_sv. rewrite (v_splat f32_1), v_sub.
    rewrite (v_leaves _ s x Pu). rewrite bind_ok. rewrite v_roll. reflexivity.
  Qed.

  (** *** On vectors *)
  Lemma as_map (v : vec) : is_vector f v -> v = map (fun k => nth k v 0) L /\ (forall k, In k L -> pat (nth k v 0)).
  Proof.
    intros [Lv F]. change (vn f) with 8%nat in Lv. split.
    - do 8 (destruct v as [|? v]; [discriminate|]). destruct v; [reflexivity|discriminate].
    - intros k K. rewrite Forall_forall in F. apply (F (nth k v 0)). apply nth_In. rewrite Lv. unfold L8 in K. apply in_seq in K. lia.
  Qed.

  Lemma prices_lanes (k : kernel) (g : Z -> Z -> Z -> Z -> Z -> Z) price :
    (forall s x t r v, (forall k, In k L -> pat (s k)) -> (forall k, In k L -> pat (x k)) -> (forall k, In k L -> pat (t k)) ->
      (forall k, In k L -> pat (r k)) -> (forall k, In k L -> pat (v k)) ->
      k (map s L) (map x L) (map t L) (map r L) (map v L) = Ok (map (fun k => g (s k) (x k) (t k) (r k) (v k)) L)) ->
    (forall s x t r v, pat s -> pat x -> pat t -> pat r -> pat v ->
      pat (g s x t r v) /\ price (dat s) (dat x) (dat t) (dat r) (dat v) (dat (g s x t r v))) ->
    prices k price.
  Proof.
    clear. intros K G s x t r v Hs Hx Ht Hr Hv.
    destruct (as_map s Hs) as [Es Ps], (as_map x Hx) as [Ex Px], (as_map t Ht) as [Et Pt], (as_map r Hr) as [Er Pr], (as_map v Hv) as [Ev Pv].
    rewrite Es, Ex, Et, Er, Ev. rewrite K by assumption. eexists. split; [reflexivity|].
    split; [apply (vector_map true L); [reflexivity|]; intros k0 I; apply G; auto|].
    intros i a b c d e. unfold lane. rewrite !nth_error_map. destruct (nth_error L i) as [j|] eqn:J; [|discriminate].
    cbn [option_map]. intros [= <-] [= <-] [= <-] [= <-] [= <-]. apply nth_error_In in J.
    eexists. split; [reflexivity|]. apply G; auto.
  Qed.
End Kernels.

Section Both.
  Variables (X : externals) (Sx : lane_functions) (tg : target) (junk junk' : vec).
  Variables (exponential logarithm : datum -> datum -> Prop) (power : datum -> datum -> datum -> Prop).
  Hypothesis HW : works_lanewise X Sx.
  Hypothesis HF : follows_llvm Sx.
  Hypothesis HM : math_is Sx exponential logarithm power.
  Hypothesis HS : ~ uses_sleef_sse2 tg.
  Hypothesis HJ : is_vector f junk.
  Hypothesis HJ' : is_vector f junk'.
  Lemma lneg_ok p : pat p -> pat (lneg p) /\ dat (lneg p) = negated (dat p).
  Proof. intros P. split; [now apply p_lneg|now apply d_lneg]. Qed.
  Lemma simd_call_prices : prices (simd_call X tg junk) (call_price exponential logarithm).
  Proof.
    destruct (find_math X Sx tg junk junk' _ _ _ HW HF HM HS HJ HJ') as (SQ & EX & LN & PW & HO).
    apply (prices_lanes _ (lane_call lneg SQ EX LN)).
    - intros. now apply (v_call X tg junk junk' exponential logarithm power SQ EX LN PW HO).
    - destruct HO as (_ & _ & _ & _ & _ & H1 & H2 & H3 & _). intros. apply call_ok; auto using lneg_ok.
  Qed.
  Lemma simd_put_prices : prices (simd_put X tg junk junk') (put_price exponential power BINOMIAL_NUM multiplied).
  Proof.
    destruct (find_math X Sx tg junk junk' _ _ _ HW HF HM HS HJ HJ') as (SQ & EX & LN & PW & HO).
    apply (prices_lanes _ (lane_put SQ EX PW step_mul)).
    - intros. now apply (v_put X tg junk junk' exponential logarithm power SQ EX LN PW HO).
    - destruct HO as (_ & _ & _ & _ & _ & H1 & H2 & H3 & H4). intros. apply put_ok; auto using step_mul_ok.
  Qed.
End Both.
