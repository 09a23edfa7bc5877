(** Packets of rays, lane by lane. *)
From Coq Require Import ZArith List Bool Lia Reals.
From Verif.Model Require Import Base FloatLane Llvm Tables MathTables Math Minimal MaskReduce Ops Cmp Float ExStencil ExRandom ExGeometry ExIntersect.
From Verif.Spec Require Import Spec Floats MathSpec Stencil Rays.
From Verif.Proofs Require Import Lib MinimalP OpsP2 MaskReduceP FloatP FloatOpsP FloatVecP FloatApiP MathApiP MathLlvmP ExMandelbrotP ExStencilMainP.
Import ListNotations.
Open Scope Z_scope.

Lemma fs4 : fsize 4.
Proof. now left. Qed.
Local Notation pat := (pattern 4).

(** *** Patterns *)
Lemma p_add p q : pat p -> pat q -> pat (fl_add 4 p q).
Proof. intros P Q. exact (proj1 (add_pattern 4 fs4 p q P Q)). Qed.
Lemma p_sub p q : pat p -> pat q -> pat (fl_sub 4 p q).
Proof. intros P Q. exact (proj1 (sub_pattern 4 fs4 p q P Q)). Qed.
Lemma p_mul p q : pat p -> pat q -> pat (fl_mul 4 p q).
Proof. intros P Q. exact (proj1 (mul_pattern 4 fs4 p q P Q)). Qed.
Lemma p_div p q : pat p -> pat q -> pat (fl_div 4 p q).
Proof. intros P Q. exact (proj1 (div_pattern 4 fs4 p q P Q)). Qed.
Lemma p_sqrt p : pat p -> pat (fl_sqrt 4 p).
Proof. intros P. exact (proj1 (sqrt_pattern 4 fs4 p P)). Qed.
Lemma p_neg p : pat p -> pat (f32_neg p).
Proof. intros P. exact (proj1 (sign_flip 4 p fs4 P)). Qed.
Lemma p_if (c : bool) p q : pat p -> pat q -> pat (if c then p else q).
Proof. now destruct c. Qed.
Lemma p_lit c : 0 <= c < 4294967296 -> pat c.
Proof. intros H. exact H. Qed.
#[export] Hint Resolve p_add p_sub p_mul p_div p_sqrt p_neg p_if : pats.

(** [-x] of a vector's lane. *)
Definition lneg (p : Z) : Z := fl_mul 4 (fl_of_int 4 (-1)) p.
Lemma minus1_pat : pat (fl_of_int 4 (-1)).
Proof. vm_compute. split; congruence. Qed.
Lemma p_lneg p : pat p -> pat (lneg p).
Proof. intros P. apply p_mul; [exact minus1_pat|exact P]. Qed.
#[export] Hint Resolve p_lneg : pats.

(** *** The lanes of the external functions *)
Lemma lanes1_map {A} t (L : list A) a r g : length L = vn t ->
  lanewise1 t (map a L) r (fun p q => q = g p) -> r = map (fun k => g (a k)) L.
Proof.
  intros HL [[V _] H]. apply nth_error_ext; [now rewrite V, map_length|]. intros i p q Hp Hq.
  rewrite nth_error_map in Hq. destruct (nth_error L i) as [k|] eqn:E; [|discriminate]. cbn in Hq.
  destruct (H i (a k)) as (c & C & ->); [unfold lane; now rewrite nth_error_map, E|]. unfold lane in C. congruence.
Qed.
Lemma lanes3_map {A} t (L : list A) a b c r g : length L = vn t ->
  lanewise3 t (map a L) (map b L) (map c L) r (fun p q s u => u = g p q s) -> r = map (fun k => g (a k) (b k) (c k)) L.
Proof.
  intros HL [[V _] H]. apply nth_error_ext; [now rewrite V, map_length|]. intros i p q Hp Hq.
  rewrite nth_error_map in Hq. destruct (nth_error L i) as [k|] eqn:E; [|discriminate]. cbn in Hq.
  destruct (H i (a k) (b k) (c k)) as (u & U & ->); try (unfold lane; now rewrite nth_error_map, E).
  unfold lane in U. congruence.
Qed.

Lemma f_math wide : In (f32xN wide) math_types.
Proof. destruct wide; cbn [math_types In f32xN]; auto. Qed.
Lemma f_b wide : vb (f32xN wide) = 4%nat.
Proof. now destruct wide. Qed.
Lemma f_k wide : vkind (f32xN wide) = KFloat.
Proof. now destruct wide. Qed.
Lemma m_b wide : vb (m32xN wide) = 4%nat.
Proof. now destruct wide. Qed.
Lemma m_n wide : vn (m32xN wide) = vn (f32xN wide).
Proof. now destruct wide. Qed.
Lemma f_mask wide : mask_of (f32xN wide) = m32xN wide.
Proof. now destruct wide. Qed.

Lemma vector_map {A} wide (L : list A) a : length L = vn (f32xN wide) -> (forall k, In k L -> pat (a k)) ->
  is_vector (f32xN wide) (map a L).
Proof.
  intros HL H. split; [now rewrite map_length|]. apply Forall_forall. intros p Hp.
  apply in_map_iff in Hp as (k & <- & K). unfold width. rewrite f_b. exact (H k K).
Qed.

Section Externals.
  Variables (wide : bool) (X : externals) (Sx : lane_functions) (tg : target) (junk : vec) (mad : mul_adder).
  Hypothesis HW : works_lanewise X Sx.
  Hypothesis HF : follows_llvm Sx.
  Hypothesis HS : ~ uses_sleef tg.
  Hypothesis HM : mul_adde_is tg Sx mad.
  Hypothesis HJ : is_vector (f32xN wide) junk.

  (** [M], [Q] are what mul_adde and sqrt do to a lane. *)
  Definition lane_ops (M : Z -> Z -> Z -> Z) (Q : Z -> Z) : Prop :=
    (forall L a b c, length L = vn (f32xN wide) ->
       (forall k : nat, In k L -> pat (a k)) -> (forall k, In k L -> pat (b k)) -> (forall k, In k L -> pat (c k)) ->
       madd wide X tg (map a L) (map b L) (map c L) = Ok (map (fun k => M (a k) (b k) (c k)) L)) /\
    (forall L a, length L = vn (f32xN wide) -> (forall k : nat, In k L -> pat (a k)) ->
       vabs wide X tg junk (map a L) = Ok (map (fun k => fl_abs 4 (a k)) L)) /\
    (forall L a, length L = vn (f32xN wide) -> (forall k : nat, In k L -> pat (a k)) ->
       vsqrt wide X tg junk (map a L) = Ok (map (fun k => Q (a k)) L)) /\
    (forall p q s, pat p -> pat q -> pat s -> pat (M p q s) /\ mad (f32_datum p) (f32_datum q) (f32_datum s) (f32_datum (M p q s))) /\
    (forall p, pat p -> pat (Q p) /\ ieee_sqrt 4 (f32_datum p) (f32_datum (Q p))).

  (** A function that maps vectors to vectors maps patterns to patterns. *)
  Lemma lane_of_vector {A} (L : list A) (g : A -> Z) : length L = vn (f32xN wide) ->
    is_vector (f32xN wide) (map g L) -> forall k, In k L -> pat (g k).
  Proof.
    intros HL [_ F] k K. rewrite Forall_forall in F. specialize (F (g k) (in_map g L k K)).
    unfold width in F. rewrite f_b in F. exact F.
  Qed.
  Definition L0 : list nat := seq 0 (vn (f32xN wide)).
  Lemma L0_len : length L0 = vn (f32xN wide).
  Proof. apply seq_length. Qed.
  Lemma L0_0 : In 0%nat L0.
  Proof. unfold L0. destruct wide; left; reflexivity. Qed.

  Lemma find_lane_ops : exists M Q, lane_ops M Q.
  Proof.
    assert (AB : forall L a, length L = vn (f32xN wide) -> (forall k : nat, In k L -> pat (a k)) ->
       vabs wide X tg junk (map a L) = Ok (map (fun k => fl_abs 4 (a k)) L)).
    { intros L a HL Ha. destruct (llvm_methods tg (f32xN wide) X Sx (f_math wide) HS HW HF) as (H & _ & _).
      destruct (H (map a L) junk (vector_map wide L a HL Ha) HJ) as ((r & E & R) & _ & _).
      unfold vabs. rewrite E. cbn [method]. f_equal.
      assert (R' : lanewise1 (f32xN wide) (map a L) r (fun p q => q = if sign_field 4 p then p - 2 ^ (8 * Z.of_nat 4 - 1) else p)).
      { unfold width in R. rewrite f_b in R. exact R. }
      rewrite (lanes1_map _ L a r _ HL R'). apply map_ext_in. intros k K. cbv beta. rewrite abs_pattern; [reflexivity|exact fs4|auto]. }
    destruct (unary_methods tg (f32xN wide) (f_math wide)) as (_ & U & _).
    destruct (U HS) as (_ & _ & _ & (fs & Es & Eb & El & Hs) & _). rewrite f_b in Eb.
    specialize (Hs X Sx HW).
    assert (SQ : forall L a, length L = vn (f32xN wide) -> (forall k : nat, In k L -> pat (a k)) ->
       vsqrt wide X tg junk (map a L) = Ok (map (fun k => l1 Sx fs (a k)) L) /\ is_vector (f32xN wide) (map (fun k => l1 Sx fs (a k)) L)).
    { intros L a HL Ha. destruct (Hs (map a L) junk (vector_map wide L a HL Ha) HJ) as (r & E & R).
      unfold vsqrt. rewrite E. cbn [method]. rewrite <- (lanes1_map _ L a r _ HL R). split; [reflexivity|exact (proj1 R)]. }
    assert (SP : forall p, pat p -> pat (l1 Sx fs p) /\ ieee_sqrt 4 (f32_datum p) (f32_datum (l1 Sx fs p))).
    { intros p P. split.
      - destruct (SQ L0 (fun _ => p) L0_len (fun _ _ => P)) as [_ V]. exact (lane_of_vector L0 _ L0_len V 0%nat L0_0).
      - destruct (HF fs El) as (_ & H & _); [now left|]. rewrite Eb in H. apply H; [exact Es|].
        unfold lane_pattern. rewrite Eb. exact P. }
    destruct HM as [HM1 HM2].
    destruct (is_s390x tg) eqn:N.
    - assert (AR : t_arch tg = S390x) by (unfold is_s390x in N; destruct (t_arch tg); congruence).
      exists (fun p q s => fl_add 4 (fl_mul 4 p q) s), (l1 Sx fs). split; [|split; [exact AB|split; [|split; [|exact SP]]]].
      + intros L a b c HL Ha Hb Hc.
        pose proof (mul_adde_entries tg) as T. rewrite forallb_forall in T.
        pose proof (T (f32xN wide) (f_math wide)) as P. cbv beta in P. rewrite N in P. unfold is_muladd in P.
        unfold madd, mul_adde. destruct (lookup (mul_adde_table tg) (f32xN wide)) as [[]|]; try discriminate.
        cbn [tertiary method]. f_equal. unfold add, mul, simd_add, simd_mul. rewrite f_k, f_b, !map2_maps. reflexivity.
      + intros L a HL Ha. now apply SQ.
      + intros p q s P Q R. split; [auto with pats|]. rewrite (HM2 AR). exists (f32_datum (fl_mul 4 p q)).
        split; [apply mul_pattern; [exact fs4|exact P|exact Q]|apply add_pattern; [exact fs4|apply p_mul; auto|exact R]].
    - assert (AR : t_arch tg <> S390x) by (unfold is_s390x in N; destruct (t_arch tg); congruence).
      destruct (mul_adde_method tg (f32xN wide) (f_math wide)) as [M _].
      destruct (M AR) as (f & Ef & Ebf & Elf & H). rewrite f_b in Ebf. specialize (H X Sx HW).
      assert (MA : forall L a b c, length L = vn (f32xN wide) ->
        (forall k : nat, In k L -> pat (a k)) -> (forall k, In k L -> pat (b k)) -> (forall k, In k L -> pat (c k)) ->
        madd wide X tg (map a L) (map b L) (map c L) = Ok (map (fun k => l3 Sx f (a k) (b k) (c k)) L) /\
        is_vector (f32xN wide) (map (fun k => l3 Sx f (a k) (b k) (c k)) L)).
      { intros L a b c HL Ha Hb Hc.
        destruct (H (map a L) (map b L) (map c L)) as (r & E & R); try (apply vector_map; assumption).
        unfold madd. rewrite E. cbn [method]. rewrite <- (lanes3_map _ L a b c r _ HL R). split; [reflexivity|exact (proj1 R)]. }
      exists (l3 Sx f), (l1 Sx fs). split; [|split; [exact AB|split; [|split; [|exact SP]]]].
      + intros. now apply MA.
      + intros L a HL Ha. now apply SQ.
      + intros p q s P Q R. split.
        * destruct (MA L0 (fun _ => p) (fun _ => q) (fun _ => s) L0_len (fun _ _ => P) (fun _ _ => Q) (fun _ _ => R)) as [_ V].
          exact (lane_of_vector L0 _ L0_len V 0%nat L0_0).
        * apply (HM1 AR f p q s Ef Elf Ebf P Q R).
  Qed.
End Externals.
