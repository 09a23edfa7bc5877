(** The methods of float vectors that call external functions, through their tables. *)
From Coq Require Import ZArith List Bool Lia.
From Verif.Model Require Import Base FloatLane Llvm Bytes Tables Minimal Ops Float MathTables Math.
From Verif.Spec Require Import Spec Floats MathSpec.
From Verif.Proofs Require Import Lib OpsP OpsP2 BytesP FloatApiP FloatApi2P MathP.
Import ListNotations.
Open Scope Z_scope.

Definition efun_eq_dec (a b : efun) : {a = b} + {a <> b}.
Proof. decide equality. Defined.
Definition library_eq_dec (a b : library) : {a = b} + {a <> b}.
Proof. decide equality. Defined.
Definition efun_eqb a b := if efun_eq_dec a b then true else false.
Definition library_eqb a b := if library_eq_dec a b then true else false.

(** The type has an entry of fitting sizes for the function [e] from the library [l]. *)
Definition ok_entry (e : efun) (l : library) (tab : list (vty * impl)) (t : vty) : bool :=
  match lookup tab t with
  | Some i =>
      fits t i &&
      match entry_ext i with
      | Some f => efun_eqb (x_fn f) e && library_eqb (x_lib f) l && Nat.eqb (x_b f) (vb t)
      | None => false
      end
  | None => false
  end.
Definition is_pi (tab : list (vty * impl)) (t : vty) : bool :=
  match lookup tab t with Some IPi => true | _ => false end.
Definition is_muladd (tab : list (vty * impl)) (t : vty) : bool :=
  match lookup tab t with Some IMulAdd => true | _ => false end.
Definition not_gen (tab : list (vty * impl)) (t : vty) : bool :=
  match lookup tab t with Some (IGen _) => false | _ => true end.
Definition not_scalar (tab : list (vty * impl)) (t : vty) : bool :=
  match lookup tab t with Some (IScalar _ _ _) => false | _ => true end.
Definition not_twice (tab : list (vty * impl)) (t : vty) : bool :=
  match lookup tab t with Some (ITwice _ _) => same_type t f32x2 | _ => true end.

(** SLEEF's tables are in use. *)
Definition sleef_on (tg : target) : bool := is_sleef tg && (t_avx2 tg || t_avx tg || t_sse42 tg).
Definition sleef_on2 (tg : target) : bool :=
  is_sleef tg && (t_avx2 tg || t_avx tg || t_sse42 tg || t_sse2 tg).

Lemma sleef_on_iff tg : sleef_on tg = true <-> uses_sleef tg.
Proof.
  unfold sleef_on, uses_sleef, is_sleef.
  destruct (t_arch tg), (t_sleef tg), (t_avx2 tg), (t_avx tg), (t_sse42 tg); cbn; intuition congruence.
Qed.
Lemma sleef_on2_iff tg : sleef_on2 tg = true <-> uses_sleef_sse2 tg.
Proof.
  unfold sleef_on2, uses_sleef_sse2, is_sleef.
  destruct (t_arch tg), (t_sleef tg), (t_avx2 tg), (t_avx tg), (t_sse42 tg), (t_sse2 tg); cbn; intuition congruence.
Qed.

Ltac all_targets tg :=
  unfold sleef_on, sleef_on2, is_sleef, is_s390x;
  destruct (t_arch tg), (t_sleef tg), (t_avx2 tg), (t_avx tg), (t_sse42 tg), (t_sse2 tg); vm_compute; reflexivity.

Lemma abs_entries tg : forallb (ok_entry EAbs (if sleef_on tg then SLEEF else LLVM) (abs_table tg)) math_types = true.
Proof. unfold abs_table. all_targets tg. Qed.
Lemma cos_entries tg : forallb (ok_entry ECos (if sleef_on tg then SLEEF else LLVM) (cos_table tg)) math_types = true.
Proof. unfold cos_table. all_targets tg. Qed.
Lemma exp_entries tg : forallb (ok_entry EExp (if sleef_on2 tg then SLEEF else LLVM) (exp_table tg)) math_types = true.
Proof. unfold exp_table. all_targets tg. Qed.
Lemma ln_entries tg : forallb (ok_entry ELn (if sleef_on2 tg then SLEEF else LLVM) (ln_table tg)) math_types = true.
Proof. unfold ln_table. all_targets tg. Qed.
Lemma sin_entries tg : forallb (ok_entry ESin (if sleef_on tg then SLEEF else LLVM) (sin_table tg)) math_types = true.
Proof. unfold sin_table. all_targets tg. Qed.
Lemma sqrt_entries tg : forallb (ok_entry ESqrt (if sleef_on tg then SLEEF else LLVM) (sqrt_table tg)) math_types = true.
Proof. unfold sqrt_table. all_targets tg. Qed.
Lemma sqrte_entries tg : forallb (ok_entry ESqrt (if sleef_on tg then SLEEF else LLVM) (sqrte_table tg)) math_types = true.
Proof. unfold sqrte_table. all_targets tg. Qed.
Lemma tanh_entries tg : forallb (ok_entry ETanh (if sleef_on tg then SLEEF else Core) (tanh_table tg)) math_types = true.
Proof. unfold tanh_table. all_targets tg. Qed.
Lemma cos_pi_entries tg :
  forallb (fun t => if sleef_on tg then ok_entry ECosPi SLEEF (cos_pi_table tg) t else is_pi (cos_pi_table tg) t) math_types = true.
Proof. unfold cos_pi_table. all_targets tg. Qed.
Lemma sin_pi_entries tg :
  forallb (fun t => if sleef_on tg then ok_entry ESinPi SLEEF (sin_pi_table tg) t else is_pi (sin_pi_table tg) t) math_types = true.
Proof. unfold sin_pi_table. all_targets tg. Qed.
Lemma powf_entries tg :
  forallb (fun t => ok_entry EPow (if sleef_on2 tg then SLEEF else LLVM) (powf_table tg) t && not_gen (powf_table tg) t) math_types = true.
Proof. unfold powf_table. all_targets tg. Qed.
Lemma mul_add_entries tg :
  forallb (fun t => if is_s390x tg then is_muladd (mul_add_table tg) t else
    ok_entry EFma (if sleef_on tg then SLEEF else LLVM) (mul_add_table tg) t &&
    not_gen (mul_add_table tg) t && not_scalar (mul_add_table tg) t) math_types = true.
Proof. unfold mul_add_table. all_targets tg. Qed.
Lemma mul_adde_entries tg :
  forallb (fun t => if is_s390x tg then is_muladd (mul_adde_table tg) t else
    ok_entry EFmuladd LLVM (mul_adde_table tg) t &&
    match lookup (mul_adde_table tg) t with Some (IVec _) => true | _ => false end) math_types = true.
Proof. unfold mul_adde_table. all_targets tg. Qed.
Lemma sin_cos_pi_entries tg :
  forallb (fun t => if sleef_on tg
    then ok_entry ESinCosPi SLEEF (sin_cos_pi_table tg) t && not_gen (sin_cos_pi_table tg) t &&
         not_scalar (sin_cos_pi_table tg) t && not_twice (sin_cos_pi_table tg) t
    else is_pi (sin_cos_pi_table tg) t) math_types = true.
Proof. unfold sin_cos_pi_table. all_targets tg. Qed.

Lemma ok_entry_spec e l tab t :
  ok_entry e l tab t = true ->
  exists i f, lookup tab t = Some i /\ fits t i = true /\ entry_ext i = Some f /\
    x_fn f = e /\ x_lib f = l /\ x_b f = vb t.
Proof.
  unfold ok_entry, efun_eqb, library_eqb. destruct (lookup tab t) as [i|]; [|discriminate].
  destruct (fits t i) eqn:F; [|discriminate]. destruct (entry_ext i) as [f|] eqn:EE; [|discriminate].
  destruct (efun_eq_dec _ _) as [E|]; [|discriminate]. destruct (library_eq_dec _ _) as [L|]; [|discriminate].
  cbn [andb]. intros B. apply Nat.eqb_eq in B. exists i, f. auto 10.
Qed.

Lemma math_type_float t : In t math_types -> float_type t.
Proof.
  intros H. repeat destruct H as [<-|H]; try destruct H;
    (split; [reflexivity|split; [first [now left|now right]|vm_compute; repeat split; auto; lia]]).
Qed.

Section Methods.
Variables (tg : target) (t : vty).
Hypothesis Ht : In t math_types.

(** ** One argument *)
Lemma dispatch_maps e l tab :
  forallb (ok_entry e l (tab tg)) math_types = true ->
  exists f, x_fn f = e /\ x_b f = vb t /\ x_lib f = l /\
    forall X S, works_lanewise X S -> maps_lanes t (fun junk v => dispatch1 tab X tg junk t v) (l1 S f).
Proof.
  intros H. rewrite forallb_forall in H. destruct (ok_entry_spec _ _ _ _ (H t Ht)) as (i & f & Lk & F & E & Ef & El & Eb).
  exists f. split; [auto|split; [auto|split; [auto|]]].
  intros X S W v junk Hv Hj. apply is_vector_wf in Hv, Hj.
  destruct (unary_lanes X S (t_big_endian tg) W t i f junk v F E Hv Hj) as [Eu Fu].
  exists (map (l1 S f) v). split; [unfold dispatch1; now rewrite Lk|].
  split; [now apply is_vector_wf|]. intros j a La. exists (l1 S f a). split; auto.
  unfold lane in *. rewrite nth_error_map, La. reflexivity.
Qed.

Theorem unary_methods :
  let provided (m : externals -> target -> vec -> vty -> vec -> option vec) (e : efun) (l : library) :=
    exists f, x_fn f = e /\ x_b f = vb t /\ x_lib f = l /\
      forall X S, works_lanewise X S -> maps_lanes t (fun junk v => m X tg junk t v) (l1 S f) in
  (uses_sleef tg ->
     provided fabs EAbs SLEEF /\ provided cos ECos SLEEF /\ provided sin ESin SLEEF /\
     provided fsqrt ESqrt SLEEF /\ provided sqrte ESqrt SLEEF /\ provided tanh ETanh SLEEF) /\
  (~ uses_sleef tg ->
     provided fabs EAbs LLVM /\ provided cos ECos LLVM /\ provided sin ESin LLVM /\
     provided fsqrt ESqrt LLVM /\ provided sqrte ESqrt LLVM /\ provided tanh ETanh Core) /\
  (uses_sleef_sse2 tg -> provided exp EExp SLEEF /\ provided ln ELn SLEEF) /\
  (~ uses_sleef_sse2 tg -> provided exp EExp LLVM /\ provided ln ELn LLVM).
Proof.
  cbv beta zeta. pose proof (sleef_on_iff tg) as U. pose proof (sleef_on2_iff tg) as U2.
  pose proof (abs_entries tg) as T1. pose proof (cos_entries tg) as T2. pose proof (sin_entries tg) as T3.
  pose proof (sqrt_entries tg) as T4. pose proof (sqrte_entries tg) as T5. pose proof (tanh_entries tg) as T6.
  pose proof (exp_entries tg) as T7. pose proof (ln_entries tg) as T8.
  split; [|split; [|split]]; intros H.
  - apply U in H. rewrite H in *. repeat split; now apply dispatch_maps.
  - destruct (sleef_on tg); [now contradiction H; apply U|]. repeat split; now apply dispatch_maps.
  - apply U2 in H. rewrite H in *. repeat split; now apply dispatch_maps.
  - destruct (sleef_on2 tg); [now contradiction H; apply U2|]. repeat split; now apply dispatch_maps.
Qed.

(** The product with PI. *)
Lemma times_pi v : is_vector t v ->
  lanewise1 t v (mul t v (splat t (elem_pi (vb t))))
    (fun a c => ieee_mul (vb t) (datum_of (vb t) a) (datum_of (vb t) (pi_lane (vb t))) (datum_of (vb t) c)) /\
  mul t v (splat t (elem_pi (vb t))) = map (fun a => fl_mul (vb t) a (elem_pi (vb t))) v.
Proof.
  intros Hv. pose proof (math_type_float t Ht) as Hf.
  assert (0 <= pi_lane (vb t) < 2 ^ width t) as Hp.
  { unfold width. destruct Hf as (_ & [-> | ->] & _); vm_compute; split; congruence. }
  split.
  - change (elem_pi (vb t)) with (pi_lane (vb t)).
    destruct (float_scalar_arithmetic t v (pi_lane (vb t)) Hf Hv Hp) as (_ & _ & _ & _ & M & _). exact M.
  - unfold mul, simd_mul, splat. rewrite (proj1 Hf).
    rewrite map2_repeat_r by apply Hv. reflexivity.
Qed.

Lemma pi_maps e l tab (m : externals -> target -> vec -> vty -> vec -> option vec)
    (q : externals -> target -> vec -> vty -> vec -> option vec) :
  forallb (ok_entry e l (tab tg)) math_types = true -> (q = dispatch1 tab) ->
  (forall X junk v, m X tg junk t v = q X tg junk t (mul t v (splat t (elem_pi (vb t))))) ->
  exists f, x_fn f = e /\ x_b f = vb t /\ x_lib f = l /\
    forall X S, works_lanewise X S -> forall v junk, is_vector t v -> is_vector t junk ->
      exists r, m X tg junk t v = Some r /\
        lanewise1 t v r (fun a c => exists p, 0 <= p < 2 ^ width t /\
          ieee_mul (vb t) (datum_of (vb t) a) (datum_of (vb t) (pi_lane (vb t))) (datum_of (vb t) p) /\
          c = l1 S f p).
Proof.
  intros H Q E. destruct (dispatch_maps e l tab H) as (f & Ef & Eb & El & M).
  exists f. split; [auto|split; [auto|split; [auto|]]]. intros X S W v junk Hv Hj.
  destruct (times_pi v Hv) as [P _].
  destruct (M X S W _ junk (proj1 P) Hj) as (r & Er & R & L). exists r.
  split; [rewrite E, Q; exact Er|]. split; [exact R|]. intros i a La.
  destruct P as [PV P]. destruct (P i a La) as (p & Lp & Hp). destruct (L i p Lp) as (c & Lc & ->).
  exists (l1 S f p). split; auto. exists p. split; auto. exact (is_vector_lane t _ i p PV Lp).
Qed.

Theorem pi_methods :
  let provided (m : externals -> target -> vec -> vty -> vec -> option vec) (e : efun) (l : library) :=
    exists f, x_fn f = e /\ x_b f = vb t /\ x_lib f = l /\
      forall X S, works_lanewise X S -> maps_lanes t (fun junk v => m X tg junk t v) (l1 S f) in
  let multiplied (m : externals -> target -> vec -> vty -> vec -> option vec) (e : efun) :=
    exists f, x_fn f = e /\ x_b f = vb t /\ x_lib f = LLVM /\
      forall X S, works_lanewise X S -> forall v junk, is_vector t v -> is_vector t junk ->
        exists r, m X tg junk t v = Some r /\
          lanewise1 t v r (fun a c => exists p, 0 <= p < 2 ^ width t /\
            ieee_mul (vb t) (datum_of (vb t) a) (datum_of (vb t) (pi_lane (vb t))) (datum_of (vb t) p) /\
            c = l1 S f p) in
  (uses_sleef tg -> provided cos_pi ECosPi SLEEF /\ provided sin_pi ESinPi SLEEF) /\
  (~ uses_sleef tg -> multiplied cos_pi ECos /\ multiplied sin_pi ESin).
Proof.
  cbv beta zeta. pose proof (sleef_on_iff tg) as U.
  pose proof (cos_entries tg) as T2. pose proof (sin_entries tg) as T3.
  pose proof (cos_pi_entries tg) as T4. pose proof (sin_pi_entries tg) as T5.
  split; intros H.
  - apply U in H. rewrite H in *.
    assert (forall m tab e, forallb (ok_entry e SLEEF (tab tg)) math_types = true ->
      (forall X junk v i, lookup (tab tg) t = Some i -> (exists f, entry_ext i = Some f) ->
         m X tg junk t v = unary X (t_big_endian tg) junk i t v) ->
      exists f, x_fn f = e /\ x_b f = vb t /\ x_lib f = SLEEF /\
        forall X S, works_lanewise X S -> maps_lanes t (fun junk v => m X tg junk t v) (l1 S f)) as G.
    { intros m tab e T Em. rewrite forallb_forall in T.
      pose proof Ht as Ht'. apply T, ok_entry_spec in Ht' as (i & f & Lk & F & E & Ef & El & Eb).
      exists f. split; [auto|split; [auto|split; [auto|]]].
      intros X S W v junk Hv Hj. apply is_vector_wf in Hv, Hj.
      destruct (unary_lanes X S (t_big_endian tg) W t i f junk v F E Hv Hj) as [Eu Fu].
      exists (map (l1 S f) v). split; [rewrite (Em X junk v i Lk (ex_intro _ f E)); exact Eu|].
      split; [now apply is_vector_wf|]. intros j a La. exists (l1 S f a). split; auto.
      unfold lane in *. rewrite nth_error_map, La. reflexivity. }
    split.
    + apply (G _ cos_pi_table); [exact T4|].
      intros X junk v i Lk [f E]. unfold cos_pi. rewrite Lk. destruct i; try reflexivity; discriminate.
    + apply (G _ sin_pi_table); [exact T5|].
      intros X junk v i Lk [f E]. unfold sin_pi. rewrite Lk. destruct i; try reflexivity; discriminate.
  - destruct (sleef_on tg); [now contradiction H; apply U|]. rewrite forallb_forall in T4, T5.
    pose proof (T4 t Ht) as P4. pose proof (T5 t Ht) as P5. cbv beta in P4, P5. unfold is_pi in P4, P5.
    split.
    + apply (pi_maps ECos LLVM cos_table cos_pi cos T2 eq_refl).
      intros X junk v. unfold cos_pi. destruct (lookup (cos_pi_table tg) t) as [[]|]; try discriminate. reflexivity.
    + apply (pi_maps ESin LLVM sin_table sin_pi sin T3 eq_refl).
      intros X junk v. unfold sin_pi. destruct (lookup (sin_pi_table tg) t) as [[]|]; try discriminate. reflexivity.
Qed.

(** ** Two and three arguments *)
Theorem powf_method : exists f,
  x_fn f = EPow /\ x_b f = vb t /\
  (uses_sleef_sse2 tg -> x_lib f = SLEEF) /\ (~ uses_sleef_sse2 tg -> x_lib f = LLVM) /\
  forall X S, works_lanewise X S ->
  forall x y junk junk', is_vector t x -> is_vector t y -> is_vector t junk -> is_vector t junk' ->
    exists r, powf X tg junk junk' t x y = Some r /\ lanewise2 t x y r (fun a b c => c = l2 S f a b).
Proof.
  pose proof (sleef_on2_iff tg) as U. pose proof (powf_entries tg) as T. rewrite forallb_forall in T.
  pose proof Ht as Ht'. apply T in Ht'. apply andb_true_iff in Ht' as [H NG].
  apply ok_entry_spec in H as (i & f & Lk & F & E & Ef & El & Eb). unfold not_gen in NG. rewrite Lk in NG.
  exists f. split; [auto|split; [auto|split; [|split]]].
  - intros H. apply U in H. now rewrite H in El.
  - intros H. destruct (sleef_on2 tg); auto. now contradiction H; apply U.
  - intros X S W x y junk junk' Hx Hy Hj Hj'. apply is_vector_wf in Hx, Hy, Hj, Hj'.
    destruct (binary_lanes X S (t_big_endian tg) W t i f junk junk' x y) as [Eu Fu]; auto.
    { rewrite El. destruct (sleef_on2 tg); discriminate. }
    { intros g ->. discriminate. }
    exists (map2 (l2 S f) x y). split; [unfold powf; now rewrite Lk|].
    split; [now apply is_vector_wf|]. intros j a b La Lb. exists (l2 S f a b). split; auto.
    now apply nth_error_map2.
Qed.

Lemma two_roundings x y z :
  is_vector t x -> is_vector t y -> is_vector t z ->
  let d := datum_of (vb t) in
  lanewise3 t x y z (add t (mul t x y) z) (fun a b c p => ieee_mul_add (vb t) (d a) (d b) (d c) (d p)).
Proof.
  intros Hx Hy Hz d. pose proof (math_type_float t Ht) as Hf.
  destruct (float_arithmetic t x y Hf Hx Hy) as (_ & _ & (Mv & M) & _).
  destruct (float_arithmetic t _ z Hf Mv Hz) as ((Av & A) & _).
  split; [exact Av|]. intros i a b c La Lb Lc.
  destruct (M i a b La Lb) as (q & Lq & Hq). destruct (A i q c Lq Lc) as (p & Lp & Hp).
  exists p. split; auto. exists (d q). auto.
Qed.

Lemma tertiary_case X S junk junk' junk'' x y z i f :
  works_lanewise X S ->
  fits t i = true -> entry_ext i = Some f -> x_lib f <> Core -> (forall g, i <> IGen g) ->
  (forall a b g, i <> IScalar a b g) ->
  is_vector t x -> is_vector t y -> is_vector t z ->
  is_vector t junk -> is_vector t junk' -> is_vector t junk'' ->
  exists r, tertiary X (t_big_endian tg) junk junk' junk'' i t x y z = Some r /\
    lanewise3 t x y z r (fun a b c p => p = l3 S f a b c).
Proof.
  intros W F E NC NG NS Hx Hy Hz Hj Hj' Hj''. apply is_vector_wf in Hx, Hy, Hz, Hj, Hj', Hj''.
  destruct (tertiary_lanes X S (t_big_endian tg) W t i f junk junk' junk'' x y z) as [Eu Fu]; auto.
  exists (map3 (l3 S f) x y z). split; [exact Eu|].
  split; [now apply is_vector_wf|]. intros j a b c La Lb Lc. exists (l3 S f a b c). split; auto.
  now apply nth_error_map3.
Qed.

Theorem mul_add_method :
  (t_arch tg <> S390x -> exists f,
     x_fn f = EFma /\ x_b f = vb t /\
     (uses_sleef tg -> x_lib f = SLEEF) /\ (~ uses_sleef tg -> x_lib f = LLVM) /\
     forall X S, works_lanewise X S ->
     forall x y z junk junk' junk'', is_vector t x -> is_vector t y -> is_vector t z ->
       is_vector t junk -> is_vector t junk' -> is_vector t junk'' ->
       exists r, mul_add X tg junk junk' junk'' t x y z = Some r /\
         lanewise3 t x y z r (fun a b c p => p = l3 S f a b c)) /\
  (t_arch tg = S390x ->
     let d := datum_of (vb t) in
     forall X x y z junk junk' junk'', is_vector t x -> is_vector t y -> is_vector t z ->
       exists r, mul_add X tg junk junk' junk'' t x y z = Some r /\
         lanewise3 t x y z r (fun a b c p => ieee_mul_add (vb t) (d a) (d b) (d c) (d p))).
Proof.
  pose proof (sleef_on_iff tg) as U. pose proof (mul_add_entries tg) as T. rewrite forallb_forall in T.
  pose proof (T t Ht) as P. cbv beta in P. split.
  - intros NS. assert (is_s390x tg = false) as N by (unfold is_s390x; destruct (t_arch tg); congruence).
    rewrite N in P. apply andb_true_iff in P as [P NSC]. apply andb_true_iff in P as [P NG].
    apply ok_entry_spec in P as (i & f & Lk & F & E & Ef & El & Eb).
    unfold not_gen in NG. unfold not_scalar in NSC. rewrite Lk in NG, NSC.
    exists f. split; [auto|split; [auto|split; [|split]]].
    + intros H. apply U in H. now rewrite H in El.
    + intros H. destruct (sleef_on tg); auto. now contradiction H; apply U.
    + intros X S W x y z junk junk' junk'' Hx Hy Hz Hj Hj' Hj''.
      unfold mul_add. rewrite Lk. apply tertiary_case; auto.
      * rewrite El. destruct (sleef_on tg); discriminate.
      * intros g ->. discriminate.
      * intros a b g ->. discriminate.
  - intros S3 d X x y z junk junk' junk'' Hx Hy Hz.
    assert (is_s390x tg = true) as N by (unfold is_s390x; now rewrite S3).
    rewrite N in P. unfold is_muladd in P. unfold mul_add.
    destruct (lookup (mul_add_table tg) t) as [[]|]; try discriminate. cbn [tertiary].
    eexists. split; [reflexivity|]. now apply two_roundings.
Qed.

Theorem mul_adde_method :
  (t_arch tg <> S390x -> exists f,
     x_fn f = EFmuladd /\ x_b f = vb t /\ x_lib f = LLVM /\
     forall X S, works_lanewise X S ->
     forall x y z, is_vector t x -> is_vector t y -> is_vector t z ->
       exists r, mul_adde X tg t x y z = Some r /\
         lanewise3 t x y z r (fun a b c p => p = l3 S f a b c)) /\
  (t_arch tg = S390x ->
     let d := datum_of (vb t) in
     forall X x y z, is_vector t x -> is_vector t y -> is_vector t z ->
       exists r, mul_adde X tg t x y z = Some r /\
         lanewise3 t x y z r (fun a b c p => ieee_mul_add (vb t) (d a) (d b) (d c) (d p))).
Proof.
  pose proof (mul_adde_entries tg) as T. rewrite forallb_forall in T.
  pose proof (T t Ht) as P. cbv beta in P. split.
  - intros NS. assert (is_s390x tg = false) as N by (unfold is_s390x; destruct (t_arch tg); congruence).
    rewrite N in P. apply andb_true_iff in P as [P IV].
    apply ok_entry_spec in P as (i & f & Lk & F & E & Ef & El & Eb).
    exists f. split; [auto|split; [auto|split; [auto|]]].
    intros X S W x y z Hx Hy Hz. rewrite Lk in IV. destruct i as [g| | | | | | |]; try discriminate.
    destruct (tertiary_case X S x x x x y z (IVec g) f W F E) as (r & Er & L); auto; try discriminate.
    { rewrite El. discriminate. }
    exists r. split; [|exact L]. unfold mul_adde. now rewrite Lk.
  - intros S3 d X x y z Hx Hy Hz.
    assert (is_s390x tg = true) as N by (unfold is_s390x; now rewrite S3).
    rewrite N in P. unfold is_muladd in P. unfold mul_adde.
    destruct (lookup (mul_adde_table tg) t) as [[]|]; try discriminate. cbn [tertiary].
    eexists. split; [reflexivity|]. now apply two_roundings.
Qed.

(** ** Two results *)
Theorem sin_cos_pi_method :
  (uses_sleef tg -> t <> f32x2 -> exists f,
     x_fn f = ESinCosPi /\ x_b f = vb t /\ x_lib f = SLEEF /\
     forall X S, works_lanewise X S ->
     forall v junk junk', is_vector t v ->
       exists s c, sin_cos_pi X tg junk junk' t v = Some (s, c) /\
         lanewise1 t v s (fun a p => p = lsin S f a) /\ lanewise1 t v c (fun a p => p = lcos S f a)) /\
  (uses_sleef tg -> t = f32x2 -> exists f,
     x_fn f = ESinCosPi /\ x_b f = vb t /\ x_lib f = SLEEF /\
     forall X S, works_lanewise X S ->
     forall v junk junk', is_vector t v -> is_vector t junk ->
       exists s c, sin_cos_pi X tg junk junk' t v = Some (s, c) /\
         lanewise1 t v s (fun a p => p = lsin S f a) /\ lanewise1 t junk c (fun a p => p = lsin S f a)) /\
  (~ uses_sleef tg -> exists f g,
     x_fn f = ESin /\ x_b f = vb t /\ x_lib f = LLVM /\ x_fn g = ECos /\ x_b g = vb t /\ x_lib g = LLVM /\
     forall X S, works_lanewise X S ->
     forall v junk junk', is_vector t v -> is_vector t junk -> is_vector t junk' ->
       exists s c, sin_cos_pi X tg junk junk' t v = Some (s, c) /\
         is_vector t s /\ is_vector t c /\
         forall i a, lane v i a -> exists p, 0 <= p < 2 ^ width t /\
           ieee_mul (vb t) (datum_of (vb t) a) (datum_of (vb t) (pi_lane (vb t))) (datum_of (vb t) p) /\
           lane s i (l1 S f p) /\ lane c i (l1 S g p)).
Proof.
  pose proof (sleef_on_iff tg) as U. pose proof (sin_cos_pi_entries tg) as T. rewrite forallb_forall in T.
  pose proof (T t Ht) as P. cbv beta in P. clear T.
  assert (sleef_on tg = true -> exists i f, lookup (sin_cos_pi_table tg) t = Some i /\ fits t i = true /\
    entry_ext i = Some f /\ x_fn f = ESinCosPi /\ x_lib f = SLEEF /\ x_b f = vb t /\
    (forall g, i <> IGen g) /\ (forall a b g, i <> IScalar a b g) /\
    (forall h g, i = ITwice h g -> t = f32x2 /\ f = g)) as G.
  { intros H. rewrite H in P. apply andb_true_iff in P as [P NT]. apply andb_true_iff in P as [P NS].
    apply andb_true_iff in P as [P NG]. apply ok_entry_spec in P as (i & f & Lk & F & E & Ef & El & Eb).
    unfold not_gen in NG. unfold not_scalar in NS. unfold not_twice in NT. rewrite Lk in NG, NS, NT.
    exists i, f. split; [auto|split; [auto|split; [auto|split; [auto|split; [auto|split; [auto|]]]]]].
    split; [intros g ->; discriminate|split; [intros a b g ->; discriminate|]].
    intros h g ->. split.
    - unfold same_type in NT. destruct t as [k b n]. cbn in NT. sizes.
      destruct k; try discriminate. clear - H1 H2. cbn in *. now subst.
    - cbn in E. injection E as <-. unfold scalar_ext in *. destruct (x_lib g) eqn:L; auto. cbn in El. discriminate. }
  split; [|split].
  - intros H NF. apply U in H. destruct (G H) as (i & f & Lk & F & E & Ef & El & Eb & NG & NS & NT).
    exists f. split; [auto|split; [auto|split; [auto|]]]. intros X S W v junk junk' Hv. apply is_vector_wf in Hv.
    destruct (pair_lanes X S (t_big_endian tg) W t i f v junk junk' tg) as (Er & V1 & V2); auto.
    { intros h g Ei. now destruct (NT h g Ei). }
    exists (map (lsin S f) v), (map (lcos S f) v). split; [exact Er|].
    split; (split; [now apply is_vector_wf|]); intros j a La; eexists; (split; [|reflexivity]);
      unfold lane in *; now rewrite nth_error_map, La.
  - intros H EF. apply U in H. destruct (G H) as (i & f & Lk & F & E & Ef & El & Eb & NG & NS & NT).
    exists f. split; [auto|split; [auto|split; [auto|]]]. intros X S W v junk junk' Hv Hj.
    apply is_vector_wf in Hv, Hj.
    assert (exists h g, i = ITwice h g) as (h & g & ->).
    { clear - EF Lk H. rewrite EF in Lk. revert Lk. unfold sleef_on in H. unfold sin_cos_pi_table.
      destruct (is_sleef tg); [|discriminate].
      destruct (t_avx2 tg), (t_avx tg), (t_sse42 tg); try discriminate; intros Lk; vm_compute in Lk;
        injection Lk as <-; eauto. }
    destruct (NT h g eq_refl) as [_ ->].
    destruct (pair_twice X S (t_big_endian tg) W t h g v junk junk' tg) as (Er & V1 & V2); auto.
    exists (map (lsin S g) v), (map (lsin S g) junk). split; [exact Er|].
    split; (split; [now apply is_vector_wf|]); intros j a La; eexists; (split; [|reflexivity]);
      unfold lane in *; now rewrite nth_error_map, La.
  - intros H. destruct (sleef_on tg) eqn:SO; [now contradiction H; apply U|]. clear G.
    pose proof (sin_entries tg) as T2. pose proof (cos_entries tg) as T3. rewrite SO in T2, T3.
    destruct (dispatch_maps ESin LLVM sin_table T2) as (f & Ef & Eb & El & M).
    destruct (dispatch_maps ECos LLVM cos_table T3) as (g & Eg & Ebg & Elg & M').
    exists f, g. do 6 (split; [auto|]). intros X S W v junk junk' Hv Hj Hj'.
    destruct (times_pi v Hv) as [[PV PL] _].
    destruct (M X S W _ junk PV Hj) as (s & Es & SV & SL).
    destruct (M' X S W _ junk' PV Hj') as (c & Ec & CV & CL).
    exists s, c. split.
    { unfold sin_cos_pi. unfold is_pi in P. destruct (lookup (sin_cos_pi_table tg) t) as [[]|]; try discriminate.
      unfold sin, cos. cbv zeta. rewrite Es, Ec. reflexivity. }
    split; [auto|split; [auto|]]. intros i a La. destruct (PL i a La) as (p & Lp & Hp).
    exists p. split; [exact (is_vector_lane t _ i p PV Lp)|]. split; [exact Hp|].
    destruct (SL i p Lp) as (? & L1 & ->). destruct (CL i p Lp) as (? & L2 & ->). auto.
Qed.
End Methods.
