(** C50, C51: the vertical math functions. *)
From Coq Require Import ZArith List Bool Lia.
From Verif.Model Require Import Base FloatLane Tables Minimal MathTables Math.
From Verif.Spec Require Import Spec Floats MathSpec.
From Verif.Proofs Require Import Lib MathApiP MathLlvmP.
From Verif.Props Require Import Tac Targets.
Import ListNotations.
Open Scope Z_scope.

(** The external functions (LLVM's, SLEEF's, the standard library's) are parameters [X];
    [works_lanewise X S] says that they work lane by lane, as [S] tells, and [follows_llvm]
    what the LLVM manual promises of four of them. *)

(** C50: abs, cos, exp, ln, sin, sqrt, sqrte and tanh apply one lane function of the named library to every lane, on all targets, whatever is in uninitialised memory. *)
Theorem C50_unary : forall tg t,
  In t math_types ->
  let provided (m : externals -> target -> vec -> vty -> vec -> option vec) (e : efun) (l : library) :=
    exists f, x_fn f = e /\ x_b f = vb t /\ x_lib f = l /\
      forall X S, works_lanewise X S -> maps_lanes t (fun junk v => m X tg junk t v) (l1 S f) in
  (uses_sleef tg ->
     provided fabs EAbs SLEEF /\ provided cos ECos SLEEF /\ provided sin ESin SLEEF /\
     provided fsqrt ESqrt SLEEF /\ provided sqrte ESqrt SLEEF /\ provided tanh ETanh SLEEF) /\
  (~ uses_sleef tg ->
     provided fabs EAbs LLVM /\ provided cos ECos LLVM /\ provided sin ESin LLVM /\
     provided fsqrt ESqrt LLVM /\ provided sqrte ESqrt LLVM /\ provided tanh ETanh Core) /\
  (uses_sleef_sse2 tg -> provided exp EExp SLEEF /\ provided ln ELn SLEEF) /\
  (~ uses_sleef_sse2 tg -> provided exp EExp LLVM /\ provided ln ELn LLVM).
Proof. exact unary_methods. Qed.
Print Assumptions C50_unary.

(** C50: cos_pi and sin_pi, likewise; without SLEEF they take cos and sin of the rounded product with PI. *)
Theorem C50_times_pi : forall tg t,
  In t math_types ->
  let provided (m : externals -> target -> vec -> vty -> vec -> option vec) (e : efun) (l : library) :=
    exists f, x_fn f = e /\ x_b f = vb t /\ x_lib f = l /\
      forall X S, works_lanewise X S -> maps_lanes t (fun junk v => m X tg junk t v) (l1 S f) in
  let multiplied (m : externals -> target -> vec -> vty -> vec -> option vec) (e : efun) :=
    exists f, x_fn f = e /\ x_b f = vb t /\ x_lib f = LLVM /\
      forall X S, works_lanewise X S -> forall v junk, is_vector t v -> is_vector t junk ->
        exists r, m X tg junk t v = Some r /\
          lanewise1 t v r (fun a c => exists p, 0 <= p < 2 ^ width t /\
            ieee_mul (vb t) (datum_of (vb t) a) (datum_of (vb t) (pi_lane (vb t))) (datum_of (vb t) p) /\
            c = l1 S f p) in
  (uses_sleef tg -> provided cos_pi ECosPi SLEEF /\ provided sin_pi ESinPi SLEEF) /\
  (~ uses_sleef tg -> multiplied cos_pi ECos /\ multiplied sin_pi ESin).
Proof. exact pi_methods. Qed.
Print Assumptions C50_times_pi.

(** C50: powf. *)
Theorem C50_powf : forall tg t,
  In t math_types ->
  exists f,
  x_fn f = EPow /\ x_b f = vb t /\
  (uses_sleef_sse2 tg -> x_lib f = SLEEF) /\ (~ uses_sleef_sse2 tg -> x_lib f = LLVM) /\
  forall X S, works_lanewise X S ->
  forall x y junk junk', is_vector t x -> is_vector t y -> is_vector t junk -> is_vector t junk' ->
    exists r, powf X tg junk junk' t x y = Some r /\ lanewise2 t x y r (fun a b c => c = l2 S f a b).
Proof. exact powf_method. Qed.
Print Assumptions C50_powf.

(** C50: mul_add; on s390x it is a product and a sum. *)
Theorem C50_mul_add : forall tg t,
  In t math_types ->
  (t_arch tg <> S390x -> exists f,
     x_fn f = EFma /\ x_b f = vb t /\
     (uses_sleef tg -> x_lib f = SLEEF) /\ (~ uses_sleef tg -> x_lib f = LLVM) /\
     forall X S, works_lanewise X S ->
     forall x y z junk junk' junk'', is_vector t x -> is_vector t y -> is_vector t z ->
       is_vector t junk -> is_vector t junk' -> is_vector t junk'' ->
       exists r, mul_add X tg junk junk' junk'' t x y z = Some r /\
         lanewise3 t x y z r (fun a b c p => p = l3 S f a b c)) /\
  (t_arch tg = S390x ->
     let d := datum_of (vb t) in
     forall X x y z junk junk' junk'', is_vector t x -> is_vector t y -> is_vector t z ->
       exists r, mul_add X tg junk junk' junk'' t x y z = Some r /\
         lanewise3 t x y z r (fun a b c p => ieee_mul_add (vb t) (d a) (d b) (d c) (d p))).
Proof. exact mul_add_method. Qed.
Print Assumptions C50_mul_add.

(** C50: mul_adde. *)
Theorem C50_mul_adde : forall tg t,
  In t math_types ->
  (t_arch tg <> S390x -> exists f,
     x_fn f = EFmuladd /\ x_b f = vb t /\ x_lib f = LLVM /\
     forall X S, works_lanewise X S ->
     forall x y z, is_vector t x -> is_vector t y -> is_vector t z ->
       exists r, mul_adde X tg t x y z = Some r /\
         lanewise3 t x y z r (fun a b c p => p = l3 S f a b c)) /\
  (t_arch tg = S390x ->
     let d := datum_of (vb t) in
     forall X x y z, is_vector t x -> is_vector t y -> is_vector t z ->
       exists r, mul_adde X tg t x y z = Some r /\
         lanewise3 t x y z r (fun a b c p => ieee_mul_add (vb t) (d a) (d b) (d c) (d p))).
Proof. exact mul_adde_method. Qed.
Print Assumptions C50_mul_adde.

(** C50: if the libraries agree on single lanes, all targets give the same results. *)
Theorem C50_portable : forall t X S,
  In t math_types -> works_lanewise X S ->
  (forall f g, x_fn f = x_fn g -> x_b f = x_b g ->
     (forall a, l1 S f a = l1 S g a) /\ (forall a b, l2 S f a b = l2 S g a b)) ->
  forall tg tg' junk junk' junk2 junk2' v w,
    is_vector t v -> is_vector t w -> is_vector t junk -> is_vector t junk' -> is_vector t junk2 -> is_vector t junk2' ->
    Math.fabs X tg junk t v = Math.fabs X tg' junk' t v /\
    Math.cos X tg junk t v = Math.cos X tg' junk' t v /\
    Math.exp X tg junk t v = Math.exp X tg' junk' t v /\
    Math.ln X tg junk t v = Math.ln X tg' junk' t v /\
    Math.sin X tg junk t v = Math.sin X tg' junk' t v /\
    Math.fsqrt X tg junk t v = Math.fsqrt X tg' junk' t v /\
    Math.sqrte X tg junk t v = Math.sqrte X tg' junk' t v /\
    Math.tanh X tg junk t v = Math.tanh X tg' junk' t v /\
    Math.powf X tg junk junk2 t v w = Math.powf X tg' junk' junk2' t v w.
Proof. exact math_portable. Qed.
Print Assumptions C50_portable.

(** C50: without SLEEF: abs clears the sign bit, sqrt and sqrte are correctly rounded, mul_add is fused, mul_adde is fused or rounds twice. *)
Theorem C50_llvm : forall tg t X S,
  In t math_types -> ~ uses_sleef tg -> works_lanewise X S -> follows_llvm S ->
  let d := datum_of (vb t) in
  (forall v junk, is_vector t v -> is_vector t junk ->
     (exists r, Math.fabs X tg junk t v = Some r /\
        lanewise1 t v r (fun a c => c = if sign_field (vb t) a then a - 2 ^ (width t - 1) else a)) /\
     (exists r, Math.fsqrt X tg junk t v = Some r /\ lanewise1 t v r (fun a c => ieee_sqrt (vb t) (d a) (d c))) /\
     (exists r, Math.sqrte X tg junk t v = Some r /\ lanewise1 t v r (fun a c => ieee_sqrt (vb t) (d a) (d c)))) /\
  (t_arch tg <> S390x ->
   forall x y z junk junk' junk'', is_vector t x -> is_vector t y -> is_vector t z ->
     is_vector t junk -> is_vector t junk' -> is_vector t junk'' ->
     exists r, Math.mul_add X tg junk junk' junk'' t x y z = Some r /\
       lanewise3 t x y z r (fun a b c p => ieee_fma (vb t) (d a) (d b) (d c) (d p))) /\
  (forall x y z, is_vector t x -> is_vector t y -> is_vector t z ->
     exists r, Math.mul_adde X tg t x y z = Some r /\
       lanewise3 t x y z r (fun a b c p =>
         ieee_fma (vb t) (d a) (d b) (d c) (d p) \/ ieee_mul_add (vb t) (d a) (d b) (d c) (d p))).
Proof. exact llvm_methods. Qed.
Print Assumptions C50_llvm.

(** C50: mul_add is not fused on s390x, though documented to be. *)
Theorem C50_s390x_fused_refuted : forall tg X junk junk' junk'',
  t_arch tg = S390x ->
  exists x y z r, is_vector f32x2 x /\ is_vector f32x2 y /\ is_vector f32x2 z /\
    Math.mul_add X tg junk junk' junk'' f32x2 x y z = Some r /\
    let d := datum_of 4 in
    ~ lanewise3 f32x2 x y z r (fun a b c p => ieee_fma 4 (d a) (d b) (d c) (d p)).
Proof. exact s390x_mul_add_refuted. Qed.
Print Assumptions C50_s390x_fused_refuted.

Example C50_example :
  works_lanewise ref_externals ref_lanes /\ follows_llvm ref_lanes /\
  (forall f g, x_fn f = x_fn g -> x_b f = x_b g ->
     (forall a, l1 ref_lanes f a = l1 ref_lanes g a) /\ (forall a b, l2 ref_lanes f a b = l2 ref_lanes g a b)) /\
  In f32x2 math_types /\ uses_sleef x86_64_sse42_sleef /\ ~ uses_sleef s390x /\
  fsqrt ref_externals x86_64_sse42_sleef [0; 1] f32x2 [0x40800000; 0xbf800000] = Some [0x40000000; 0x7fc00000] /\
  fabs ref_externals s390x [] f64x2 [0x8000000000000000; 1] = Some [0; 1] /\
  mul_add ref_externals aarch64_neon [] [] [] f32x4
    [0x3f800800; 0; 0; 0x40000000] [0x3f800800; 0; 0x7f800000; 0x40400000] [0xbf801000; 0; 0; 0x3f800000]
  = Some [0x33800000; 0; 0x7fc00000; 0x40e00000].
Proof.
  split; [exact ref_works|]. split; [exact ref_follows|].
  split; [intros f g E B; cbn [ref_lanes l1 l2]; unfold in_lane; rewrite E, B; auto|].
  split; [now left|]. split; [split; [reflexivity|split; [reflexivity|right; right; reflexivity]]|].
  split; [intros [E _]; discriminate|]. split; [vm_compute; reflexivity|]. split; vm_compute; reflexivity.
Qed.

(** C51: sin_cos_pi returns the sine and the cosine of every lane, except for f32x2 with SLEEF, where the second result is the sine of uninitialised memory. *)
Theorem C51_pairs : forall tg t,
  In t math_types ->
  (uses_sleef tg -> t <> f32x2 -> exists f,
     x_fn f = ESinCosPi /\ x_b f = vb t /\ x_lib f = SLEEF /\
     forall X S, works_lanewise X S ->
     forall v junk junk', is_vector t v ->
       exists s c, sin_cos_pi X tg junk junk' t v = Some (s, c) /\
         lanewise1 t v s (fun a p => p = lsin S f a) /\ lanewise1 t v c (fun a p => p = lcos S f a)) /\
  (uses_sleef tg -> t = f32x2 -> exists f,
     x_fn f = ESinCosPi /\ x_b f = vb t /\ x_lib f = SLEEF /\
     forall X S, works_lanewise X S ->
     forall v junk junk', is_vector t v -> is_vector t junk ->
       exists s c, sin_cos_pi X tg junk junk' t v = Some (s, c) /\
         lanewise1 t v s (fun a p => p = lsin S f a) /\ lanewise1 t junk c (fun a p => p = lsin S f a)) /\
  (~ uses_sleef tg -> exists f g,
     x_fn f = ESin /\ x_b f = vb t /\ x_lib f = LLVM /\ x_fn g = ECos /\ x_b g = vb t /\ x_lib g = LLVM /\
     forall X S, works_lanewise X S ->
     forall v junk junk', is_vector t v -> is_vector t junk -> is_vector t junk' ->
       exists s c, sin_cos_pi X tg junk junk' t v = Some (s, c) /\
         is_vector t s /\ is_vector t c /\
         forall i a, lane v i a -> exists p, 0 <= p < 2 ^ width t /\
           ieee_mul (vb t) (datum_of (vb t) a) (datum_of (vb t) (pi_lane (vb t))) (datum_of (vb t) p) /\
           lane s i (l1 S f p) /\ lane c i (l1 S g p)).
Proof. exact sin_cos_pi_method. Qed.
Print Assumptions C51_pairs.

(** C51: so there the claim is false. *)
Theorem C51_f32x2_refuted : forall tg,
  uses_sleef tg ->
  ~ (forall X S v junk junk', works_lanewise X S ->
       is_vector f32x2 v -> is_vector f32x2 junk -> is_vector f32x2 junk' ->
       exists s c f, Math.sin_cos_pi X tg junk junk' f32x2 v = Some (s, c) /\ x_fn f = ESinCosPi /\ x_b f = 4%nat /\
         lanewise1 f32x2 v s (fun a p => p = lsin S f a) /\ lanewise1 f32x2 v c (fun a p => p = lcos S f a)).
Proof. exact f32x2_sin_cos_pi_refuted. Qed.
Print Assumptions C51_f32x2_refuted.

Example C51_example :
  works_lanewise ref_externals ref_lanes /\ uses_sleef x86_64_avx2_sleef /\
  sin_cos_pi ref_externals x86_64_avx2_sleef [] [] f32x4 [0; 0; 0; 0]
    = Some ([0; 0; 0; 0], [0x3f800000; 0x3f800000; 0x3f800000; 0x3f800000]) /\
  sin_cos_pi ref_externals x86_64_avx2_sleef [7; 8] [] f32x2 [0; 0] = Some ([0; 0], [7; 8]).
Proof.
  split; [exact ref_works|]. split; [split; [reflexivity|split; [reflexivity|left; reflexivity]]|].
  split; vm_compute; reflexivity.
Qed.
