(** The dispatch tables of the vertical math functions, transcribed from the macro
    invocations of src/codegen/math/float/*.rs: which external function implements a
    method for a vector type on a target, and through which wrapper of macros.rs. *)
From Coq Require Import ZArith List Bool String.
From Verif.Model Require Import Base Tables.
Import ListNotations.
Open Scope string_scope.
Open Scope nat_scope.

(** Who provides an external function. *)
Inductive library :=
| LLVM       (* an extern "C" declaration with link_name = "llvm.*", or a simd_* intrinsic *)
| SLEEF      (* the sleef-sys crate *)
| Core       (* a scalar method of the standard library *)
| Crate.     (* a helper function of the crate itself: define_tanh! *)

(** The mathematical function named by the external function's name. *)
Inductive efun :=
| EAbs | ECos | ECosPi | EExp | ELn | ESin | ESinPi | ESqrt | ETanh
| EPow | EFma | EFmuladd | ESinCosPi.

(** An external function: symbol, provider, function, bytes per lane, lanes. *)
Record ext := Ex { x_name : string; x_lib : library; x_fn : efun; x_b : nat; x_n : nat }.

(** The wrappers: impl_unary_!, impl_binary_!, impl_tertiary_! (macros.rs) and
    impl_unary_t! (sin_cos_pi.rs:36-134); [IPi] is impl_def! of cos_pi.rs:14-23,
    sin_pi.rs:14-23 and sin_cos_pi.rs:13-24; [IMulAdd] is impl_broken! of
    mul_add.rs:39-48. *)
Inductive impl :=
| IVec (f : ext)
| IGen (f : ext)
| IScalar (sb sn : nat) (f : ext)
| IHalves (h : vty) (f : ext)
| IQuarter (q : vty) (f : ext)
| ITwice (t : vty) (f : ext)
| IPi
| IMulAdd.

(** The cfg tests of the tables. *)
Definition is_s390x (tg : target) : bool :=
  match t_arch tg with S390x => true | _ => false end.
Definition is_sleef (tg : target) : bool :=
  match t_arch tg with X86_64 => t_sleef tg | _ => false end.

(** abs.rs:44-51. *)
Definition abs_s390x : list (vty * impl) :=
  [(f32x2, IScalar 4 2 (Ex "llvm.fabs.f32" LLVM EAbs 4 1));
   (f32x4, IScalar 4 4 (Ex "llvm.fabs.f32" LLVM EAbs 4 1));
   (f32x8, IScalar 4 8 (Ex "llvm.fabs.f32" LLVM EAbs 4 1));
   (f32x16, IScalar 4 16 (Ex "llvm.fabs.f32" LLVM EAbs 4 1));
   (f64x2, IScalar 8 2 (Ex "llvm.fabs.f64" LLVM EAbs 8 1));
   (f64x4, IScalar 8 4 (Ex "llvm.fabs.f64" LLVM EAbs 8 1));
   (f64x8, IScalar 8 8 (Ex "llvm.fabs.f64" LLVM EAbs 8 1))].
(** abs.rs:56-63. *)
Definition abs_avx2 : list (vty * impl) :=
  [(f32x2, ITwice f32x4 (Ex "Sleef_fabsf4_avx2128" SLEEF EAbs 4 4));
   (f32x16, IHalves f32x8 (Ex "Sleef_fabsf8_avx2" SLEEF EAbs 4 8));
   (f64x8, IHalves f64x4 (Ex "Sleef_fabsd4_avx2" SLEEF EAbs 8 4));
   (f32x4, IVec (Ex "Sleef_fabsf4_avx2128" SLEEF EAbs 4 4));
   (f32x8, IVec (Ex "Sleef_fabsf8_avx2" SLEEF EAbs 4 8));
   (f64x2, IVec (Ex "Sleef_fabsd2_avx2128" SLEEF EAbs 8 2));
   (f64x4, IVec (Ex "Sleef_fabsd4_avx2" SLEEF EAbs 8 4))].
(** abs.rs:65-72. *)
Definition abs_avx : list (vty * impl) :=
  [(f32x2, ITwice f32x4 (Ex "Sleef_fabsf4_sse4" SLEEF EAbs 4 4));
   (f32x16, IHalves f32x8 (Ex "Sleef_fabsf8_avx" SLEEF EAbs 4 8));
   (f64x8, IHalves f64x4 (Ex "Sleef_fabsd4_avx" SLEEF EAbs 8 4));
   (f32x4, IVec (Ex "Sleef_fabsf4_sse4" SLEEF EAbs 4 4));
   (f32x8, IVec (Ex "Sleef_fabsf8_avx" SLEEF EAbs 4 8));
   (f64x2, IVec (Ex "Sleef_fabsd2_sse4" SLEEF EAbs 8 2));
   (f64x4, IVec (Ex "Sleef_fabsd4_avx" SLEEF EAbs 8 4))].
(** abs.rs:74-81. *)
Definition abs_sse42 : list (vty * impl) :=
  [(f32x2, ITwice f32x4 (Ex "Sleef_fabsf4_sse4" SLEEF EAbs 4 4));
   (f32x16, IQuarter f32x4 (Ex "Sleef_fabsf4_sse4" SLEEF EAbs 4 4));
   (f64x8, IQuarter f64x2 (Ex "Sleef_fabsd2_sse4" SLEEF EAbs 8 2));
   (f32x4, IVec (Ex "Sleef_fabsf4_sse4" SLEEF EAbs 4 4));
   (f32x8, IHalves f32x4 (Ex "Sleef_fabsf4_sse4" SLEEF EAbs 4 4));
   (f64x2, IVec (Ex "Sleef_fabsd2_sse4" SLEEF EAbs 8 2));
   (f64x4, IHalves f64x2 (Ex "Sleef_fabsd2_sse4" SLEEF EAbs 8 2))].
(** abs.rs:83-90. *)
Definition abs_sleef_else : list (vty * impl) :=
  [(f32x2, IScalar 4 2 (Ex "llvm.fabs.f32" LLVM EAbs 4 1));
   (f32x16, IVec (Ex "llvm.fabs.v16f32" LLVM EAbs 4 16));
   (f64x8, IVec (Ex "llvm.fabs.v8f64" LLVM EAbs 8 8));
   (f32x4, IVec (Ex "llvm.fabs.v4f32" LLVM EAbs 4 4));
   (f32x8, IVec (Ex "llvm.fabs.v8f32" LLVM EAbs 4 8));
   (f64x2, IVec (Ex "llvm.fabs.v2f64" LLVM EAbs 8 2));
   (f64x4, IVec (Ex "llvm.fabs.v4f64" LLVM EAbs 8 4))].
(** abs.rs:94-101. *)
Definition abs_default : list (vty * impl) :=
  [(f32x2, IScalar 4 2 (Ex "llvm.fabs.f32" LLVM EAbs 4 1));
   (f32x4, IVec (Ex "llvm.fabs.v4f32" LLVM EAbs 4 4));
   (f32x8, IVec (Ex "llvm.fabs.v8f32" LLVM EAbs 4 8));
   (f32x16, IVec (Ex "llvm.fabs.v16f32" LLVM EAbs 4 16));
   (f64x2, IVec (Ex "llvm.fabs.v2f64" LLVM EAbs 8 2));
   (f64x4, IVec (Ex "llvm.fabs.v4f64" LLVM EAbs 8 4));
   (f64x8, IVec (Ex "llvm.fabs.v8f64" LLVM EAbs 8 8))].
(** abs.rs:41-103. *)
Definition abs_table (tg : target) : list (vty * impl) :=
  if is_s390x tg then abs_s390x else
  if is_sleef tg then
    if t_avx2 tg then abs_avx2
    else if t_avx tg then abs_avx
    else if t_sse42 tg then abs_sse42
    else abs_sleef_else
  else abs_default.

(** cos.rs:44-51. *)
Definition cos_s390x : list (vty * impl) :=
  [(f32x2, IScalar 4 2 (Ex "llvm.cos.f32" LLVM ECos 4 1));
   (f32x4, IScalar 4 4 (Ex "llvm.cos.f32" LLVM ECos 4 1));
   (f32x8, IScalar 4 8 (Ex "llvm.cos.f32" LLVM ECos 4 1));
   (f32x16, IScalar 4 16 (Ex "llvm.cos.f32" LLVM ECos 4 1));
   (f64x2, IScalar 8 2 (Ex "llvm.cos.f64" LLVM ECos 8 1));
   (f64x4, IScalar 8 4 (Ex "llvm.cos.f64" LLVM ECos 8 1));
   (f64x8, IScalar 8 8 (Ex "llvm.cos.f64" LLVM ECos 8 1))].
(** cos.rs:56-63. *)
Definition cos_avx2 : list (vty * impl) :=
  [(f32x2, ITwice f32x4 (Ex "Sleef_cosf4_u10avx2128" SLEEF ECos 4 4));
   (f32x16, IHalves f32x8 (Ex "Sleef_cosf8_u10avx2" SLEEF ECos 4 8));
   (f64x8, IHalves f64x4 (Ex "Sleef_cosd4_u10avx2" SLEEF ECos 8 4));
   (f32x4, IVec (Ex "Sleef_cosf4_u10avx2128" SLEEF ECos 4 4));
   (f32x8, IVec (Ex "Sleef_cosf8_u10avx2" SLEEF ECos 4 8));
   (f64x2, IVec (Ex "Sleef_cosd2_u10avx2128" SLEEF ECos 8 2));
   (f64x4, IVec (Ex "Sleef_cosd4_u10avx2" SLEEF ECos 8 4))].
(** cos.rs:65-72. *)
Definition cos_avx : list (vty * impl) :=
  [(f32x2, ITwice f32x4 (Ex "Sleef_cosf4_u10sse4" SLEEF ECos 4 4));
   (f32x16, IHalves f32x8 (Ex "Sleef_cosf8_u10avx" SLEEF ECos 4 8));
   (f64x8, IHalves f64x4 (Ex "Sleef_cosd4_u10avx" SLEEF ECos 8 4));
   (f32x4, IVec (Ex "Sleef_cosf4_u10sse4" SLEEF ECos 4 4));
   (f32x8, IVec (Ex "Sleef_cosf8_u10avx" SLEEF ECos 4 8));
   (f64x2, IVec (Ex "Sleef_cosd2_u10sse4" SLEEF ECos 8 2));
   (f64x4, IVec (Ex "Sleef_cosd4_u10avx" SLEEF ECos 8 4))].
(** cos.rs:74-81. *)
Definition cos_sse42 : list (vty * impl) :=
  [(f32x2, ITwice f32x4 (Ex "Sleef_cosf4_u10sse4" SLEEF ECos 4 4));
   (f32x16, IQuarter f32x4 (Ex "Sleef_cosf4_u10sse4" SLEEF ECos 4 4));
   (f64x8, IQuarter f64x2 (Ex "Sleef_cosd2_u10sse4" SLEEF ECos 8 2));
   (f32x4, IVec (Ex "Sleef_cosf4_u10sse4" SLEEF ECos 4 4));
   (f32x8, IHalves f32x4 (Ex "Sleef_cosf4_u10sse4" SLEEF ECos 4 4));
   (f64x2, IVec (Ex "Sleef_cosd2_u10sse4" SLEEF ECos 8 2));
   (f64x4, IHalves f64x2 (Ex "Sleef_cosd2_u10sse4" SLEEF ECos 8 2))].
(** cos.rs:83-90. *)
Definition cos_sleef_else : list (vty * impl) :=
  [(f32x2, IScalar 4 2 (Ex "llvm.cos.f32" LLVM ECos 4 1));
   (f32x16, IVec (Ex "llvm.cos.v16f32" LLVM ECos 4 16));
   (f64x8, IVec (Ex "llvm.cos.v8f64" LLVM ECos 8 8));
   (f32x4, IVec (Ex "llvm.cos.v4f32" LLVM ECos 4 4));
   (f32x8, IVec (Ex "llvm.cos.v8f32" LLVM ECos 4 8));
   (f64x2, IVec (Ex "llvm.cos.v2f64" LLVM ECos 8 2));
   (f64x4, IVec (Ex "llvm.cos.v4f64" LLVM ECos 8 4))].
(** cos.rs:94-101. *)
Definition cos_default : list (vty * impl) :=
  [(f32x2, IScalar 4 2 (Ex "llvm.cos.f32" LLVM ECos 4 1));
   (f32x4, IVec (Ex "llvm.cos.v4f32" LLVM ECos 4 4));
   (f32x8, IVec (Ex "llvm.cos.v8f32" LLVM ECos 4 8));
   (f32x16, IVec (Ex "llvm.cos.v16f32" LLVM ECos 4 16));
   (f64x2, IVec (Ex "llvm.cos.v2f64" LLVM ECos 8 2));
   (f64x4, IVec (Ex "llvm.cos.v4f64" LLVM ECos 8 4));
   (f64x8, IVec (Ex "llvm.cos.v8f64" LLVM ECos 8 8))].
(** cos.rs:41-103. *)
Definition cos_table (tg : target) : list (vty * impl) :=
  if is_s390x tg then cos_s390x else
  if is_sleef tg then
    if t_avx2 tg then cos_avx2
    else if t_avx tg then cos_avx
    else if t_sse42 tg then cos_sse42
    else cos_sleef_else
  else cos_default.

(** cos_pi.rs:40-47. *)
Definition cos_pi_avx2 : list (vty * impl) :=
  [(f32x2, ITwice f32x4 (Ex "Sleef_cospif4_u05avx2128" SLEEF ECosPi 4 4));
   (f32x16, IHalves f32x8 (Ex "Sleef_cospif8_u05avx2" SLEEF ECosPi 4 8));
   (f64x8, IHalves f64x4 (Ex "Sleef_cospid4_u05avx2" SLEEF ECosPi 8 4));
   (f32x4, IVec (Ex "Sleef_cospif4_u05avx2128" SLEEF ECosPi 4 4));
   (f32x8, IVec (Ex "Sleef_cospif8_u05avx2" SLEEF ECosPi 4 8));
   (f64x2, IVec (Ex "Sleef_cospid2_u05avx2128" SLEEF ECosPi 8 2));
   (f64x4, IVec (Ex "Sleef_cospid4_u05avx2" SLEEF ECosPi 8 4))].
(** cos_pi.rs:49-56. *)
Definition cos_pi_avx : list (vty * impl) :=
  [(f32x2, ITwice f32x4 (Ex "Sleef_cospif4_u05sse4" SLEEF ECosPi 4 4));
   (f32x16, IHalves f32x8 (Ex "Sleef_cospif8_u05avx" SLEEF ECosPi 4 8));
   (f64x8, IHalves f64x4 (Ex "Sleef_cospid4_u05avx" SLEEF ECosPi 8 4));
   (f32x4, IVec (Ex "Sleef_cospif4_u05sse4" SLEEF ECosPi 4 4));
   (f32x8, IVec (Ex "Sleef_cospif8_u05avx" SLEEF ECosPi 4 8));
   (f64x2, IVec (Ex "Sleef_cospid2_u05sse4" SLEEF ECosPi 8 2));
   (f64x4, IVec (Ex "Sleef_cospid4_u05avx" SLEEF ECosPi 8 4))].
(** cos_pi.rs:58-65. *)
Definition cos_pi_sse42 : list (vty * impl) :=
  [(f32x2, ITwice f32x4 (Ex "Sleef_cospif4_u05sse4" SLEEF ECosPi 4 4));
   (f32x16, IQuarter f32x4 (Ex "Sleef_cospif4_u05sse4" SLEEF ECosPi 4 4));
   (f64x8, IQuarter f64x2 (Ex "Sleef_cospid2_u05sse4" SLEEF ECosPi 8 2));
   (f32x4, IVec (Ex "Sleef_cospif4_u05sse4" SLEEF ECosPi 4 4));
   (f32x8, IHalves f32x4 (Ex "Sleef_cospif4_u05sse4" SLEEF ECosPi 4 4));
   (f64x2, IVec (Ex "Sleef_cospid2_u05sse4" SLEEF ECosPi 8 2));
   (f64x4, IHalves f64x2 (Ex "Sleef_cospid2_u05sse4" SLEEF ECosPi 8 2))].
(** cos_pi.rs:67-74. *)
Definition cos_pi_sleef_else : list (vty * impl) :=
  [(f32x2, IPi);
   (f32x4, IPi);
   (f32x8, IPi);
   (f32x16, IPi);
   (f64x2, IPi);
   (f64x4, IPi);
   (f64x8, IPi)].
(** cos_pi.rs:78-85. *)
Definition cos_pi_default : list (vty * impl) :=
  [(f32x2, IPi);
   (f32x4, IPi);
   (f32x8, IPi);
   (f32x16, IPi);
   (f64x2, IPi);
   (f64x4, IPi);
   (f64x8, IPi)].
(** cos_pi.rs:35-87. *)
Definition cos_pi_table (tg : target) : list (vty * impl) :=
  if is_sleef tg then
    if t_avx2 tg then cos_pi_avx2
    else if t_avx tg then cos_pi_avx
    else if t_sse42 tg then cos_pi_sse42
    else cos_pi_sleef_else
  else cos_pi_default.

(** exp.rs:44-51. *)
Definition exp_s390x : list (vty * impl) :=
  [(f32x2, IScalar 4 2 (Ex "llvm.exp.f32" LLVM EExp 4 1));
   (f32x4, IScalar 4 4 (Ex "llvm.exp.f32" LLVM EExp 4 1));
   (f32x8, IScalar 4 8 (Ex "llvm.exp.f32" LLVM EExp 4 1));
   (f32x16, IScalar 4 16 (Ex "llvm.exp.f32" LLVM EExp 4 1));
   (f64x2, IScalar 8 2 (Ex "llvm.exp.f64" LLVM EExp 8 1));
   (f64x4, IScalar 8 4 (Ex "llvm.exp.f64" LLVM EExp 8 1));
   (f64x8, IScalar 8 8 (Ex "llvm.exp.f64" LLVM EExp 8 1))].
(** exp.rs:56-63. *)
Definition exp_avx2 : list (vty * impl) :=
  [(f32x2, ITwice f32x4 (Ex "Sleef_expf4_u10avx2128" SLEEF EExp 4 4));
   (f32x16, IHalves f32x8 (Ex "Sleef_expf8_u10avx2" SLEEF EExp 4 8));
   (f64x8, IHalves f64x4 (Ex "Sleef_expd4_u10avx2" SLEEF EExp 8 4));
   (f32x4, IVec (Ex "Sleef_expf4_u10avx2128" SLEEF EExp 4 4));
   (f32x8, IVec (Ex "Sleef_expf8_u10avx2" SLEEF EExp 4 8));
   (f64x2, IVec (Ex "Sleef_expd2_u10avx2128" SLEEF EExp 8 2));
   (f64x4, IVec (Ex "Sleef_expd4_u10avx2" SLEEF EExp 8 4))].
(** exp.rs:65-72. *)
Definition exp_avx : list (vty * impl) :=
  [(f32x2, ITwice f32x4 (Ex "Sleef_expf4_u10sse4" SLEEF EExp 4 4));
   (f32x16, IHalves f32x8 (Ex "Sleef_expf8_u10avx" SLEEF EExp 4 8));
   (f64x8, IHalves f64x4 (Ex "Sleef_expd4_u10avx" SLEEF EExp 8 4));
   (f32x4, IVec (Ex "Sleef_expf4_u10sse4" SLEEF EExp 4 4));
   (f32x8, IVec (Ex "Sleef_expf8_u10avx" SLEEF EExp 4 8));
   (f64x2, IVec (Ex "Sleef_expd2_u10sse4" SLEEF EExp 8 2));
   (f64x4, IVec (Ex "Sleef_expd4_u10avx" SLEEF EExp 8 4))].
(** exp.rs:74-81. *)
Definition exp_sse42 : list (vty * impl) :=
  [(f32x2, ITwice f32x4 (Ex "Sleef_expf4_u10sse4" SLEEF EExp 4 4));
   (f32x16, IQuarter f32x4 (Ex "Sleef_expf4_u10sse4" SLEEF EExp 4 4));
   (f64x8, IQuarter f64x2 (Ex "Sleef_expd2_u10sse4" SLEEF EExp 8 2));
   (f32x4, IVec (Ex "Sleef_expf4_u10sse4" SLEEF EExp 4 4));
   (f32x8, IHalves f32x4 (Ex "Sleef_expf4_u10sse4" SLEEF EExp 4 4));
   (f64x2, IVec (Ex "Sleef_expd2_u10sse4" SLEEF EExp 8 2));
   (f64x4, IHalves f64x2 (Ex "Sleef_expd2_u10sse4" SLEEF EExp 8 2))].
(** exp.rs:83-90. *)
Definition exp_sse2 : list (vty * impl) :=
  [(f32x2, ITwice f32x4 (Ex "Sleef_expf4_u10sse2" SLEEF EExp 4 4));
   (f32x16, IQuarter f32x4 (Ex "Sleef_expf4_u10sse2" SLEEF EExp 4 4));
   (f64x8, IQuarter f64x2 (Ex "Sleef_expd2_u10sse2" SLEEF EExp 8 2));
   (f32x4, IVec (Ex "Sleef_expf4_u10sse2" SLEEF EExp 4 4));
   (f32x8, IHalves f32x4 (Ex "Sleef_expf4_u10sse2" SLEEF EExp 4 4));
   (f64x2, IVec (Ex "Sleef_expd2_u10sse2" SLEEF EExp 8 2));
   (f64x4, IHalves f64x2 (Ex "Sleef_expd2_u10sse2" SLEEF EExp 8 2))].
(** exp.rs:92-99. *)
Definition exp_sleef_else : list (vty * impl) :=
  [(f32x2, IScalar 4 2 (Ex "llvm.exp.f32" LLVM EExp 4 1));
   (f32x16, IVec (Ex "llvm.exp.v16f32" LLVM EExp 4 16));
   (f64x8, IVec (Ex "llvm.exp.v8f64" LLVM EExp 8 8));
   (f32x4, IVec (Ex "llvm.exp.v4f32" LLVM EExp 4 4));
   (f32x8, IVec (Ex "llvm.exp.v8f32" LLVM EExp 4 8));
   (f64x2, IVec (Ex "llvm.exp.v2f64" LLVM EExp 8 2));
   (f64x4, IVec (Ex "llvm.exp.v4f64" LLVM EExp 8 4))].
(** exp.rs:103-110. *)
Definition exp_default : list (vty * impl) :=
  [(f32x2, IScalar 4 2 (Ex "llvm.exp.f32" LLVM EExp 4 1));
   (f32x4, IVec (Ex "llvm.exp.v4f32" LLVM EExp 4 4));
   (f32x8, IVec (Ex "llvm.exp.v8f32" LLVM EExp 4 8));
   (f32x16, IVec (Ex "llvm.exp.v16f32" LLVM EExp 4 16));
   (f64x2, IVec (Ex "llvm.exp.v2f64" LLVM EExp 8 2));
   (f64x4, IVec (Ex "llvm.exp.v4f64" LLVM EExp 8 4));
   (f64x8, IVec (Ex "llvm.exp.v8f64" LLVM EExp 8 8))].
(** exp.rs:41-112. *)
Definition exp_table (tg : target) : list (vty * impl) :=
  if is_s390x tg then exp_s390x else
  if is_sleef tg then
    if t_avx2 tg then exp_avx2
    else if t_avx tg then exp_avx
    else if t_sse42 tg then exp_sse42
    else if t_sse2 tg then exp_sse2
    else exp_sleef_else
  else exp_default.

(** ln.rs:44-51. *)
Definition ln_s390x : list (vty * impl) :=
  [(f32x2, IScalar 4 2 (Ex "llvm.log.f32" LLVM ELn 4 1));
   (f32x4, IScalar 4 4 (Ex "llvm.log.f32" LLVM ELn 4 1));
   (f32x8, IScalar 4 8 (Ex "llvm.log.f32" LLVM ELn 4 1));
   (f32x16, IScalar 4 16 (Ex "llvm.log.f32" LLVM ELn 4 1));
   (f64x2, IScalar 8 2 (Ex "llvm.log.f64" LLVM ELn 8 1));
   (f64x4, IScalar 8 4 (Ex "llvm.log.f64" LLVM ELn 8 1));
   (f64x8, IScalar 8 8 (Ex "llvm.log.f64" LLVM ELn 8 1))].
(** ln.rs:56-63. *)
Definition ln_avx2 : list (vty * impl) :=
  [(f32x2, ITwice f32x4 (Ex "Sleef_logf4_u10avx2128" SLEEF ELn 4 4));
   (f32x16, IHalves f32x8 (Ex "Sleef_logf8_u10avx2" SLEEF ELn 4 8));
   (f64x8, IHalves f64x4 (Ex "Sleef_logd4_u10avx2" SLEEF ELn 8 4));
   (f32x4, IVec (Ex "Sleef_logf4_u10avx2128" SLEEF ELn 4 4));
   (f32x8, IVec (Ex "Sleef_logf8_u10avx2" SLEEF ELn 4 8));
   (f64x2, IVec (Ex "Sleef_logd2_u10avx2128" SLEEF ELn 8 2));
   (f64x4, IVec (Ex "Sleef_logd4_u10avx2" SLEEF ELn 8 4))].
(** ln.rs:65-72. *)
Definition ln_avx : list (vty * impl) :=
  [(f32x2, ITwice f32x4 (Ex "Sleef_logf4_u10sse4" SLEEF ELn 4 4));
   (f32x16, IHalves f32x8 (Ex "Sleef_logf8_u10avx" SLEEF ELn 4 8));
   (f64x8, IHalves f64x4 (Ex "Sleef_logd4_u10avx" SLEEF ELn 8 4));
   (f32x4, IVec (Ex "Sleef_logf4_u10sse4" SLEEF ELn 4 4));
   (f32x8, IVec (Ex "Sleef_logf8_u10avx" SLEEF ELn 4 8));
   (f64x2, IVec (Ex "Sleef_logd2_u10sse4" SLEEF ELn 8 2));
   (f64x4, IVec (Ex "Sleef_logd4_u10avx" SLEEF ELn 8 4))].
(** ln.rs:74-81. *)
Definition ln_sse42 : list (vty * impl) :=
  [(f32x2, ITwice f32x4 (Ex "Sleef_logf4_u10sse4" SLEEF ELn 4 4));
   (f32x16, IQuarter f32x4 (Ex "Sleef_logf4_u10sse4" SLEEF ELn 4 4));
   (f64x8, IQuarter f64x2 (Ex "Sleef_logd2_u10sse4" SLEEF ELn 8 2));
   (f32x4, IVec (Ex "Sleef_logf4_u10sse4" SLEEF ELn 4 4));
   (f32x8, IHalves f32x4 (Ex "Sleef_logf4_u10sse4" SLEEF ELn 4 4));
   (f64x2, IVec (Ex "Sleef_logd2_u10sse4" SLEEF ELn 8 2));
   (f64x4, IHalves f64x2 (Ex "Sleef_logd2_u10sse4" SLEEF ELn 8 2))].
(** ln.rs:83-90. *)
Definition ln_sse2 : list (vty * impl) :=
  [(f32x2, ITwice f32x4 (Ex "Sleef_logf4_u10sse2" SLEEF ELn 4 4));
   (f32x16, IQuarter f32x4 (Ex "Sleef_logf4_u10sse2" SLEEF ELn 4 4));
   (f64x8, IQuarter f64x2 (Ex "Sleef_logd2_u10sse2" SLEEF ELn 8 2));
   (f32x4, IVec (Ex "Sleef_logf4_u10sse2" SLEEF ELn 4 4));
   (f32x8, IHalves f32x4 (Ex "Sleef_logf4_u10sse2" SLEEF ELn 4 4));
   (f64x2, IVec (Ex "Sleef_logd2_u10sse2" SLEEF ELn 8 2));
   (f64x4, IHalves f64x2 (Ex "Sleef_logd2_u10sse2" SLEEF ELn 8 2))].
(** ln.rs:92-99. *)
Definition ln_sleef_else : list (vty * impl) :=
  [(f32x2, IScalar 4 2 (Ex "llvm.log.f32" LLVM ELn 4 1));
   (f32x16, IVec (Ex "llvm.log.v16f32" LLVM ELn 4 16));
   (f64x8, IVec (Ex "llvm.log.v8f64" LLVM ELn 8 8));
   (f32x4, IVec (Ex "llvm.log.v4f32" LLVM ELn 4 4));
   (f32x8, IVec (Ex "llvm.log.v8f32" LLVM ELn 4 8));
   (f64x2, IVec (Ex "llvm.log.v2f64" LLVM ELn 8 2));
   (f64x4, IVec (Ex "llvm.log.v4f64" LLVM ELn 8 4))].
(** ln.rs:103-110. *)
Definition ln_default : list (vty * impl) :=
  [(f32x2, IScalar 4 2 (Ex "llvm.log.f32" LLVM ELn 4 1));
   (f32x4, IVec (Ex "llvm.log.v4f32" LLVM ELn 4 4));
   (f32x8, IVec (Ex "llvm.log.v8f32" LLVM ELn 4 8));
   (f32x16, IVec (Ex "llvm.log.v16f32" LLVM ELn 4 16));
   (f64x2, IVec (Ex "llvm.log.v2f64" LLVM ELn 8 2));
   (f64x4, IVec (Ex "llvm.log.v4f64" LLVM ELn 8 4));
   (f64x8, IVec (Ex "llvm.log.v8f64" LLVM ELn 8 8))].
(** ln.rs:41-112. *)
Definition ln_table (tg : target) : list (vty * impl) :=
  if is_s390x tg then ln_s390x else
  if is_sleef tg then
    if t_avx2 tg then ln_avx2
    else if t_avx tg then ln_avx
    else if t_sse42 tg then ln_sse42
    else if t_sse2 tg then ln_sse2
    else ln_sleef_else
  else ln_default.

(** sin.rs:44-51. *)
Definition sin_s390x : list (vty * impl) :=
  [(f32x2, IScalar 4 2 (Ex "llvm.sin.f32" LLVM ESin 4 1));
   (f32x4, IScalar 4 4 (Ex "llvm.sin.f32" LLVM ESin 4 1));
   (f32x8, IScalar 4 8 (Ex "llvm.sin.f32" LLVM ESin 4 1));
   (f32x16, IScalar 4 16 (Ex "llvm.sin.f32" LLVM ESin 4 1));
   (f64x2, IScalar 8 2 (Ex "llvm.sin.f64" LLVM ESin 8 1));
   (f64x4, IScalar 8 4 (Ex "llvm.sin.f64" LLVM ESin 8 1));
   (f64x8, IScalar 8 8 (Ex "llvm.sin.f64" LLVM ESin 8 1))].
(** sin.rs:56-63. *)
Definition sin_avx2 : list (vty * impl) :=
  [(f32x2, ITwice f32x4 (Ex "Sleef_sinf4_u10avx2128" SLEEF ESin 4 4));
   (f32x16, IHalves f32x8 (Ex "Sleef_sinf8_u10avx2" SLEEF ESin 4 8));
   (f64x8, IHalves f64x4 (Ex "Sleef_sind4_u10avx2" SLEEF ESin 8 4));
   (f32x4, IVec (Ex "Sleef_sinf4_u10avx2128" SLEEF ESin 4 4));
   (f32x8, IVec (Ex "Sleef_sinf8_u10avx2" SLEEF ESin 4 8));
   (f64x2, IVec (Ex "Sleef_sind2_u10avx2128" SLEEF ESin 8 2));
   (f64x4, IVec (Ex "Sleef_sind4_u10avx2" SLEEF ESin 8 4))].
(** sin.rs:65-72. *)
Definition sin_avx : list (vty * impl) :=
  [(f32x2, ITwice f32x4 (Ex "Sleef_sinf4_u10sse4" SLEEF ESin 4 4));
   (f32x16, IHalves f32x8 (Ex "Sleef_sinf8_u10avx" SLEEF ESin 4 8));
   (f64x8, IHalves f64x4 (Ex "Sleef_sind4_u10avx" SLEEF ESin 8 4));
   (f32x4, IVec (Ex "Sleef_sinf4_u10sse4" SLEEF ESin 4 4));
   (f32x8, IVec (Ex "Sleef_sinf8_u10avx" SLEEF ESin 4 8));
   (f64x2, IVec (Ex "Sleef_sind2_u10sse4" SLEEF ESin 8 2));
   (f64x4, IVec (Ex "Sleef_sind4_u10avx" SLEEF ESin 8 4))].
(** sin.rs:74-81. *)
Definition sin_sse42 : list (vty * impl) :=
  [(f32x2, ITwice f32x4 (Ex "Sleef_sinf4_u10sse4" SLEEF ESin 4 4));
   (f32x16, IQuarter f32x4 (Ex "Sleef_sinf4_u10sse4" SLEEF ESin 4 4));
   (f64x8, IQuarter f64x2 (Ex "Sleef_sind2_u10sse4" SLEEF ESin 8 2));
   (f32x4, IVec (Ex "Sleef_sinf4_u10sse4" SLEEF ESin 4 4));
   (f32x8, IHalves f32x4 (Ex "Sleef_sinf4_u10sse4" SLEEF ESin 4 4));
   (f64x2, IVec (Ex "Sleef_sind2_u10sse4" SLEEF ESin 8 2));
   (f64x4, IHalves f64x2 (Ex "Sleef_sind2_u10sse4" SLEEF ESin 8 2))].
(** sin.rs:83-90. *)
Definition sin_sleef_else : list (vty * impl) :=
  [(f32x2, IScalar 4 2 (Ex "llvm.sin.f32" LLVM ESin 4 1));
   (f32x16, IVec (Ex "llvm.sin.v16f32" LLVM ESin 4 16));
   (f64x8, IVec (Ex "llvm.sin.v8f64" LLVM ESin 8 8));
   (f32x4, IVec (Ex "llvm.sin.v4f32" LLVM ESin 4 4));
   (f32x8, IVec (Ex "llvm.sin.v8f32" LLVM ESin 4 8));
   (f64x2, IVec (Ex "llvm.sin.v2f64" LLVM ESin 8 2));
   (f64x4, IVec (Ex "llvm.sin.v4f64" LLVM ESin 8 4))].
(** sin.rs:94-101. *)
Definition sin_default : list (vty * impl) :=
  [(f32x2, IScalar 4 2 (Ex "llvm.sin.f32" LLVM ESin 4 1));
   (f32x4, IVec (Ex "llvm.sin.v4f32" LLVM ESin 4 4));
   (f32x8, IVec (Ex "llvm.sin.v8f32" LLVM ESin 4 8));
   (f32x16, IVec (Ex "llvm.sin.v16f32" LLVM ESin 4 16));
   (f64x2, IVec (Ex "llvm.sin.v2f64" LLVM ESin 8 2));
   (f64x4, IVec (Ex "llvm.sin.v4f64" LLVM ESin 8 4));
   (f64x8, IVec (Ex "llvm.sin.v8f64" LLVM ESin 8 8))].
(** sin.rs:41-103. *)
Definition sin_table (tg : target) : list (vty * impl) :=
  if is_s390x tg then sin_s390x else
  if is_sleef tg then
    if t_avx2 tg then sin_avx2
    else if t_avx tg then sin_avx
    else if t_sse42 tg then sin_sse42
    else sin_sleef_else
  else sin_default.

(** sin_pi.rs:40-47. *)
Definition sin_pi_avx2 : list (vty * impl) :=
  [(f32x2, ITwice f32x4 (Ex "Sleef_sinpif4_u05avx2128" SLEEF ESinPi 4 4));
   (f32x16, IHalves f32x8 (Ex "Sleef_sinpif8_u05avx2" SLEEF ESinPi 4 8));
   (f64x8, IHalves f64x4 (Ex "Sleef_sinpid4_u05avx2" SLEEF ESinPi 8 4));
   (f32x4, IVec (Ex "Sleef_sinpif4_u05avx2128" SLEEF ESinPi 4 4));
   (f32x8, IVec (Ex "Sleef_sinpif8_u05avx2" SLEEF ESinPi 4 8));
   (f64x2, IVec (Ex "Sleef_sinpid2_u05avx2128" SLEEF ESinPi 8 2));
   (f64x4, IVec (Ex "Sleef_sinpid4_u05avx2" SLEEF ESinPi 8 4))].
(** sin_pi.rs:49-56. *)
Definition sin_pi_avx : list (vty * impl) :=
  [(f32x2, ITwice f32x4 (Ex "Sleef_sinpif4_u05sse4" SLEEF ESinPi 4 4));
   (f32x16, IHalves f32x8 (Ex "Sleef_sinpif8_u05avx" SLEEF ESinPi 4 8));
   (f64x8, IHalves f64x4 (Ex "Sleef_sinpid4_u05avx" SLEEF ESinPi 8 4));
   (f32x4, IVec (Ex "Sleef_sinpif4_u05sse4" SLEEF ESinPi 4 4));
   (f32x8, IVec (Ex "Sleef_sinpif8_u05avx" SLEEF ESinPi 4 8));
   (f64x2, IVec (Ex "Sleef_sinpid2_u05sse4" SLEEF ESinPi 8 2));
   (f64x4, IVec (Ex "Sleef_sinpid4_u05avx" SLEEF ESinPi 8 4))].
(** sin_pi.rs:58-65. *)
Definition sin_pi_sse42 : list (vty * impl) :=
  [(f32x2, ITwice f32x4 (Ex "Sleef_sinpif4_u05sse4" SLEEF ESinPi 4 4));
   (f32x16, IQuarter f32x4 (Ex "Sleef_sinpif4_u05sse4" SLEEF ESinPi 4 4));
   (f64x8, IQuarter f64x2 (Ex "Sleef_sinpid2_u05sse4" SLEEF ESinPi 8 2));
   (f32x4, IVec (Ex "Sleef_sinpif4_u05sse4" SLEEF ESinPi 4 4));
   (f32x8, IHalves f32x4 (Ex "Sleef_sinpif4_u05sse4" SLEEF ESinPi 4 4));
   (f64x2, IVec (Ex "Sleef_sinpid2_u05sse4" SLEEF ESinPi 8 2));
   (f64x4, IHalves f64x2 (Ex "Sleef_sinpid2_u05sse4" SLEEF ESinPi 8 2))].
(** sin_pi.rs:67-74. *)
Definition sin_pi_sleef_else : list (vty * impl) :=
  [(f32x2, IPi);
   (f32x4, IPi);
   (f32x8, IPi);
   (f32x16, IPi);
   (f64x2, IPi);
   (f64x4, IPi);
   (f64x8, IPi)].
(** sin_pi.rs:78-85. *)
Definition sin_pi_default : list (vty * impl) :=
  [(f32x2, IPi);
   (f32x4, IPi);
   (f32x8, IPi);
   (f32x16, IPi);
   (f64x2, IPi);
   (f64x4, IPi);
   (f64x8, IPi)].
(** sin_pi.rs:35-87. *)
Definition sin_pi_table (tg : target) : list (vty * impl) :=
  if is_sleef tg then
    if t_avx2 tg then sin_pi_avx2
    else if t_avx tg then sin_pi_avx
    else if t_sse42 tg then sin_pi_sse42
    else sin_pi_sleef_else
  else sin_pi_default.

(** sqrt.rs:44-51. *)
Definition sqrt_s390x : list (vty * impl) :=
  [(f32x2, IScalar 4 2 (Ex "llvm.sqrt.f32" LLVM ESqrt 4 1));
   (f32x4, IScalar 4 4 (Ex "llvm.sqrt.f32" LLVM ESqrt 4 1));
   (f32x8, IScalar 4 8 (Ex "llvm.sqrt.f32" LLVM ESqrt 4 1));
   (f32x16, IScalar 4 16 (Ex "llvm.sqrt.f32" LLVM ESqrt 4 1));
   (f64x2, IScalar 8 2 (Ex "llvm.sqrt.f64" LLVM ESqrt 8 1));
   (f64x4, IScalar 8 4 (Ex "llvm.sqrt.f64" LLVM ESqrt 8 1));
   (f64x8, IScalar 8 8 (Ex "llvm.sqrt.f64" LLVM ESqrt 8 1))].
(** sqrt.rs:56-63. *)
Definition sqrt_avx2 : list (vty * impl) :=
  [(f32x2, ITwice f32x4 (Ex "Sleef_sqrtf4_avx2128" SLEEF ESqrt 4 4));
   (f32x16, IHalves f32x8 (Ex "Sleef_sqrtf8_avx2" SLEEF ESqrt 4 8));
   (f64x8, IHalves f64x4 (Ex "Sleef_sqrtd4_avx2" SLEEF ESqrt 8 4));
   (f32x4, IVec (Ex "Sleef_sqrtf4_avx2128" SLEEF ESqrt 4 4));
   (f32x8, IVec (Ex "Sleef_sqrtf8_avx2" SLEEF ESqrt 4 8));
   (f64x2, IVec (Ex "Sleef_sqrtd2_avx2128" SLEEF ESqrt 8 2));
   (f64x4, IVec (Ex "Sleef_sqrtd4_avx2" SLEEF ESqrt 8 4))].
(** sqrt.rs:65-72. *)
Definition sqrt_avx : list (vty * impl) :=
  [(f32x2, ITwice f32x4 (Ex "Sleef_sqrtf4_sse4" SLEEF ESqrt 4 4));
   (f32x16, IHalves f32x8 (Ex "Sleef_sqrtf8_avx" SLEEF ESqrt 4 8));
   (f64x8, IHalves f64x4 (Ex "Sleef_sqrtd4_avx" SLEEF ESqrt 8 4));
   (f32x4, IVec (Ex "Sleef_sqrtf4_sse4" SLEEF ESqrt 4 4));
   (f32x8, IVec (Ex "Sleef_sqrtf8_avx" SLEEF ESqrt 4 8));
   (f64x2, IVec (Ex "Sleef_sqrtd2_sse4" SLEEF ESqrt 8 2));
   (f64x4, IVec (Ex "Sleef_sqrtd4_avx" SLEEF ESqrt 8 4))].
(** sqrt.rs:74-81. *)
Definition sqrt_sse42 : list (vty * impl) :=
  [(f32x2, ITwice f32x4 (Ex "Sleef_sqrtf4_sse4" SLEEF ESqrt 4 4));
   (f32x16, IQuarter f32x4 (Ex "Sleef_sqrtf4_sse4" SLEEF ESqrt 4 4));
   (f64x8, IQuarter f64x2 (Ex "Sleef_sqrtd2_sse4" SLEEF ESqrt 8 2));
   (f32x4, IVec (Ex "Sleef_sqrtf4_sse4" SLEEF ESqrt 4 4));
   (f32x8, IHalves f32x4 (Ex "Sleef_sqrtf4_sse4" SLEEF ESqrt 4 4));
   (f64x2, IVec (Ex "Sleef_sqrtd2_sse4" SLEEF ESqrt 8 2));
   (f64x4, IHalves f64x2 (Ex "Sleef_sqrtd2_sse4" SLEEF ESqrt 8 2))].
(** sqrt.rs:83-90. *)
Definition sqrt_sleef_else : list (vty * impl) :=
  [(f32x2, IScalar 4 2 (Ex "llvm.sqrt.f32" LLVM ESqrt 4 1));
   (f32x16, IVec (Ex "llvm.sqrt.v16f32" LLVM ESqrt 4 16));
   (f64x8, IVec (Ex "llvm.sqrt.v8f64" LLVM ESqrt 8 8));
   (f32x4, IVec (Ex "llvm.sqrt.v4f32" LLVM ESqrt 4 4));
   (f32x8, IVec (Ex "llvm.sqrt.v8f32" LLVM ESqrt 4 8));
   (f64x2, IVec (Ex "llvm.sqrt.v2f64" LLVM ESqrt 8 2));
   (f64x4, IVec (Ex "llvm.sqrt.v4f64" LLVM ESqrt 8 4))].
(** sqrt.rs:94-101. *)
Definition sqrt_default : list (vty * impl) :=
  [(f32x2, IScalar 4 2 (Ex "llvm.sqrt.f32" LLVM ESqrt 4 1));
   (f32x4, IVec (Ex "llvm.sqrt.v4f32" LLVM ESqrt 4 4));
   (f32x8, IVec (Ex "llvm.sqrt.v8f32" LLVM ESqrt 4 8));
   (f32x16, IVec (Ex "llvm.sqrt.v16f32" LLVM ESqrt 4 16));
   (f64x2, IVec (Ex "llvm.sqrt.v2f64" LLVM ESqrt 8 2));
   (f64x4, IVec (Ex "llvm.sqrt.v4f64" LLVM ESqrt 8 4));
   (f64x8, IVec (Ex "llvm.sqrt.v8f64" LLVM ESqrt 8 8))].
(** sqrt.rs:41-103. *)
Definition sqrt_table (tg : target) : list (vty * impl) :=
  if is_s390x tg then sqrt_s390x else
  if is_sleef tg then
    if t_avx2 tg then sqrt_avx2
    else if t_avx tg then sqrt_avx
    else if t_sse42 tg then sqrt_sse42
    else sqrt_sleef_else
  else sqrt_default.

(** sqrte.rs:20-27. *)
Definition sqrte_avx2 : list (vty * impl) :=
  [(f32x2, ITwice f32x4 (Ex "Sleef_sqrtf4_u35avx2128" SLEEF ESqrt 4 4));
   (f32x16, IHalves f32x8 (Ex "Sleef_sqrtf8_u35avx2" SLEEF ESqrt 4 8));
   (f64x8, IHalves f64x4 (Ex "Sleef_sqrtd4_u35avx2" SLEEF ESqrt 8 4));
   (f32x4, IVec (Ex "Sleef_sqrtf4_u35avx2128" SLEEF ESqrt 4 4));
   (f32x8, IVec (Ex "Sleef_sqrtf8_u35avx2" SLEEF ESqrt 4 8));
   (f64x2, IVec (Ex "Sleef_sqrtd2_u35avx2128" SLEEF ESqrt 8 2));
   (f64x4, IVec (Ex "Sleef_sqrtd4_u35avx2" SLEEF ESqrt 8 4))].
(** sqrte.rs:29-36. *)
Definition sqrte_avx : list (vty * impl) :=
  [(f32x2, ITwice f32x4 (Ex "Sleef_sqrtf4_u35sse4" SLEEF ESqrt 4 4));
   (f32x16, IHalves f32x8 (Ex "Sleef_sqrtf8_u35avx" SLEEF ESqrt 4 8));
   (f64x8, IHalves f64x4 (Ex "Sleef_sqrtd4_u35avx" SLEEF ESqrt 8 4));
   (f32x4, IVec (Ex "Sleef_sqrtf4_u35sse4" SLEEF ESqrt 4 4));
   (f32x8, IVec (Ex "Sleef_sqrtf8_u35avx" SLEEF ESqrt 4 8));
   (f64x2, IVec (Ex "Sleef_sqrtd2_u35sse4" SLEEF ESqrt 8 2));
   (f64x4, IVec (Ex "Sleef_sqrtd4_u35avx" SLEEF ESqrt 8 4))].
(** sqrte.rs:38-45. *)
Definition sqrte_sse42 : list (vty * impl) :=
  [(f32x2, ITwice f32x4 (Ex "Sleef_sqrtf4_u35sse4" SLEEF ESqrt 4 4));
   (f32x16, IQuarter f32x4 (Ex "Sleef_sqrtf4_u35sse4" SLEEF ESqrt 4 4));
   (f64x8, IQuarter f64x2 (Ex "Sleef_sqrtd2_u35sse4" SLEEF ESqrt 8 2));
   (f32x4, IVec (Ex "Sleef_sqrtf4_u35sse4" SLEEF ESqrt 4 4));
   (f32x8, IHalves f32x4 (Ex "Sleef_sqrtf4_u35sse4" SLEEF ESqrt 4 4));
   (f64x2, IVec (Ex "Sleef_sqrtd2_u35sse4" SLEEF ESqrt 8 2));
   (f64x4, IHalves f64x2 (Ex "Sleef_sqrtd2_u35sse4" SLEEF ESqrt 8 2))].
(** sqrte.rs:47-54. *)
Definition sqrte_sleef_else : list (vty * impl) :=
  [(f32x2, IGen (Ex "simd_fsqrt" LLVM ESqrt 4 2));
   (f32x16, IGen (Ex "simd_fsqrt" LLVM ESqrt 4 16));
   (f64x8, IGen (Ex "simd_fsqrt" LLVM ESqrt 8 8));
   (f32x4, IGen (Ex "simd_fsqrt" LLVM ESqrt 4 4));
   (f32x8, IGen (Ex "simd_fsqrt" LLVM ESqrt 4 8));
   (f64x2, IGen (Ex "simd_fsqrt" LLVM ESqrt 8 2));
   (f64x4, IGen (Ex "simd_fsqrt" LLVM ESqrt 8 4))].
(** sqrte.rs:58-65. *)
Definition sqrte_default : list (vty * impl) :=
  [(f32x2, IGen (Ex "simd_fsqrt" LLVM ESqrt 4 2));
   (f32x4, IGen (Ex "simd_fsqrt" LLVM ESqrt 4 4));
   (f32x8, IGen (Ex "simd_fsqrt" LLVM ESqrt 4 8));
   (f32x16, IGen (Ex "simd_fsqrt" LLVM ESqrt 4 16));
   (f64x2, IGen (Ex "simd_fsqrt" LLVM ESqrt 8 2));
   (f64x4, IGen (Ex "simd_fsqrt" LLVM ESqrt 8 4));
   (f64x8, IGen (Ex "simd_fsqrt" LLVM ESqrt 8 8))].
(** sqrte.rs:15-67. *)
Definition sqrte_table (tg : target) : list (vty * impl) :=
  if is_sleef tg then
    if t_avx2 tg then sqrte_avx2
    else if t_avx tg then sqrte_avx
    else if t_sse42 tg then sqrte_sse42
    else sqrte_sleef_else
  else sqrte_default.

(** tanh.rs:61-68. *)
Definition tanh_s390x : list (vty * impl) :=
  [(f32x2, IScalar 4 2 (Ex "Float::tanh" Core ETanh 4 1));
   (f32x4, IScalar 4 4 (Ex "Float::tanh" Core ETanh 4 1));
   (f32x8, IScalar 4 8 (Ex "Float::tanh" Core ETanh 4 1));
   (f32x16, IScalar 4 16 (Ex "Float::tanh" Core ETanh 4 1));
   (f64x2, IScalar 8 2 (Ex "Float::tanh" Core ETanh 8 1));
   (f64x4, IScalar 8 4 (Ex "Float::tanh" Core ETanh 8 1));
   (f64x8, IScalar 8 8 (Ex "Float::tanh" Core ETanh 8 1))].
(** tanh.rs:73-80. *)
Definition tanh_avx2 : list (vty * impl) :=
  [(f32x2, ITwice f32x4 (Ex "Sleef_tanhf4_u10avx2128" SLEEF ETanh 4 4));
   (f32x16, IHalves f32x8 (Ex "Sleef_tanhf8_u10avx2" SLEEF ETanh 4 8));
   (f64x8, IHalves f64x4 (Ex "Sleef_tanhd4_u10avx2" SLEEF ETanh 8 4));
   (f32x4, IVec (Ex "Sleef_tanhf4_u10avx2128" SLEEF ETanh 4 4));
   (f32x8, IVec (Ex "Sleef_tanhf8_u10avx2" SLEEF ETanh 4 8));
   (f64x2, IVec (Ex "Sleef_tanhd2_u10avx2128" SLEEF ETanh 8 2));
   (f64x4, IVec (Ex "Sleef_tanhd4_u10avx2" SLEEF ETanh 8 4))].
(** tanh.rs:82-89. *)
Definition tanh_avx : list (vty * impl) :=
  [(f32x2, ITwice f32x4 (Ex "Sleef_tanhf4_u10sse4" SLEEF ETanh 4 4));
   (f32x16, IHalves f32x8 (Ex "Sleef_tanhf8_u10avx" SLEEF ETanh 4 8));
   (f64x8, IHalves f64x4 (Ex "Sleef_tanhd4_u10avx" SLEEF ETanh 8 4));
   (f32x4, IVec (Ex "Sleef_tanhf4_u10sse4" SLEEF ETanh 4 4));
   (f32x8, IVec (Ex "Sleef_tanhf8_u10avx" SLEEF ETanh 4 8));
   (f64x2, IVec (Ex "Sleef_tanhd2_u10sse4" SLEEF ETanh 8 2));
   (f64x4, IVec (Ex "Sleef_tanhd4_u10avx" SLEEF ETanh 8 4))].
(** tanh.rs:91-98. *)
Definition tanh_sse42 : list (vty * impl) :=
  [(f32x2, ITwice f32x4 (Ex "Sleef_tanhf4_u10sse4" SLEEF ETanh 4 4));
   (f32x16, IQuarter f32x4 (Ex "Sleef_tanhf4_u10sse4" SLEEF ETanh 4 4));
   (f64x8, IQuarter f64x2 (Ex "Sleef_tanhd2_u10sse4" SLEEF ETanh 8 2));
   (f32x4, IVec (Ex "Sleef_tanhf4_u10sse4" SLEEF ETanh 4 4));
   (f32x8, IHalves f32x4 (Ex "Sleef_tanhf4_u10sse4" SLEEF ETanh 4 4));
   (f64x2, IVec (Ex "Sleef_tanhd2_u10sse4" SLEEF ETanh 8 2));
   (f64x4, IHalves f64x2 (Ex "Sleef_tanhd2_u10sse4" SLEEF ETanh 8 2))].
(** tanh.rs:100-107. *)
Definition tanh_sleef_else : list (vty * impl) :=
  [(f32x2, IScalar 4 2 (Ex "Float::tanh" Core ETanh 4 1));
   (f32x16, IVec (Ex "tanh_v16f32" Crate ETanh 4 16));
   (f64x8, IVec (Ex "tanh_v8f64" Crate ETanh 8 8));
   (f32x4, IVec (Ex "tanh_v4f32" Crate ETanh 4 4));
   (f32x8, IVec (Ex "tanh_v8f32" Crate ETanh 4 8));
   (f64x2, IVec (Ex "tanh_v2f64" Crate ETanh 8 2));
   (f64x4, IVec (Ex "tanh_v4f64" Crate ETanh 8 4))].
(** tanh.rs:111-118. *)
Definition tanh_default : list (vty * impl) :=
  [(f32x2, IScalar 4 2 (Ex "Float::tanh" Core ETanh 4 1));
   (f32x4, IVec (Ex "tanh_v4f32" Crate ETanh 4 4));
   (f32x8, IVec (Ex "tanh_v8f32" Crate ETanh 4 8));
   (f32x16, IVec (Ex "tanh_v16f32" Crate ETanh 4 16));
   (f64x2, IVec (Ex "tanh_v2f64" Crate ETanh 8 2));
   (f64x4, IVec (Ex "tanh_v4f64" Crate ETanh 8 4));
   (f64x8, IVec (Ex "tanh_v8f64" Crate ETanh 8 8))].
(** tanh.rs:58-120. *)
Definition tanh_table (tg : target) : list (vty * impl) :=
  if is_s390x tg then tanh_s390x else
  if is_sleef tg then
    if t_avx2 tg then tanh_avx2
    else if t_avx tg then tanh_avx
    else if t_sse42 tg then tanh_sse42
    else tanh_sleef_else
  else tanh_default.

(** powf.rs:44-51. *)
Definition powf_s390x : list (vty * impl) :=
  [(f32x2, IScalar 4 2 (Ex "llvm.pow.f32" LLVM EPow 4 1));
   (f32x4, IScalar 4 4 (Ex "llvm.pow.f32" LLVM EPow 4 1));
   (f32x8, IScalar 4 8 (Ex "llvm.pow.f32" LLVM EPow 4 1));
   (f32x16, IScalar 4 16 (Ex "llvm.pow.f32" LLVM EPow 4 1));
   (f64x2, IScalar 8 2 (Ex "llvm.pow.f64" LLVM EPow 8 1));
   (f64x4, IScalar 8 4 (Ex "llvm.pow.f64" LLVM EPow 8 1));
   (f64x8, IScalar 8 8 (Ex "llvm.pow.f64" LLVM EPow 8 1))].
(** powf.rs:56-63. *)
Definition powf_avx2 : list (vty * impl) :=
  [(f32x2, ITwice f32x4 (Ex "Sleef_powf4_u10avx2128" SLEEF EPow 4 4));
   (f32x16, IHalves f32x8 (Ex "Sleef_powf8_u10avx2" SLEEF EPow 4 8));
   (f64x8, IHalves f64x4 (Ex "Sleef_powd4_u10avx2" SLEEF EPow 8 4));
   (f32x4, IVec (Ex "Sleef_powf4_u10avx2128" SLEEF EPow 4 4));
   (f32x8, IVec (Ex "Sleef_powf8_u10avx2" SLEEF EPow 4 8));
   (f64x2, IVec (Ex "Sleef_powd2_u10avx2128" SLEEF EPow 8 2));
   (f64x4, IVec (Ex "Sleef_powd4_u10avx2" SLEEF EPow 8 4))].
(** powf.rs:65-72. *)
Definition powf_avx : list (vty * impl) :=
  [(f32x2, ITwice f32x4 (Ex "Sleef_powf4_u10sse4" SLEEF EPow 4 4));
   (f32x16, IHalves f32x8 (Ex "Sleef_powf8_u10avx" SLEEF EPow 4 8));
   (f64x8, IHalves f64x4 (Ex "Sleef_powd4_u10avx" SLEEF EPow 8 4));
   (f32x4, IVec (Ex "Sleef_powf4_u10sse4" SLEEF EPow 4 4));
   (f32x8, IVec (Ex "Sleef_powf8_u10avx" SLEEF EPow 4 8));
   (f64x2, IVec (Ex "Sleef_powd2_u10sse4" SLEEF EPow 8 2));
   (f64x4, IVec (Ex "Sleef_powd4_u10avx" SLEEF EPow 8 4))].
(** powf.rs:74-81. *)
Definition powf_sse42 : list (vty * impl) :=
  [(f32x2, ITwice f32x4 (Ex "Sleef_powf4_u10sse4" SLEEF EPow 4 4));
   (f32x16, IQuarter f32x4 (Ex "Sleef_powf4_u10sse4" SLEEF EPow 4 4));
   (f64x8, IQuarter f64x2 (Ex "Sleef_powd2_u10sse4" SLEEF EPow 8 2));
   (f32x4, IVec (Ex "Sleef_powf4_u10sse4" SLEEF EPow 4 4));
   (f32x8, IHalves f32x4 (Ex "Sleef_powf4_u10sse4" SLEEF EPow 4 4));
   (f64x2, IVec (Ex "Sleef_powd2_u10sse4" SLEEF EPow 8 2));
   (f64x4, IHalves f64x2 (Ex "Sleef_powd2_u10sse4" SLEEF EPow 8 2))].
(** powf.rs:83-90. *)
Definition powf_sse2 : list (vty * impl) :=
  [(f32x2, ITwice f32x4 (Ex "Sleef_powf4_u10sse2" SLEEF EPow 4 4));
   (f32x16, IQuarter f32x4 (Ex "Sleef_powf4_u10sse2" SLEEF EPow 4 4));
   (f64x8, IQuarter f64x2 (Ex "Sleef_powd2_u10sse2" SLEEF EPow 8 2));
   (f32x4, IVec (Ex "Sleef_powf4_u10sse2" SLEEF EPow 4 4));
   (f32x8, IHalves f32x4 (Ex "Sleef_powf4_u10sse2" SLEEF EPow 4 4));
   (f64x2, IVec (Ex "Sleef_powd2_u10sse2" SLEEF EPow 8 2));
   (f64x4, IHalves f64x2 (Ex "Sleef_powd2_u10sse2" SLEEF EPow 8 2))].
(** powf.rs:92-99. *)
Definition powf_sleef_else : list (vty * impl) :=
  [(f32x2, IScalar 4 2 (Ex "llvm.pow.f32" LLVM EPow 4 1));
   (f32x4, IVec (Ex "llvm.pow.v4f32" LLVM EPow 4 4));
   (f32x8, IVec (Ex "llvm.pow.v8f32" LLVM EPow 4 8));
   (f32x16, IVec (Ex "llvm.pow.v16f32" LLVM EPow 4 16));
   (f64x2, IVec (Ex "llvm.pow.v2f64" LLVM EPow 8 2));
   (f64x4, IVec (Ex "llvm.pow.v4f64" LLVM EPow 8 4));
   (f64x8, IVec (Ex "llvm.pow.v8f64" LLVM EPow 8 8))].
(** powf.rs:103-110. *)
Definition powf_default : list (vty * impl) :=
  [(f32x2, IScalar 4 2 (Ex "llvm.pow.f32" LLVM EPow 4 1));
   (f32x4, IVec (Ex "llvm.pow.v4f32" LLVM EPow 4 4));
   (f32x8, IVec (Ex "llvm.pow.v8f32" LLVM EPow 4 8));
   (f32x16, IVec (Ex "llvm.pow.v16f32" LLVM EPow 4 16));
   (f64x2, IVec (Ex "llvm.pow.v2f64" LLVM EPow 8 2));
   (f64x4, IVec (Ex "llvm.pow.v4f64" LLVM EPow 8 4));
   (f64x8, IVec (Ex "llvm.pow.v8f64" LLVM EPow 8 8))].
(** powf.rs:41-112. *)
Definition powf_table (tg : target) : list (vty * impl) :=
  if is_s390x tg then powf_s390x else
  if is_sleef tg then
    if t_avx2 tg then powf_avx2
    else if t_avx tg then powf_avx
    else if t_sse42 tg then powf_sse42
    else if t_sse2 tg then powf_sse2
    else powf_sleef_else
  else powf_default.

(** mul_add.rs:50-57. *)
Definition mul_add_s390x : list (vty * impl) :=
  [(f32x2, IMulAdd);
   (f32x4, IMulAdd);
   (f32x8, IMulAdd);
   (f32x16, IMulAdd);
   (f64x2, IMulAdd);
   (f64x4, IMulAdd);
   (f64x8, IMulAdd)].
(** mul_add.rs:62-69. *)
Definition mul_add_avx2 : list (vty * impl) :=
  [(f32x2, ITwice f32x4 (Ex "Sleef_fmaf4_avx2128" SLEEF EFma 4 4));
   (f32x16, IHalves f32x8 (Ex "Sleef_fmaf8_avx2" SLEEF EFma 4 8));
   (f64x8, IHalves f64x4 (Ex "Sleef_fmad4_avx2" SLEEF EFma 8 4));
   (f32x4, IVec (Ex "Sleef_fmaf4_avx2128" SLEEF EFma 4 4));
   (f32x8, IVec (Ex "Sleef_fmaf8_avx2" SLEEF EFma 4 8));
   (f64x2, IVec (Ex "Sleef_fmad2_avx2128" SLEEF EFma 8 2));
   (f64x4, IVec (Ex "Sleef_fmad4_avx2" SLEEF EFma 8 4))].
(** mul_add.rs:71-78. *)
Definition mul_add_avx : list (vty * impl) :=
  [(f32x2, ITwice f32x4 (Ex "Sleef_fmaf4_sse4" SLEEF EFma 4 4));
   (f32x16, IHalves f32x8 (Ex "Sleef_fmaf8_avx" SLEEF EFma 4 8));
   (f64x8, IHalves f64x4 (Ex "Sleef_fmad4_avx" SLEEF EFma 8 4));
   (f32x4, IVec (Ex "Sleef_fmaf4_sse4" SLEEF EFma 4 4));
   (f32x8, IVec (Ex "Sleef_fmaf8_avx" SLEEF EFma 4 8));
   (f64x2, IVec (Ex "Sleef_fmad2_sse4" SLEEF EFma 8 2));
   (f64x4, IVec (Ex "Sleef_fmad4_avx" SLEEF EFma 8 4))].
(** mul_add.rs:80-87. *)
Definition mul_add_sse42 : list (vty * impl) :=
  [(f32x2, ITwice f32x4 (Ex "Sleef_fmaf4_sse4" SLEEF EFma 4 4));
   (f32x16, IQuarter f32x4 (Ex "Sleef_fmaf4_sse4" SLEEF EFma 4 4));
   (f64x8, IQuarter f64x2 (Ex "Sleef_fmad2_sse4" SLEEF EFma 8 2));
   (f32x4, IVec (Ex "Sleef_fmaf4_sse4" SLEEF EFma 4 4));
   (f32x8, IHalves f32x4 (Ex "Sleef_fmaf4_sse4" SLEEF EFma 4 4));
   (f64x2, IVec (Ex "Sleef_fmad2_sse4" SLEEF EFma 8 2));
   (f64x4, IHalves f64x2 (Ex "Sleef_fmad2_sse4" SLEEF EFma 8 2))].
(** mul_add.rs:89-96. *)
Definition mul_add_sleef_else : list (vty * impl) :=
  [(f32x2, IVec (Ex "llvm.fma.v2f32" LLVM EFma 4 2));
   (f32x16, IVec (Ex "llvm.fma.v16f32" LLVM EFma 4 16));
   (f64x8, IVec (Ex "llvm.fma.v8f64" LLVM EFma 8 8));
   (f32x4, IVec (Ex "llvm.fma.v4f32" LLVM EFma 4 4));
   (f32x8, IVec (Ex "llvm.fma.v8f32" LLVM EFma 4 8));
   (f64x2, IVec (Ex "llvm.fma.v2f64" LLVM EFma 8 2));
   (f64x4, IVec (Ex "llvm.fma.v4f64" LLVM EFma 8 4))].
(** mul_add.rs:100-107. *)
Definition mul_add_default : list (vty * impl) :=
  [(f32x2, IVec (Ex "llvm.fma.v2f32" LLVM EFma 4 2));
   (f32x4, IVec (Ex "llvm.fma.v4f32" LLVM EFma 4 4));
   (f32x8, IVec (Ex "llvm.fma.v8f32" LLVM EFma 4 8));
   (f32x16, IVec (Ex "llvm.fma.v16f32" LLVM EFma 4 16));
   (f64x2, IVec (Ex "llvm.fma.v2f64" LLVM EFma 8 2));
   (f64x4, IVec (Ex "llvm.fma.v4f64" LLVM EFma 8 4));
   (f64x8, IVec (Ex "llvm.fma.v8f64" LLVM EFma 8 8))].
(** mul_add.rs:36-109. *)
Definition mul_add_table (tg : target) : list (vty * impl) :=
  if is_s390x tg then mul_add_s390x else
  if is_sleef tg then
    if t_avx2 tg then mul_add_avx2
    else if t_avx tg then mul_add_avx
    else if t_sse42 tg then mul_add_sse42
    else mul_add_sleef_else
  else mul_add_default.

(** sin_cos_pi.rs:141-148. *)
Definition sin_cos_pi_avx2 : list (vty * impl) :=
  [(f32x2, ITwice f32x4 (Ex "Sleef_sincospif4_u05avx2128" SLEEF ESinCosPi 4 4));
   (f32x16, IHalves f32x8 (Ex "Sleef_sincospif8_u05avx2" SLEEF ESinCosPi 4 8));
   (f64x8, IHalves f64x4 (Ex "Sleef_sincospid4_u05avx2" SLEEF ESinCosPi 8 4));
   (f32x4, IVec (Ex "Sleef_sincospif4_u05avx2128" SLEEF ESinCosPi 4 4));
   (f32x8, IVec (Ex "Sleef_sincospif8_u05avx2" SLEEF ESinCosPi 4 8));
   (f64x2, IVec (Ex "Sleef_sincospid2_u05avx2128" SLEEF ESinCosPi 8 2));
   (f64x4, IVec (Ex "Sleef_sincospid4_u05avx2" SLEEF ESinCosPi 8 4))].
(** sin_cos_pi.rs:150-157. *)
Definition sin_cos_pi_avx : list (vty * impl) :=
  [(f32x2, ITwice f32x4 (Ex "Sleef_sincospif4_u05sse4" SLEEF ESinCosPi 4 4));
   (f32x16, IHalves f32x8 (Ex "Sleef_sincospif8_u05avx" SLEEF ESinCosPi 4 8));
   (f64x8, IHalves f64x4 (Ex "Sleef_sincospid4_u05avx" SLEEF ESinCosPi 8 4));
   (f32x4, IVec (Ex "Sleef_sincospif4_u05sse4" SLEEF ESinCosPi 4 4));
   (f32x8, IVec (Ex "Sleef_sincospif8_u05avx" SLEEF ESinCosPi 4 8));
   (f64x2, IVec (Ex "Sleef_sincospid2_u05sse4" SLEEF ESinCosPi 8 2));
   (f64x4, IVec (Ex "Sleef_sincospid4_u05avx" SLEEF ESinCosPi 8 4))].
(** sin_cos_pi.rs:159-166. *)
Definition sin_cos_pi_sse42 : list (vty * impl) :=
  [(f32x2, ITwice f32x4 (Ex "Sleef_sincospif4_u05sse4" SLEEF ESinCosPi 4 4));
   (f32x16, IQuarter f32x4 (Ex "Sleef_sincospif4_u05sse4" SLEEF ESinCosPi 4 4));
   (f64x8, IQuarter f64x2 (Ex "Sleef_sincospid2_u05sse4" SLEEF ESinCosPi 8 2));
   (f32x4, IVec (Ex "Sleef_sincospif4_u05sse4" SLEEF ESinCosPi 4 4));
   (f32x8, IHalves f32x4 (Ex "Sleef_sincospif4_u05sse4" SLEEF ESinCosPi 4 4));
   (f64x2, IVec (Ex "Sleef_sincospid2_u05sse4" SLEEF ESinCosPi 8 2));
   (f64x4, IHalves f64x2 (Ex "Sleef_sincospid2_u05sse4" SLEEF ESinCosPi 8 2))].
(** sin_cos_pi.rs:168-175. *)
Definition sin_cos_pi_sleef_else : list (vty * impl) :=
  [(f32x2, IPi);
   (f32x4, IPi);
   (f32x8, IPi);
   (f32x16, IPi);
   (f64x2, IPi);
   (f64x4, IPi);
   (f64x8, IPi)].
(** sin_cos_pi.rs:179-186. *)
Definition sin_cos_pi_default : list (vty * impl) :=
  [(f32x2, IPi);
   (f32x4, IPi);
   (f32x8, IPi);
   (f32x16, IPi);
   (f64x2, IPi);
   (f64x4, IPi);
   (f64x8, IPi)].
(** sin_cos_pi.rs:136-188. *)
Definition sin_cos_pi_table (tg : target) : list (vty * impl) :=
  if is_sleef tg then
    if t_avx2 tg then sin_cos_pi_avx2
    else if t_avx tg then sin_cos_pi_avx
    else if t_sse42 tg then sin_cos_pi_sse42
    else sin_cos_pi_sleef_else
  else sin_cos_pi_default.

(** mul_adde.rs:53-60; the macro is mul_adde.rs:33-51, its s390x branch 43-47. *)
Definition mul_adde_table (tg : target) : list (vty * impl) :=
  if is_s390x tg then
    [(f32x2, IMulAdd); (f32x4, IMulAdd); (f32x8, IMulAdd); (f32x16, IMulAdd);
     (f64x2, IMulAdd); (f64x4, IMulAdd); (f64x8, IMulAdd)]
  else
    [(f32x2, IVec (Ex "llvm.fmuladd.v2f32" LLVM EFmuladd 4 2));
     (f32x4, IVec (Ex "llvm.fmuladd.v4f32" LLVM EFmuladd 4 4));
     (f32x8, IVec (Ex "llvm.fmuladd.v8f32" LLVM EFmuladd 4 8));
     (f32x16, IVec (Ex "llvm.fmuladd.v16f32" LLVM EFmuladd 4 16));
     (f64x2, IVec (Ex "llvm.fmuladd.v2f64" LLVM EFmuladd 8 2));
     (f64x4, IVec (Ex "llvm.fmuladd.v4f64" LLVM EFmuladd 8 4));
     (f64x8, IVec (Ex "llvm.fmuladd.v8f64" LLVM EFmuladd 8 8))].
