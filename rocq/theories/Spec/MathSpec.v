(** Vocabulary for the vertical math functions: what is expected of the external
    functions (LLVM, SLEEF, the standard library) behind them. *)
From Coq Require Import ZArith List Bool Reals.
From Flocq Require Import Core.
From Verif.Model Require Import Base Tables MathTables Math.
From Verif.Spec Require Import Spec Floats.
Import ListNotations.
Open Scope Z_scope.

(** The float vector types. *)
Definition math_types : list vty := [f32x2; f32x4; f32x8; f32x16; f64x2; f64x4; f64x8].

(** What an external function does to single lanes. *)
Record lane_functions := {
  l1 : ext -> Z -> Z;
  l2 : ext -> Z -> Z -> Z;
  l3 : ext -> Z -> Z -> Z -> Z;
  lsin : ext -> Z -> Z;       (* the two results of a sincos function *)
  lcos : ext -> Z -> Z
}.

(** A vector the external function [f] takes; a lane of it. *)
Definition argument (f : ext) (v : vec) : Prop :=
  length v = x_n f /\ Forall (fun p => 0 <= p < 2 ^ (8 * Z.of_nat (x_b f))) v.
Definition lane_pattern (f : ext) (p : Z) : Prop := 0 <= p < 2 ^ (8 * Z.of_nat (x_b f)).

(** The external functions [X] work lane by lane, as told by [S]: lane i of the result
    depends on lanes i of the arguments only. *)
Definition works_lanewise (X : externals) (S : lane_functions) : Prop :=
  (forall f v, argument f v -> argument f (x_v1 X f v) /\
     forall i a, lane v i a -> lane (x_v1 X f v) i (l1 S f a)) /\
  (forall f v w, argument f v -> argument f w -> argument f (x_v2 X f v w) /\
     forall i a b, lane v i a -> lane w i b -> lane (x_v2 X f v w) i (l2 S f a b)) /\
  (forall f u v w, argument f u -> argument f v -> argument f w -> argument f (x_v3 X f u v w) /\
     forall i a b c, lane u i a -> lane v i b -> lane w i c -> lane (x_v3 X f u v w) i (l3 S f a b c)) /\
  (forall f v, argument f v -> argument f (fst (x_vp X f v)) /\ argument f (snd (x_vp X f v)) /\
     forall i a, lane v i a -> lane (fst (x_vp X f v)) i (lsin S f a) /\
                               lane (snd (x_vp X f v)) i (lcos S f a)) /\
  (forall f a, lane_pattern f a -> x_s1 X f a = l1 S f a /\ lane_pattern f (x_s1 X f a)) /\
  (forall f a b, lane_pattern f a -> lane_pattern f b ->
     x_s2 X f a b = l2 S f a b /\ lane_pattern f (x_s2 X f a b)).

(** IEEE-754 fused multiply-add: one rounding. *)
Definition ieee_fma (b : nat) (x y z r : datum) : Prop :=
  match x, y, z with
  | NaN, _, _ | _, NaN, _ | _, _, NaN => r = NaN
  | Fin su u, Fin sv v, Fin sw w => rounds_to b (u * v + w) (xorb su sv && sw) r
  | Fin _ _, Fin _ _, Inf s => r = Inf s
  | Inf su, Inf sv, _ =>
      r = match z with Inf s => if Bool.eqb (xorb su sv) s then z else NaN | _ => Inf (xorb su sv) end
  | Inf su, Fin sv v, _ | Fin sv v, Inf su, _ =>
      r = if Req_bool v 0 then NaN
          else match z with Inf s => if Bool.eqb (xorb su sv) s then z else NaN | _ => Inf (xorb su sv) end
  end.
(** A product and a sum, each rounded. *)
Definition ieee_mul_add (b : nat) (x y z r : datum) : Prop :=
  exists q, ieee_mul b x y q /\ ieee_add b q z r.

(** What the LLVM manual says of fabs, sqrt, fma and fmuladd. *)
Definition follows_llvm (S : lane_functions) : Prop :=
  forall f, x_lib f = LLVM -> x_b f = 4%nat \/ x_b f = 8%nat ->
    let d := datum_of (x_b f) in
    (forall a, x_fn f = EAbs -> lane_pattern f a ->
       l1 S f a = if sign_field (x_b f) a then a - 2 ^ (8 * Z.of_nat (x_b f) - 1) else a) /\
    (forall a, x_fn f = ESqrt -> lane_pattern f a -> ieee_sqrt (x_b f) (d a) (d (l1 S f a))) /\
    (forall a b c, x_fn f = EFma -> lane_pattern f a -> lane_pattern f b -> lane_pattern f c ->
       ieee_fma (x_b f) (d a) (d b) (d c) (d (l3 S f a b c))) /\
    (forall a b c, x_fn f = EFmuladd -> lane_pattern f a -> lane_pattern f b -> lane_pattern f c ->
       ieee_fma (x_b f) (d a) (d b) (d c) (d (l3 S f a b c)) \/
       ieee_mul_add (x_b f) (d a) (d b) (d c) (d (l3 S f a b c))).

(** The crate is built with SLEEF for a processor its tables know; exp, ln and powf also
    have a table for plain SSE2. *)
Definition uses_sleef (tg : target) : Prop :=
  t_arch tg = X86_64 /\ t_sleef tg = true /\
  (t_avx2 tg = true \/ t_avx tg = true \/ t_sse42 tg = true).
Definition uses_sleef_sse2 (tg : target) : Prop :=
  t_arch tg = X86_64 /\ t_sleef tg = true /\
  (t_avx2 tg = true \/ t_avx tg = true \/ t_sse42 tg = true \/ t_sse2 tg = true).

(** The method [m] applies the function [f] to every lane of its argument; besides the vector
    [m] takes what happens to be in uninitialised memory. *)
Definition maps_lanes (t : vty) (m : vec -> vec -> option vec) (f : Z -> Z) : Prop :=
  forall v junk, is_vector t v -> is_vector t junk ->
    exists r, m junk v = Some r /\ lanewise1 t v r (fun a c => c = f a).

(** The multiplier of cos_pi and sin_pi: f32::consts::PI and f64::consts::PI. *)
Definition pi_lane (b : nat) : Z := if Nat.eqb b 4 then 0x40490FDB else 0x400921FB54442D18.

(** [r] is a vector of type [t] whose lane i is related by [R] to lanes i of the three
    arguments. *)
Definition lanewise3 (t : vty) (x y z r : vec) (R : Z -> Z -> Z -> Z -> Prop) : Prop :=
  is_vector t r /\
  forall i a b c, lane x i a -> lane y i b -> lane z i c -> exists p, lane r i p /\ R a b c p.
