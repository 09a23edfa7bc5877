(** C55: the constants of float vectors. *)
From Coq Require Import ZArith List Bool Lia Reals.
From Verif.Model Require Import Base Float.
From Verif.Model Require FloatConsts.
From Verif.Spec Require Import Spec Floats FloatLimits.
From Verif.Proofs Require Import FloatLimitsP.
From Verif.Props Require Import Tac.
Import ListNotations.
Open Scope Z_scope.

(** C55: every lane of MAX, MIN, MIN_POSITIVE and EPSILON is the largest finite number, the
    smallest finite number, the smallest positive normal number and the distance from 1
    to the next larger number; INFINITY, NEG_INFINITY and NAN are what they are called. *)
Theorem C55_limits : forall t, float_type t ->
  let says (v : vec) (Q : datum -> Prop) :=
    is_vector t v /\ forall i p, lane v i p -> Q (datum_of (vb t) p) in
  says (MAX t) (fun d => exists u, d = Fin false u /\ largest (vb t) u) /\
  says (MIN t) (fun d => exists u, d = Fin true u /\ smallest (vb t) u) /\
  says (MIN_POSITIVE t) (fun d => exists u, d = Fin false u /\ smallest_positive_normal (vb t) u) /\
  says (EPSILON t) (fun d => exists u, d = Fin false u /\ gap_above_one (vb t) u) /\
  says (INFINITY t) (fun d => d = Inf false) /\
  says (NEG_INFINITY t) (fun d => d = Inf true) /\
  says (NAN t) (fun d => d = NaN).
Proof. exact float_limits. Qed.
Print Assumptions C55_limits.

(** C55: every lane of a mathematical constant is the real number correctly rounded. *)
Theorem C55_constants : forall t, float_type t ->
  is_constant t (Float.PI t) (Rtrigo1.PI) /\
  is_constant t (FloatConsts.FRAC_PI_2 t) (Rtrigo1.PI / 2) /\
  is_constant t (FloatConsts.FRAC_PI_3 t) (Rtrigo1.PI / 3) /\
  is_constant t (FloatConsts.FRAC_PI_4 t) (Rtrigo1.PI / 4) /\
  is_constant t (FloatConsts.FRAC_PI_6 t) (Rtrigo1.PI / 6) /\
  is_constant t (FloatConsts.FRAC_PI_8 t) (Rtrigo1.PI / 8) /\
  is_constant t (FloatConsts.FRAC_1_PI t) (1 / Rtrigo1.PI) /\
  is_constant t (FloatConsts.FRAC_2_PI t) (2 / Rtrigo1.PI) /\
  is_constant t (FloatConsts.FRAC_2_SQRT_PI t) (2 / sqrt Rtrigo1.PI) /\
  is_constant t (FloatConsts.SQRT_2 t) (sqrt 2) /\
  is_constant t (FloatConsts.FRAC_1_SQRT_2 t) (1 / sqrt 2) /\
  is_constant t (FloatConsts.E t) (exp 1) /\
  is_constant t (FloatConsts.LOG2_E t) (ln (exp 1) / ln 2) /\
  is_constant t (FloatConsts.LOG10_E t) (ln (exp 1) / ln 10) /\
  is_constant t (FloatConsts.LN_2 t) (ln 2) /\
  is_constant t (FloatConsts.LN_10 t) (ln 10).
Proof. exact float_constants. Qed.
Print Assumptions C55_constants.

(** f32x4 and f64x8 are float types, so the theorems apply to them; their lanes of pi. *)
Example C55_example :
  float_type (V KFloat 4 4) /\ float_type (V KFloat 8 8) /\
  Float.PI (V KFloat 4 4) = [0x40490FDB; 0x40490FDB; 0x40490FDB; 0x40490FDB] /\
  lane (FloatConsts.LN_10 (V KFloat 8 8)) 7 0x40026BB1BBB55516.
Proof.
  split; [split; [reflexivity|split; [now left|ty]]|].
  split; [split; [reflexivity|split; [now right|ty]]|]. split; reflexivity.
Qed.
