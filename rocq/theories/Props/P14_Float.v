(** C33, C44 - C49: float vectors. *)
From Coq Require Import ZArith List Bool Lia Reals.
From Flocq Require Import Core.
From Verif.Model Require Import Base FloatLane Llvm Tables Minimal Ops Cmp Cast Reduce Float.
From Verif.Spec Require Import Spec Floats.
From Verif.Proofs Require Import Lib FloatApiP FloatApi2P FloatCastP CastP AssignFP.
From Verif.Props Require Import Tac Targets.
Import ListNotations.
Open Scope Z_scope.

(** Some lanes: 0.1, 0.2, 1.0, the largest finite number, NaN, -0.0, infinity. *)
Definition v1 : vec := [0x3dcccccd; 0x3f800000; 0x7f7fffff; 0x7fc00001].
Definition v2 : vec := [0x3e4ccccd; 0x80000000; 0x7f7fffff; 0x7f800000].

(** C44: +, -, *, / and % lane by lane. *)
Theorem C44_arithmetic : forall t x y,
  float_type t -> is_vector t x -> is_vector t y ->
  let d := datum_of (vb t) in
  lanewise2 t x y (add t x y) (fun a b c => ieee_add (vb t) (d a) (d b) (d c)) /\
  lanewise2 t x y (sub t x y) (fun a b c => ieee_sub (vb t) (d a) (d b) (d c)) /\
  lanewise2 t x y (mul t x y) (fun a b c => ieee_mul (vb t) (d a) (d b) (d c)) /\
  (exists r, div t x y = Ok r /\
     lanewise2 t x y r (fun a b c => ieee_div (vb t) (d a) (d b) (d c))) /\
  (exists r, rem t x y = Ok r /\
     lanewise2 t x y r (fun a b c => ieee_rem (d a) (d b) (d c))).
Proof. exact float_arithmetic. Qed.
Print Assumptions C44_arithmetic.

(** C44: the same with a scalar operand on either side. *)
Theorem C44_scalar_arithmetic : forall t x s,
  float_type t -> is_vector t x -> 0 <= s < 2 ^ width t ->
  let d := datum_of (vb t) in
  lanewise1 t x (add_vs t x s) (fun a c => ieee_add (vb t) (d a) (d s) (d c)) /\
  lanewise1 t x (add_sv t s x) (fun a c => ieee_add (vb t) (d s) (d a) (d c)) /\
  lanewise1 t x (sub_vs t x s) (fun a c => ieee_sub (vb t) (d a) (d s) (d c)) /\
  lanewise1 t x (sub_sv t s x) (fun a c => ieee_sub (vb t) (d s) (d a) (d c)) /\
  lanewise1 t x (mul_vs t x s) (fun a c => ieee_mul (vb t) (d a) (d s) (d c)) /\
  lanewise1 t x (mul_sv t s x) (fun a c => ieee_mul (vb t) (d s) (d a) (d c)) /\
  (exists r, div_vs t x s = Ok r /\ lanewise1 t x r (fun a c => ieee_div (vb t) (d a) (d s) (d c))) /\
  (exists r, div_sv t s x = Ok r /\ lanewise1 t x r (fun a c => ieee_div (vb t) (d s) (d a) (d c))) /\
  (exists r, rem_vs t x s = Ok r /\ lanewise1 t x r (fun a c => ieee_rem (d a) (d s) (d c))) /\
  (exists r, rem_sv t s x = Ok r /\ lanewise1 t x r (fun a c => ieee_rem (d s) (d a) (d c))).
Proof. exact float_scalar_arithmetic. Qed.
Print Assumptions C44_scalar_arithmetic.

(** C44: the assigning forms. *)
Theorem C44_assign : forall t x y s,
  float_type t -> is_vector t x -> is_vector t y -> 0 <= s < 2 ^ width t ->
  let d := datum_of (vb t) in
  lanewise2 t x y (add_assign t x y) (fun a b c => ieee_add (vb t) (d a) (d b) (d c)) /\
  lanewise2 t x y (sub_assign t x y) (fun a b c => ieee_sub (vb t) (d a) (d b) (d c)) /\
  lanewise2 t x y (mul_assign t x y) (fun a b c => ieee_mul (vb t) (d a) (d b) (d c)) /\
  (exists r, div_assign t x y = Ok r /\
     lanewise2 t x y r (fun a b c => ieee_div (vb t) (d a) (d b) (d c))) /\
  (exists r, rem_assign t x y = Ok r /\
     lanewise2 t x y r (fun a b c => ieee_rem (d a) (d b) (d c))) /\
  lanewise1 t x (add_vs_assign t x s) (fun a c => ieee_add (vb t) (d a) (d s) (d c)) /\
  lanewise1 t x (sub_vs_assign t x s) (fun a c => ieee_sub (vb t) (d a) (d s) (d c)) /\
  lanewise1 t x (mul_vs_assign t x s) (fun a c => ieee_mul (vb t) (d a) (d s) (d c)) /\
  (exists r, div_vs_assign t x s = Ok r /\ lanewise1 t x r (fun a c => ieee_div (vb t) (d a) (d s) (d c))) /\
  (exists r, rem_vs_assign t x s = Ok r /\ lanewise1 t x r (fun a c => ieee_rem (d a) (d s) (d c))).
Proof. exact float_assign. Qed.
Print Assumptions C44_assign.

(** C44: the vertical comparisons are canonical masks following the IEEE order. *)
Theorem C44_comparisons : forall t x y,
  float_type t -> is_vector t x -> is_vector t y ->
  let ok (m : vec) (R : datum -> datum -> Prop) :=
    canonical (mask_of t) m /\
    forall i a b, lane x i a -> lane y i b ->
      exists c, lane m i (mask_lane (mask_of t) c) /\
        (c = true <-> R (datum_of (vb t) a) (datum_of (vb t) b)) in
  ok (veq t x y) ieee_eq /\ ok (vne t x y) (fun a b => ~ ieee_eq a b) /\
  ok (vlt t x y) ieee_lt /\ ok (vle t x y) ieee_le /\
  ok (vgt t x y) (fun a b => ieee_lt b a) /\ ok (vge t x y) (fun a b => ieee_le b a).
Proof. exact float_comparisons. Qed.
Print Assumptions C44_comparisons.

(** C44: == holds when all lanes are equal, != is its negation. *)
Theorem C44_equality : forall tg t x y,
  float_type t -> crate_shape t -> is_vector t x -> is_vector t y ->
  exists r, op_eq tg t x y = Ok r /\ op_ne tg t x y = Ok (negb r) /\
    (r = true <-> forall i a b, lane x i a -> lane y i b ->
                    ieee_eq (datum_of (vb t) a) (datum_of (vb t) b)).
Proof. exact float_equality. Qed.
Print Assumptions C44_equality.

(** C44: v == v exactly when no lane is NaN, v != v exactly when some lane is. *)
Theorem C44_self_equality : forall tg t x,
  float_type t -> crate_shape t -> is_vector t x ->
  (op_eq tg t x x = Ok true <-> forall i a, lane x i a -> datum_of (vb t) a <> NaN) /\
  (op_ne tg t x x = Ok true <-> exists i a, lane x i a /\ datum_of (vb t) a = NaN).
Proof. exact float_self_equality. Qed.
Print Assumptions C44_self_equality.

(** C44: the square root intrinsic (used by sqrt and sqrte without SLEEF) is correctly rounded. *)
Theorem C44_sqrt : forall t x,
  float_type t -> is_vector t x ->
  let d := datum_of (vb t) in
  lanewise1 t x (simd_fsqrt (vb t) x) (fun a c => ieee_sqrt (vb t) (d a) (d c)).
Proof. exact float_sqrt_lanes. Qed.
Print Assumptions C44_sqrt.

(** C44: recpre is 1 / x and rsqrte is 1 / sqrt x, each step correctly rounded. *)
Theorem C44_estimates : forall t x,
  float_type t -> is_vector t x ->
  let d := datum_of (vb t) in
  (exists r, recpre t x = Ok r /\ lanewise1 t x r (fun a c => ieee_div (vb t) (Fin false 1) (d a) (d c))) /\
  (exists r, rsqrte t x = Ok r /\ lanewise1 t x r (fun a c =>
     exists q, ieee_sqrt (vb t) (d a) q /\ ieee_div (vb t) (Fin false 1) q (d c))).
Proof. exact float_estimates. Qed.
Print Assumptions C44_estimates.

Example C44_example :
  float_type f32x4 /\ crate_shape f32x4 /\ is_vector f32x4 v1 /\ is_vector f32x4 v2 /\
  add f32x4 v1 v2 = [0x3e99999a; 0x3f800000; 0x7f800000; 0x7fc00000] /\
  vlt f32x4 v1 v2 = [0xffffffff; 0; 0; 0] /\
  op_eq x86_64_avx2 f32x4 v1 v1 = Ok false /\ op_ne aarch64_neon f32x4 v1 v1 = Ok true /\
  op_eq x86_64_avx2 f32x4 v2 v2 = Ok true.
Proof.
  split; [split; [reflexivity|split; [now left|ty]]|]. split; [vm_compute; tauto|]. split; [isv|]. split; [isv|].
  split; [vm_compute; reflexivity|]. split; [vm_compute; reflexivity|].
  split; [vm_compute; reflexivity|]. split; vm_compute; reflexivity.
Qed.

(** C45: negation changes the sign of every lane that is not NaN and nothing else. *)
Theorem C45_negation : forall t x,
  float_type t -> is_vector t x ->
  lanewise1 t x (neg t x) (fun a c => datum_of (vb t) c = negated (datum_of (vb t) a)).
Proof. exact float_negation. Qed.
Print Assumptions C45_negation.

(** C45: on the bits: exactly the sign bit changes. *)
Theorem C45_bits : forall t x,
  float_type t -> is_vector t x ->
  lanewise1 t x (neg t x) (fun a c => datum_of (vb t) a <> NaN ->
    c = if sign_field (vb t) a then a - 2 ^ (width t - 1) else a + 2 ^ (width t - 1)).
Proof. exact float_negation_bits. Qed.
Print Assumptions C45_bits.

(** C45: negating twice gives the same vector if no lane is NaN. *)
Theorem C45_involution : forall t x,
  float_type t -> is_vector t x -> (forall i a, lane x i a -> datum_of (vb t) a <> NaN) ->
  neg t (neg t x) = x.
Proof. exact float_double_negation. Qed.
Print Assumptions C45_involution.

Example C45_example :
  float_type f32x4 /\ is_vector f32x4 v2 /\ (forall i a, lane v2 i a -> datum_of 4 a <> NaN) /\
  neg f32x4 v2 = [0xbe4ccccd; 0; 0xff7fffff; 0xff800000].
Proof.
  split; [split; [reflexivity|split; [now left|ty]]|]. split; [isv|]. split; [|vm_compute; reflexivity].
  intros i a L. do 4 (destruct i as [|i]; [injection L as <-; unfold datum_of; cbn; discriminate|]).
  destruct i; discriminate L.
Qed.

(** C46: is_nan, is_infinite and is_finite classify every lane. *)
Theorem C46_classification : forall t x,
  float_type t -> is_vector t x ->
  let ok (m : vec) (R : datum -> Prop) :=
    canonical (mask_of t) m /\
    forall i a, lane x i a ->
      exists c, lane m i (mask_lane (mask_of t) c) /\ (c = true <-> R (datum_of (vb t) a)) in
  ok (is_nan t x) (fun d => d = NaN) /\
  ok (is_infinite t x) (fun d => exists s, d = Inf s) /\
  ok (is_finite t x) (fun d => exists s u, d = Fin s u).
Proof. exact float_classification. Qed.
Print Assumptions C46_classification.

Example C46_example :
  float_type f32x4 /\ is_vector f32x4 v1 /\
  is_nan f32x4 v1 = [0; 0; 0; 0xffffffff] /\ is_finite f32x4 v1 = [0xffffffff; 0xffffffff; 0xffffffff; 0] /\
  is_infinite f32x4 v2 = [0; 0; 0; 0xffffffff].
Proof.
  split; [split; [reflexivity|split; [now left|ty]]|]. split; [isv|].
  split; [vm_compute; reflexivity|]. split; vm_compute; reflexivity.
Qed.

(** C47: min and max return one of the two lanes, ignoring a NaN. *)
Theorem C47_min_max : forall t x y,
  float_type t -> is_vector t x -> is_vector t y ->
  let d := datum_of (vb t) in
  lanewise2 t x y (float_min t x y) (fun a b c => (c = a \/ c = b) /\ ieee_min (d a) (d b) (d c)) /\
  lanewise2 t x y (float_max t x y) (fun a b c => (c = a \/ c = b) /\ ieee_max (d a) (d b) (d c)).
Proof. exact float_min_max. Qed.
Print Assumptions C47_min_max.

(** C47: min_element and max_element return a lane, NaN only if all lanes are, that bounds all others; on every target. *)
Theorem C47_extreme_elements : forall tg t v,
  float_type t -> is_vector t v ->
  let d := datum_of (vb t) in
  exists mx mn, max_element tg t v = Ok mx /\ min_element tg t v = Ok mn /\
    (exists i, lane v i mx) /\ (exists i, lane v i mn) /\
    (d mx = NaN <-> forall i p, lane v i p -> d p = NaN) /\
    (d mn = NaN <-> forall i p, lane v i p -> d p = NaN) /\
    forall i p, lane v i p -> d p <> NaN -> ieee_le (d mn) (d p) /\ ieee_le (d p) (d mx).
Proof. exact float_extreme_elements. Qed.
Print Assumptions C47_extreme_elements.

Example C47_example :
  float_type f32x4 /\ is_vector f32x4 v1 /\ is_vector f32x4 v2 /\
  float_min f32x4 v1 v2 = [0x3dcccccd; 0x80000000; 0x7f7fffff; 0x7f800000] /\
  max_element aarch64_neon f32x4 v1 = Ok 0x7f7fffff /\ min_element s390x f32x4 v1 = Ok 0x3dcccccd.
Proof.
  split; [split; [reflexivity|split; [now left|ty]]|]. split; [isv|]. split; [isv|].
  split; [vm_compute; reflexivity|]. split; vm_compute; reflexivity.
Qed.

(** C48: sum and product go through the lanes one after the other, from +0.0 or 1.0, or from lane 0 on AArch64. *)
Theorem C48_reductions : forall tg t v,
  float_type t -> is_vector t v ->
  let d := datum_of (vb t) in
  (exists r, fsum tg t v = Ok r /\ 0 <= r < 2 ^ width t /\
     (t_arch tg <> Aarch64 -> folds (vb t) (ieee_add (vb t)) (Fin false 0) v (d r)) /\
     (t_arch tg = Aarch64 -> exists p l, v = p :: l /\ folds (vb t) (ieee_add (vb t)) (d p) l (d r))) /\
  (exists r, fproduct tg t v = Ok r /\ 0 <= r < 2 ^ width t /\
     (t_arch tg <> Aarch64 -> folds (vb t) (ieee_mul (vb t)) (Fin false 1) v (d r)) /\
     (t_arch tg = Aarch64 -> exists p l, v = p :: l /\ folds (vb t) (ieee_mul (vb t)) (d p) l (d r))).
Proof. exact float_reductions. Qed.
Print Assumptions C48_reductions.

(** C48: a NaN lane makes the result NaN. *)
Theorem C48_nan : forall tg t v i p,
  float_type t -> is_vector t v -> lane v i p -> datum_of (vb t) p = NaN ->
  (exists r, fsum tg t v = Ok r /\ datum_of (vb t) r = NaN) /\
  (exists r, fproduct tg t v = Ok r /\ datum_of (vb t) r = NaN).
Proof. exact float_reductions_nan. Qed.
Print Assumptions C48_nan.

(** C48: all targets give the same sum, unless all lanes are -0.0, when AArch64 gives -0.0 and the others +0.0. *)
Theorem C48_sum_portable : forall tg tg' t v,
  float_type t -> is_vector t v ->
  let d := datum_of (vb t) in
  exists r r', fsum tg t v = Ok r /\ fsum tg' t v = Ok r' /\
    ((exists i p, lane v i p /\ d p <> Fin true 0) -> d r = d r') /\
    ((forall i p, lane v i p -> d p = Fin true 0) ->
       d r = Fin (match t_arch tg with Aarch64 => true | _ => false end) 0).
Proof. exact float_sum_portable. Qed.
Print Assumptions C48_sum_portable.

(** C48: all targets give the same product. *)
Theorem C48_product_portable : forall tg tg' t v,
  float_type t -> is_vector t v ->
  exists r r', fproduct tg t v = Ok r /\ fproduct tg' t v = Ok r' /\
    datum_of (vb t) r = datum_of (vb t) r'.
Proof. exact float_product_portable. Qed.
Print Assumptions C48_product_portable.

(** C48: sums and products of iterators of vectors are the lane-wise sequential ones. *)
Theorem C48_iterators : forall t vs,
  float_type t -> Forall (is_vector t) vs ->
  let d := datum_of (vb t) in
  is_vector t (iter_sum t vs) /\ is_vector t (iter_product t vs) /\
  forall i ps, (i < vn t)%nat -> Forall2 (fun v p => lane v i p) vs ps ->
    (exists c, lane (iter_sum t vs) i c /\ folds (vb t) (ieee_add (vb t)) (Fin false 0) ps (d c)) /\
    (exists c, lane (iter_product t vs) i c /\ folds (vb t) (ieee_mul (vb t)) (Fin false 1) ps (d c)).
Proof. exact float_iter_reductions. Qed.
Print Assumptions C48_iterators.

(** C48: the documented order (x0 + x1) + (x2 + x3) .. is not what is computed. *)
Theorem C48_tree_order_refuted : exists x0 x1 x2 x3 x4 x5 x6 x7 r,
    is_vector f32x8 [x0; x1; x2; x3; x4; x5; x6; x7] /\
    fsum x86_64_avx2 f32x8 [x0; x1; x2; x3; x4; x5; x6; x7] = Ok r /\
    ~ exists s01 s23 s45 s67 s03 s47,
        let d := datum_of 4 in
        ieee_add 4 (d x0) (d x1) s01 /\ ieee_add 4 (d x2) (d x3) s23 /\
        ieee_add 4 (d x4) (d x5) s45 /\ ieee_add 4 (d x6) (d x7) s67 /\
        ieee_add 4 s01 s23 s03 /\ ieee_add 4 s45 s67 s47 /\
        ieee_add 4 s03 s47 (d r).
Proof. exact float_sum_tree_order_refuted. Qed.
Print Assumptions C48_tree_order_refuted.

Example C48_example :
  float_type f32x4 /\ is_vector f32x4 v2 /\
  fsum x86_64_avx2 f32x4 v2 = Ok 0x7f800000 /\ fproduct aarch64_neon f32x4 [0x3f800000; 0x40000000; 0x40400000; 0x80000000] = Ok 0x80000000 /\
  fsum x86_64_avx2 f32x2 [0x80000000; 0x80000000] = Ok 0 /\ fsum aarch64_neon f32x2 [0x80000000; 0x80000000] = Ok 0x80000000 /\
  lane [0x3dcccccd; 0x7fc00001] 1 0x7fc00001 /\ datum_of 4 0x7fc00001 = NaN.
Proof.
  split; [split; [reflexivity|split; [now left|ty]]|]. split; [isv|].
  split; [vm_compute; reflexivity|]. split; [vm_compute; reflexivity|]. split; [vm_compute; reflexivity|].
  split; [vm_compute; reflexivity|]. split; [reflexivity|]. reflexivity.
Qed.

(** C49: all casts of the tables from or to float vectors. *)
Theorem C49_casts : forall pb e src x,
  In e (cast_table pb) -> In src (c_from e) ->
  let t := c_to e in let d := datum_of (vb t) in let ds := datum_of (vb src) in
  let fits a := exists s u, ds a = Fin s u /\ in_range t (Ztrunc u) in
  (integer_type src -> float_type t -> is_vector src x ->
     exists r, cast (c_impl e) src t x = Ok r /\
       lanewise1 t x r (fun a c => rounds_to (vb t) (IZR (value src a)) false (d c))) /\
  (mask_type src -> float_type t -> canonical src x ->
     exists r, cast (c_impl e) src t x = Ok r /\
       lanewise1 t x r (fun a c => d c = if truth a then Fin true (-1) else Fin false 0)) /\
  (float_type src -> float_type t -> is_vector src x ->
     exists r, cast (c_impl e) src t x = Ok r /\
       lanewise1 t x r (fun a c => ieee_convert (vb t) (ds a) (d c) /\ ((vb src < vb t)%nat -> d c = ds a))) /\
  (float_type src -> integer_type t -> is_vector src x ->
     ((forall i a, lane x i a -> fits a) ->
        exists r, cast (c_impl e) src t x = Ok r /\
          lanewise1 t x r (fun a c => exists s u, ds a = Fin s u /\ value t c = Ztrunc u)) /\
     ((exists i a, lane x i a /\ ~ fits a) -> cast (c_impl e) src t x = UB)) /\
  (float_type src -> mask_type t -> is_vector src x ->
     exists r, cast (c_impl e) src t x = Ok r /\ canonical t r /\
       forall i a, lane x i a -> exists c, lane r i (mask_lane t c) /\
         (c = true <-> ~ ieee_eq (ds a) (Fin false 0))).
Proof. exact float_casts. Qed.
Print Assumptions C49_casts.

Example C49_example :
  exists e, In e (cast_table 8) /\ c_to e = i32x4 /\ In f32x4 (c_from e) /\ float_type f32x4 /\ integer_type i32x4 /\
  is_vector f32x4 [0x3fc00000; 0xc0200000; 0; 0x80000000] /\
  cast (c_impl e) f32x4 i32x4 [0x3fc00000; 0xc0200000; 0; 0x80000000] = Ok [1; 0xfffffffe; 0; 0] /\
  cast (c_impl e) f32x4 i32x4 [0x4f000000; 0; 0; 0] = UB.
Proof.
  destruct (find (fun e => vty_eqb (c_to e) i32x4) (cast_table 8)) as [e|] eqn:E; [|vm_compute in E; discriminate].
  pose proof (find_some _ _ E) as [I _]. vm_compute in E. injection E as <-.
  eexists. split; [exact I|]. split; [reflexivity|]. split; [vm_compute; tauto|].
  split; [split; [reflexivity|split; [now left|ty]]|]. split; [ity|]. split; [isv|].
  split; vm_compute; reflexivity.
Qed.

(** C33: conversions to float vectors are exact. *)
Theorem C33_floats : forall pb d src x,
  In d (decls pb) -> In src (d_from d) -> float_type (d_ty d) -> is_vector src x ->
  (integer_type src ->
     exists r, from_vector src (d_ty d) x = Ok r /\
       lanewise1 (d_ty d) x r (fun a c =>
         datum_of (vb (d_ty d)) c = Fin (value src a <? 0) (IZR (value src a)))) /\
  (float_type src ->
     exists r, from_vector src (d_ty d) x = Ok r /\
       lanewise1 (d_ty d) x r (fun a c => datum_of (vb (d_ty d)) c = datum_of (vb src) a)).
Proof. exact from_floats. Qed.
Print Assumptions C33_floats.

Example C33_floats_example :
  exists d, In d (decls 8) /\ d_ty d = f64x4 /\ In f32x4 (d_from d) /\ In u32x4 (d_from d) /\ float_type f64x4 /\
  is_vector u32x4 [1; 0xffffffff; 0; 2] /\
  from_vector u32x4 f64x4 [1; 0xffffffff; 0; 2] = Ok [0x3ff0000000000000; 0x41efffffffe00000; 0; 0x4000000000000000].
Proof.
  destruct (find (fun d => vty_eqb (d_ty d) f64x4) (decls 8)) as [d|] eqn:E; [|vm_compute in E; discriminate].
  pose proof (find_some _ _ E) as [I _]. vm_compute in E. injection E as <-.
  eexists. split; [exact I|]. split; [reflexivity|]. split; [vm_compute; tauto|]. split; [vm_compute; tauto|].
  split; [split; [reflexivity|split; [now right|ty]]|]. split; [isv|]. vm_compute; reflexivity.
Qed.
