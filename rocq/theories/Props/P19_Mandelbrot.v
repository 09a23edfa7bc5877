(** C59: the Mandelbrot example. *)
From Coq Require Import ZArith List Bool Lia Reals Lra.
From Verif.Model Require Import Base FloatLane Tables Minimal ExMandelbrot.
From Verif.Spec Require Import Spec Floats Orbits.
From Verif.Proofs Require Import ExMandelbrotP.
From Verif.Props Require Import Tac Targets.
Import ListNotations.
Open Scope Z_scope.

(** C59: a point has one escape time. *)
Theorem C59_unique : forall limit cx cy n m,
  escape_time limit cx cy n -> escape_time limit cx cy m -> n = m.
Proof. exact escape_unique. Qed.
Print Assumptions C59_unique.

(** C59: the scalar counter counts the iterations before the escape, for any point. *)
Theorem C59_scalar : forall a b, 0 <= a < 2 ^ 64 -> 0 <= b < 2 ^ 64 ->
  escape_time 50 (datum_of 8 a) (datum_of 8 b) (count (a, b)).
Proof. exact scalar_counts. Qed.
Print Assumptions C59_scalar.

(** C59: the vector counter gives the same counts for any eight points that are not far
    out, whichever lanes escape first. *)
Theorem C59_vector : forall tg x y,
  is_vector f64x8 x -> is_vector f64x8 y ->
  (forall i a b, lane x i a -> lane y i b -> near (datum_of 8 a) (datum_of 8 b)) ->
  exists r, counts tg (x, y) = Ok r /\
    lanewise2 u32x8 x y r (fun a b c => exists n, c = Z.of_nat n /\ n = count (a, b) /\
      escape_time 50 (datum_of 8 a) (datum_of 8 b) n).
Proof. exact vector_counts. Qed.
Print Assumptions C59_vector.

(** C59: the images of the default region, of any size, are equal, and hold at row i and
    column j the escape time of that point of the grid. *)
Theorem C59_default_region : forall tg w h,
  (w mod 8 = 0)%nat -> (0 < w)%nat -> Z.of_nat w < 2 ^ 53 -> Z.of_nat h < 2 ^ 53 ->
  exists l, scalar_generate w h region_x0 region_x1 region_y0 region_y1 = Ok l /\
    simd_generate tg w h region_x0 region_x1 region_y0 region_y1 = Ok l /\
    length l = (h * w)%nat /\
    forall i j, (i < h)%nat -> (j < w)%nat -> exists cx cy n,
      grid_point region_left region_right w j cx /\ grid_point region_top region_bottom h i cy /\
      nth_error l (i * w + j) = Some (Z.of_nat n) /\ escape_time 50 cx cy n.
Proof. exact default_image. Qed.
Print Assumptions C59_default_region.

(** C59: the vector version takes only widths that are multiples of eight; neither takes
    an image without columns. *)
Theorem C59_panics : forall tg w h x0 x1 y0 y1,
  (scalar_generate w h x0 x1 y0 y1 = Panic <-> w = 0%nat) /\
  ((w mod 8 <> 0)%nat -> simd_generate tg w h x0 x1 y0 y1 = Panic) /\
  (w = 0%nat -> simd_generate tg w h x0 x1 y0 y1 = Panic).
Proof. exact generate_panics. Qed.
Print Assumptions C59_panics.

(** C59: for arbitrary points the two counters differ: on a NaN the scalar test "norm above
    4" and the vector test "norm at most 4" both fail. *)
Theorem C59_any_point_refuted :
  ~ (forall tg x y r i a b c, is_vector f64x8 x -> is_vector f64x8 y -> counts tg (x, y) = Ok r ->
       lane x i a -> lane y i b -> lane r i c -> c = Z.of_nat (count (a, b))).
Proof.
  intros H.
  assert (V : is_vector f64x8 (repeat 0x7FF8000000000000 8)) by (split; [reflexivity|repeat constructor; cbn; lia]).
  specialize (H x86_64_base (repeat 0x7FF8000000000000 8) (repeat 0x7FF8000000000000 8) (repeat 0 8) 0%nat
    0x7FF8000000000000 0x7FF8000000000000 0 V V).
  assert (E : 0 = Z.of_nat (count (0x7FF8000000000000, 0x7FF8000000000000)))
    by (apply H; vm_compute; reflexivity).
  vm_compute in E. discriminate E.
Qed.
Print Assumptions C59_any_point_refuted.

(** Eight copies of 1 + 0.5i, eight different points, and a small image. *)
Definition fm15 : Z := 0xBFF8000000000000.  (* -1.5 *)
Definition fm1 : Z := 0xBFF0000000000000.   (* -1 *)
Definition fhalf : Z := 0x3FE0000000000000. (* 0.5 *)
Definition fone : Z := 0x3FF0000000000000.  (* 1 *)

Lemma near_one : near (datum_of 8 fone) (datum_of 8 fhalf).
Proof.
  change fone with region_y1. change fhalf with region_x1. rewrite region_y1_datum, region_x1_datum.
  exists false, 1%R, false, (1 / 2)%R. repeat split. lra.
Qed.

Example C59_example :
  is_vector f64x8 (repeat fone 8) /\ is_vector f64x8 (repeat fhalf 8) /\
  (forall i a b, lane (repeat fone 8) i a -> lane (repeat fhalf 8) i b -> near (datum_of 8 a) (datum_of 8 b)) /\
  counts x86_64_avx2 (repeat fone 8, repeat fhalf 8) = Ok (repeat 1 8) /\
  counts aarch64_neon ([fm15; fm1; 0; fhalf; fone; fm1; fhalf; 0], [0; 0; 0; fhalf; fhalf; fone; 0; fone]) =
    Ok [50; 50; 50; 4; 1; 2; 4; 50] /\
  count (fm1, fone) = 2%nat /\
  ((8 mod 8 = 0)%nat /\ (0 < 8)%nat /\ Z.of_nat 8 < 2 ^ 53 /\ Z.of_nat 2 < 2 ^ 53) /\
  simd_generate x86_64_base 8 2 region_x0 region_x1 region_y0 region_y1 =
    Ok [1; 2; 2; 2; 3; 5; 50; 3; 50; 50; 50; 50; 50; 50; 50; 50] /\
  simd_generate x86_64_base 12 2 region_x0 region_x1 region_y0 region_y1 = Panic.
Proof.
  split; [split; [reflexivity|apply Forall_forall; intros p H; apply repeat_spec in H; subst; vm_compute; split; congruence]|].
  split; [split; [reflexivity|apply Forall_forall; intros p H; apply repeat_spec in H; subst; vm_compute; split; congruence]|].
  split.
  { intros i a b A B. apply nth_error_In, repeat_spec in A, B. subst. exact near_one. }
  split; [vm_compute; reflexivity|]. split; [vm_compute; reflexivity|]. split; [vm_compute; reflexivity|].
  split; [repeat split; lia|]. split; vm_compute; reflexivity.
Qed.
