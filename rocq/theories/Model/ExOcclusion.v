(** Ambient occlusion: scenes (examples/aobench/src/scene/*.rs) and how much light reaches a point
    (examples/aobench/src/ambient_occlusion.rs). *)
From Coq Require Import ZArith List Bool.
From Verif.Model Require Import Base FloatLane Llvm Tables MathTables Math Minimal MaskReduce Ops Cmp Float Reduce
  ExStencil ExRandom ExGeometry ExIntersect.
Import ListNotations.
Open Scope Z_scope.

(** ** Scenes *)

(** trait Scene (scene/mod.rs:4-53): NAO_SAMPLES, plane, spheres, rand and rand_f32xN.  [St] is what
    [&mut self] can change: the state of the random numbers, also if it is thread-local. *)
Record scene (St : Type) := Scene {
  nao : nat;
  sc_plane : plane;
  sc_spheres : list sphere;
  sc_rand : St -> outcome (Z * St);
  sc_rands : St -> outcome (vec * vec * St)
}.
Arguments Scene {St}. Arguments nao {St}. Arguments sc_plane {St}. Arguments sc_spheres {St}.
Arguments sc_rand {St}. Arguments sc_rands {St}.

(** The default of rand_f32xN (scene/mod.rs:9-52): 2 N calls of rand; those at even positions, those at
    odd positions. *)
Fixpoint draw {St} (rand : St -> outcome (Z * St)) (n : nat) (st : St) : outcome (list Z * St) :=
  match n with
  | O => Ok ([], st)
  | S n =>
      vs <- rand st ;;
      let (v, st) := vs : Z * St in
      ls <- draw rand n st ;;
      let (l, st) := ls : list Z * St in
      Ok (v :: l, st)
  end.
Definition default_rands {St} (wide : bool) (rand : St -> outcome (Z * St)) (st : St) : outcome (vec * vec * St) :=
  let n := vn (f32xN wide) in
  rs <- draw rand (2 * n) st ;;
  let (r, st) := rs : list Z * St in
  Ok (map (fun k => nth (2 * k) r 0) (seq 0 n), map (fun k => nth (2 * k + 1) r 0) (seq 0 n), st).

(** The plane and the spheres of both scenes (scene/random.rs:12-54, test.rs:15-52). *)
Definition f32_half : Z := 0x3f000000.
Definition default_plane : plane := Plane (V3 f32_0 (f32_neg f32_half) f32_0) (V3 f32_0 f32_1 f32_0).
Definition default_spheres : list sphere :=
  [ Sphere (V3 0xc0000000 f32_0 0xc0600000) f32_half;
    Sphere (V3 (f32_neg f32_half) f32_0 0xc0400000) f32_half;
    Sphere (V3 f32_1 f32_0 0xc00ccccd) f32_half ].

(** Random (scene/random.rs:56-75): the thread-local generators of random.rs. *)
Definition random_scene (wide : bool) : scene (rng * vrng) :=
  Scene 8 default_plane default_spheres
    (fun st => let (v, r) := gen (fst st) in Ok (v, (r, snd st)))
    (fun st =>
       ar <- vgen wide (snd st) ;;
       let (a, r) := ar : vec * vrng in
       br <- vgen wide r ;;
       let (b, r) := br : vec * vrng in
       Ok (a, b, (fst st, r))).

(** Test (scene/test.rs:70-88): [rands] is what [default] drew from the scalar generator (53-57); the state is
    rand_step. *)
Definition test_rands (r : rng) : list Z * rng := gens (2 * 8 * 8) r.
Definition test_rand (rands : list Z) (step : nat) : outcome (Z * nat) :=
  match nth_error rands step with
  | None => Panic
  | Some v => Ok (v, if Nat.leb (2 * 8 * 8) (step + 1) then 0%nat else (step + 1)%nat)
  end.
Definition test_scene (wide : bool) (rands : list Z) : scene nat :=
  Scene 8 default_plane default_spheres (test_rand rands) (default_rands wide (test_rand rands)).

(** ** Loops *)

(** [for _ in 0..n] with a mutable variable. *)
Fixpoint iterate {A} (n : nat) (body : A -> outcome A) (a : A) : outcome A :=
  match n with
  | O => Ok a
  | S n => a <- body a ;; iterate n body a
  end.
(** How many numbers [(0..n).step_by(k)] has. *)
Definition steps (n k : nat) : nat := ((n + k - 1) / k)%nat.

(** ** One ray at a time *)

(** f32 literals: 2., 0.0001 and f32::consts::PI. *)
Definition f32_2 : Z := 0x40000000.
Definition f32_1em4 : Z := 0x38d1b717.
Definition f32_PI : Z := elem_pi 4.

(** [n as f32] for a usize. *)
Definition usize_f32 (n : nat) : Z := fl_of_int 4 (Z.of_nat n).

Section Scalar.
  (** f32::cos and f32::sin (the C library's, or LLVM's). *)
  Variables (cosf sinf : Z -> Z).
  Context {St : Type}.

  (** The body of the loops of [scalar] (ambient_occlusion.rs:21-38): does the ray meet anything? *)
  Definition sample_scalar (sc : scene St) (basis : m3) (origin : v3) (st : St) : outcome (bool * St) :=
    r <- sc_rand sc st ;;
    let (r1, st) := r : Z * St in
    let theta := fl_sqrt 4 r1 in
    r <- sc_rand sc st ;;
    let (r2, st) := r : Z * St in
    let phi := fl_mul 4 (fl_mul 4 f32_2 f32_PI) r2 in
    let n := V3 (fl_mul 4 (cosf phi) theta) (fl_mul 4 (sinf phi) theta) (fl_sqrt 4 (fl_sub 4 f32_1 (fl_mul 4 theta theta))) in
    let dir := m3_mul basis n in
    let occ := intersect_scene (sc_spheres sc) (sc_plane sc) (Ray origin dir) isect_0 in
    Ok (i_hit occ, st).

  (** scalar (ambient_occlusion.rs:10-45). *)
  Definition ao_scalar (sc : scene St) (i : isect) (st : St) : outcome (Z * St) :=
    let basis := ortho_basis (i_n i) in
    let origin := v3_add (i_p i) (scale_v3 f32_1em4 (i_n i)) in
    r <- iterate (nao sc) (iterate (nao sc) (fun os =>
           hs <- sample_scalar sc basis origin (snd os) ;;
           let (hit, st) := hs : bool * St in
           Ok (if hit : bool then fl_add 4 (fst os) f32_1 else fst os, st))) (f32_0, st) ;;
    let (occlusion, st) := r : Z * St in
    Ok (fl_sub 4 f32_1 (fl_div 4 occlusion (usize_f32 (nao sc * nao sc))), st).
End Scalar.

(** ** A packet at a time *)
Section Packets.
  (** As in Model/ExGeometry.v. *)
  Variables (wide debug : bool) (X : externals) (tg : target) (junk : vec).
  Local Notation f := (f32xN wide).
  Context {St : Type}.

  (** The direction of a sample before it is turned (ambient_occlusion.rs:66-73, 104-111); [one_minus] is
      [f32xN::splat(1.0) - x] in [vector] and [1.0 - x] in [vector_tiled]. *)
  Definition hemisphere (one_minus : vec -> vec) (r1 r2 : vec) : outcome v3s :=
    theta <- method (sqrte X tg junk f r1) ;;
    match sin_cos_pi X tg junk junk f (mul_sv f f32_2 r2) with
    | None => Panic
    | Some (sin, cos) =>
        z <- vsqrt wide X tg junk (one_minus (mul f theta theta)) ;;
        Ok (V3s (mul f cos theta) (mul f sin theta) z)
    end.

  (** The body of the loops of [vector] (ambient_occlusion.rs:65-83). *)
  Definition sample_vector (sc : scene St) (basis : m3) (origin : v3s) (st : St) : outcome (vec * St) :=
    r <- sc_rands sc st ;;
    let '(r1, r2, st) := r : vec * vec * St in
    n <- hemisphere (fun x => sub f (splat f f32_1) x) r1 r2 ;;
    dir <- m3_muls wide X tg basis n ;;
    occ <- intersects_scene wide debug X tg junk (sc_spheres sc) (sc_plane sc) (Rays origin dir) (isects_0 wide) ;;
    x <- sel wide (is_hit occ) (splat f f32_1) (splat f f32_0) ;;
    Ok (x, st).

  (** vector (ambient_occlusion.rs:49-88). *)
  Definition ao_vector (sc : scene St) (i : isect) (st : St) : outcome (Z * St) :=
    let basis := ortho_basis (i_n i) in
    let origin := v3_add (i_p i) (scale_v3 f32_1em4 (i_n i)) in
    let origin := V3s (splat f (vx origin)) (splat f (vy origin)) (splat f (vz origin)) in
    r <- iterate (nao sc) (iterate (steps (nao sc) (vn f)) (fun os =>
           xs <- sample_vector sc basis origin (snd os) ;;
           let (x, st) := xs : vec * St in
           Ok (add f (fst os) x, st))) (splat f f32_0, st) ;;
    let (occlusion, st) := r : vec * St in
    s <- fsum tg f occlusion ;;
    Ok (fl_sub 4 f32_1 (fl_div 4 s (usize_f32 (nao sc * nao sc))), st).

  (** The body of the loops of [vector_tiled] (ambient_occlusion.rs:103-121). *)
  Definition sample_tiled (sc : scene St) (basis : m3s) (origin : v3s) (st : St) : outcome (vec * St) :=
    r <- sc_rands sc st ;;
    let '(r1, r2, st) := r : vec * vec * St in
    n <- hemisphere (fun x => sub_sv f f32_1 x) r1 r2 ;;
    dir <- m3s_mul wide X tg basis n ;;
    occ <- intersects_scene wide debug X tg junk (sc_spheres sc) (sc_plane sc) (Rays origin dir) (isects_0 wide) ;;
    x <- sel wide (is_hit occ) (splat f f32_1) (splat f f32_0) ;;
    Ok (x, st).

  (** vector_tiled (ambient_occlusion.rs:92-126). *)
  Definition ao_tiled (sc : scene St) (i : isects) (st : St) : outcome (vec * St) :=
    basis <- ortho_bases wide X tg (is_n i) ;;
    let origin := v3s_add wide (is_p i) (scale_v3s wide (splat f f32_1em4) (is_n i)) in
    r <- iterate (nao sc) (iterate (nao sc) (fun os =>
           xs <- sample_tiled sc basis origin (snd os) ;;
           let (x, st) := xs : vec * St in
           Ok (add f (fst os) x, st))) (splat f f32_0, st) ;;
    let (occlusion, st) := r : vec * St in
    q <- div_vs f occlusion (usize_f32 (nao sc * nao sc)) ;;
    Ok (sub f (splat f f32_1) q, st).
End Packets.
