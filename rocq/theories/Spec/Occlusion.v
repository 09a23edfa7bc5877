(** Vocabulary for ambient occlusion: how much of the hemisphere above a point is free. *)
From Coq Require Import ZArith List Bool Reals.
From Verif.Model Require Import Base Tables MathTables Math ExRandom ExGeometry ExIntersect ExOcclusion.
From Verif.Spec Require Import Spec Floats MathSpec Stencil Rays.
Import ListNotations.
Open Scope Z_scope.

(** ** A system of coordinates with a given third axis *)

(** Cross product: three differences of two products, everything rounded. *)
Definition minor (a b c d r : datum) : Prop := exists p q, ieee_mul 4 a b p /\ ieee_mul 4 c d q /\ ieee_sub 4 p q r.
Definition crossed (a b r : point) : Prop :=
  let '(ax, ay, az) := a in let '(bx, by_, bz) := b in let '(x, y, z) := r in
  minor ay bz az by_ x /\ minor az bx ax bz y /\ minor ax by_ ay bx z.

(** The coordinate axis to begin with: the first one along which [n] has a component between -0.6 and 0.6; if
    there is none, the x axis. *)
Definition small (x : datum) : Prop := ieee_lt x (Fin false (rounded 4 (6 / 10))) /\ ieee_lt (Fin true (rounded 4 (- 6 / 10))) x.
Definition one : datum := Fin false 1.
Definition axis (n a : point) : Prop :=
  let '(x, y, z) := n in
  (small x /\ a = (one, zero, zero)) \/
  (~ small x /\ small y /\ a = (zero, one, zero)) \/
  (~ small x /\ ~ small y /\ small z /\ a = (zero, zero, one)) \/
  (~ small x /\ ~ small y /\ ~ small z /\ a = (one, zero, zero)).

(** The first two axes are the unit vectors along a x n and n x (first axis). *)
Definition basis_of (dot : dotter) (n : point) (b : point * point * point) : Prop :=
  let '(b0, b1, b2) := b in
  exists a c d, axis n a /\ crossed a n c /\ unit_vector dot c b0 /\ crossed n b0 d /\ unit_vector dot d b1 /\ b2 = n.

(** The vector whose coordinates in [b] are [v]: v_x b0 + v_y b1 + v_z b2, component by component. *)
Definition turned (dot : dotter) (b : point * point * point) (v r : point) : Prop :=
  let '((x0, y0, z0), (x1, y1, z1), (x2, y2, z2)) := b in let '(x, y, z) := r in
  dot v (x0, x1, x2) x /\ dot v (y0, y1, y2) y /\ dot v (z0, z1, z2) z.

(** Values of the Rust types M3x3 and M3x3xN, and which matrix belongs to a lane. *)
Definition is_m3 (m : m3) : Prop := let '(a, b, c) := m in is_v3 a /\ is_v3 b /\ is_v3 c.
Definition points_of (m : m3) : point * point * point := let '(a, b, c) := m in (point_of a, point_of b, point_of c).
Definition is_m3s (wide : bool) (m : m3s) : Prop := let '(a, b, c) := m in is_v3s wide a /\ is_v3s wide b /\ is_v3s wide c.
Definition m3_lane (m : m3s) (k : nat) (l : m3) : Prop :=
  let '(a, b, c) := m in let '(x, y, z) := l in v3_lane a k x /\ v3_lane b k y /\ v3_lane c k z.

(** ** A sample *)

(** The direction for two random numbers: cos a * r, sin a * r, sqrt (1 - r^2) with r = sqrt r1 and a = 2 pi r2.
    [cosine] and [sine] tell what the functions of the platform do. *)
Definition hemisphere_point (cosine sine : datum -> datum -> Prop) (r1 r2 : datum) (v : point) : Prop :=
  exists r a c s rr d x y z,
    ieee_sqrt 4 r1 r /\ ieee_mul 4 (Fin false (2 * rounded 4 PI)) r2 a /\ cosine a c /\ sine a s /\
    ieee_mul 4 c r x /\ ieee_mul 4 s r y /\ ieee_mul 4 r r rr /\ ieee_sub 4 one rr d /\ ieee_sqrt 4 d z /\ v = (x, y, z).

(** Is the ray that starts slightly above the point [i], in the direction that belongs to [r1] and [r2], stopped
    by one of the objects?  [dot0] computes the coordinate system, [dot] and [mad] do the rest. *)
Definition sampled (dot0 dot : dotter) (mad : mul_adder) (cosine sine : datum -> datum -> Prop) (obs : list object)
    (i : isect) (r1 r2 : Z) (hit : bool) : Prop :=
  exists b v a j,
    basis_of dot0 (point_of (i_n i)) b /\
    hemisphere_point cosine sine (f32_datum r1) (f32_datum r2) v /\
    along (point_of (i_p i)) (point_of (i_n i)) (Fin false (rounded 4 (/ 10000))) (point_of (r_origin a)) /\
    turned dot b v (point_of (r_dir a)) /\
    nearest dot mad a obs isect_0 j /\ hit = i_hit j.

(** ** The share of free samples *)
Definition count (hs : list bool) : nat := length (filter (fun h => h) hs).
Definition free_share (n : nat) (hs : list bool) (r : datum) : Prop :=
  exists q, ieee_div 4 (Fin false (INR (count hs))) (Fin false (INR n)) q /\ ieee_sub 4 one q r.

(** ** Random numbers *)

(** Calling [rand] again and again returns the elements of the list. *)
Inductive draws {A St} (rand : St -> outcome (A * St)) : St -> list A -> St -> Prop :=
| no_draw st : draws rand st [] st
| one_draw st v st1 l st' : rand st = Ok (v, st1) -> draws rand st1 l st' -> draws rand st (v :: l) st'.

(** The numbers two by two. *)
Fixpoint pairs {A} (l : list A) : list (A * A) :=
  match l with
  | a :: b :: l => (a, b) :: pairs l
  | _ => []
  end.

(** Two by two, lane by lane. *)
Definition lane_pairs (p : vec * vec) : list (Z * Z) := combine (fst p) (snd p).

(** Scenes made of Rust values. *)
Definition is_scene {St} (sc : scene St) : Prop := is_plane (sc_plane sc) /\ Forall is_sphere (sc_spheres sc).
Definition objects {St} (sc : scene St) : list object := map ASphere (sc_spheres sc) ++ [APlane (sc_plane sc)].

(** What the functions of the standard library and of LLVM do. *)
Definition computes (f : Z -> Z) (R : datum -> datum -> Prop) : Prop :=
  forall p, is_f32 p -> is_f32 (f p) /\ R (f32_datum p) (f32_datum (f p)).
Definition trig_is (S : lane_functions) (cosine sine : datum -> datum -> Prop) : Prop :=
  forall f, x_lib f = LLVM -> x_b f = 4%nat ->
    (x_fn f = ECos -> forall p, is_f32 p -> cosine (f32_datum p) (f32_datum (l1 S f p))) /\
    (x_fn f = ESin -> forall p, is_f32 p -> sine (f32_datum p) (f32_datum (l1 S f p))).
(** Numbers drawn in packets: vectors of the Rust type. *)
Definition are_packets (wide : bool) (ps : list (vec * vec)) : Prop :=
  Forall (fun p => is_vector (f32xN wide) (fst p) /\ is_vector (f32xN wide) (snd p)) ps.

(** States of the random number generators: four u32, four vectors of u32. *)
Definition is_u32 (z : Z) : Prop := 0 <= z < 2 ^ 32.
Definition is_state (r : rng) : Prop := let '(a, b, c, d) := r in is_u32 a /\ is_u32 b /\ is_u32 c /\ is_u32 d.
Definition is_vstate (wide : bool) (r : vrng) : Prop :=
  let '(a, b, c, d) := r in
  is_vector (u32xN wide) a /\ is_vector (u32xN wide) b /\ is_vector (u32xN wide) c /\ is_vector (u32xN wide) d.

(** The numbers lie in [0, 1). *)
Definition below_one (p : Z) : Prop := is_f32 p /\ exists x, f32_datum p = Fin false x /\ (0 <= x < 1)%R.
