(** Vocabulary for the ambient occlusion example: rays, planes and spheres in f32. *)
From Coq Require Import ZArith List Bool Reals.
From Verif.Model Require Import Base Tables MathTables Math ExRandom ExGeometry ExIntersect.
From Verif.Spec Require Import Spec Floats MathSpec Stencil.
Import ListNotations.
Open Scope Z_scope.

(** ** Points and vectors in space *)
Definition point : Type := (datum * datum * datum)%type.
Definition f32_datum (p : Z) : datum := datum_of 4 p.
Definition point_of (v : v3) : point := (f32_datum (vx v), f32_datum (vy v), f32_datum (vz v)).

(** Component by component. *)
Definition each1 (R : datum -> datum -> Prop) (a r : point) : Prop :=
  let '(ax, ay, az) := a in let '(x, y, z) := r in R ax x /\ R ay y /\ R az z.
Definition each2 (R : datum -> datum -> datum -> Prop) (a b r : point) : Prop :=
  let '(ax, ay, az) := a in let '(bx, by_, bz) := b in let '(x, y, z) := r in R ax bx x /\ R ay by_ y /\ R az bz z.
Definition difference (a b r : point) : Prop := each2 (ieee_sub 4) a b r.
Definition times (s : datum) (a r : point) : Prop := each1 (ieee_mul 4 s) a r.

(** The point at parameter [t] of the line from [o] in direction [d]. *)
Definition along (o d : point) (t : datum) (r : point) : Prop := exists m, times t d m /\ each2 (ieee_add 4) o m r.

(** A way to compute dot products: from left to right, every operation rounded; or from right
    to left with a multiply-add. *)
Definition dotter := point -> point -> datum -> Prop.
Definition left_to_right : dotter := fun a b r =>
  let '(ax, ay, az) := a in let '(bx, by_, bz) := b in
  exists x y z s, ieee_mul 4 ax bx x /\ ieee_mul 4 ay by_ y /\ ieee_mul 4 az bz z /\ ieee_add 4 x y s /\ ieee_add 4 s z r.
Definition nested (mad : mul_adder) : dotter := fun a b r =>
  let '(ax, ay, az) := a in let '(bx, by_, bz) := b in
  exists z s, ieee_mul 4 az bz z /\ mad ay by_ z s /\ mad ax bx s r.

(** A vector divided by its length. *)
Definition unit_vector (dot : dotter) (a r : point) : Prop :=
  exists s l i, dot a a s /\ ieee_sqrt 4 s l /\ ieee_div 4 (Fin false 1) l i /\ times i a r.

Definition absolute (x : datum) : datum :=
  match x with
  | NaN => NaN
  | Inf _ => Inf false
  | Fin _ u => Fin false (Rabs u)
  end.
Definition zero : datum := Fin false 0.
(** The f32 nearest to 10^-17. *)
Definition tiny : datum := Fin false (rounded 4 (/ 10 ^ 17)).

(** ** Where a ray meets an object *)
Inductive object := APlane (p : plane) | ASphere (s : sphere).

(** The ray meets the object at parameter [t] ([Some t]), or not at all or behind its origin
    ([None]).  On a plane (x - p) . n = 0 we have t = - (o . n - p . n) / (d . n), unless the ray
    is parallel to it.  On a sphere |x - c|^2 = r^2 with |d| = 1 we have t^2 + 2 b t + c = 0, where
    b = (o - c) . d and c = |o - c|^2 - r^2; only the nearer one of the two points counts. *)
Definition meets (dot : dotter) (mad : mul_adder) (r : ray) (ob : object) (res : option datum) : Prop :=
  let o := point_of (r_origin r) in
  let d := point_of (r_dir r) in
  match ob with
  | APlane pl =>
      let n := point_of (p_n pl) in
      exists k v w q t,
        left_to_right (point_of (p_p pl)) n k /\ dot d n v /\ dot o n w /\
        ieee_sub 4 w k q /\ ieee_div 4 (negated q) v t /\
        ((ieee_le tiny (absolute v) /\ ieee_lt zero t) /\ res = Some t \/
         ~ (ieee_le tiny (absolute v) /\ ieee_lt zero t) /\ res = None)
  | ASphere s =>
      let rad := f32_datum (s_radius s) in
      exists rs b rr c disc e t,
        difference o (point_of (s_center s)) rs /\ dot rs d b /\ dot rs rs rr /\
        mad rad (negated rad) rr c /\ mad b b (negated c) disc /\
        ieee_sqrt 4 disc e /\ ieee_sub 4 (negated b) e t /\
        ((ieee_lt zero disc /\ ieee_lt zero t) /\ res = Some t \/
         ~ (ieee_lt zero disc /\ ieee_lt zero t) /\ res = None)
  end.

(** [i] describes the point of [r] at parameter [t], on the object. *)
Definition describes (dot : dotter) (r : ray) (ob : object) (t : datum) (i : isect) : Prop :=
  f32_datum (i_t i) = t /\
  along (point_of (r_origin r)) (point_of (r_dir r)) t (point_of (i_p i)) /\
  match ob with
  | APlane pl => i_n i = p_n pl
  | ASphere s => exists u, difference (point_of (i_p i)) (point_of (s_center s)) u /\ unit_vector dot u (point_of (i_n i))
  end /\
  i_hit i = true.

(** Intersecting with an object keeps the nearer one of the point known so far and the point
    where the ray meets the object. *)
Definition intersected (dot : dotter) (mad : mul_adder) (r : ray) (ob : object) (i i' : isect) : Prop :=
  exists res, meets dot mad r ob res /\
    match res with
    | Some t => (ieee_lt t (f32_datum (i_t i)) /\ describes dot r ob t i') \/ (~ ieee_lt t (f32_datum (i_t i)) /\ i' = i)
    | None => i' = i
    end.

(** Intersecting with several objects finds the nearest point: [ts] has where the ray meets each
    of them.  If none is nearer than the point known before, nothing changes; otherwise the result
    describes the nearest one, and the first one of those that are equally near. *)
Definition nearest (dot : dotter) (mad : mul_adder) (r : ray) (obs : list object) (i i' : isect) : Prop :=
  exists ts, Forall2 (meets dot mad r) obs ts /\
    ((i' = i /\ forall t, In (Some t) ts -> ~ ieee_lt t (f32_datum (i_t i))) \/
     (exists k ob t, nth_error obs k = Some ob /\ nth_error ts k = Some (Some t) /\
        ieee_lt t (f32_datum (i_t i)) /\ describes dot r ob t i' /\
        forall j u, nth_error ts j = Some (Some u) -> ~ ieee_lt u t /\ ((j < k)%nat -> ieee_lt t u))).

(** ** Packets: lane k of each vector belongs to ray k *)
Definition v3_lane (v : v3s) (k : nat) (a : v3) : Prop := lane (xs v) k (vx a) /\ lane (ys v) k (vy a) /\ lane (zs v) k (vz a).
Definition ray_lane (r : rays) (k : nat) (a : ray) : Prop :=
  v3_lane (rs_origin r) k (r_origin a) /\ v3_lane (rs_dir r) k (r_dir a).
Definition isect_lane (i : isects) (k : nat) (a : isect) : Prop :=
  lane (is_t i) k (i_t a) /\ v3_lane (is_p i) k (i_p a) /\ v3_lane (is_n i) k (i_n a) /\
  exists h, lane (is_hit i) k h /\ i_hit a = truth h.

(** Values of the Rust types. *)
Definition is_f32 (p : Z) : Prop := 0 <= p < 2 ^ 32.
Definition is_v3 (v : v3) : Prop := is_f32 (vx v) /\ is_f32 (vy v) /\ is_f32 (vz v).
Definition is_ray (r : ray) : Prop := is_v3 (r_origin r) /\ is_v3 (r_dir r).
Definition is_plane (p : plane) : Prop := is_v3 (p_p p) /\ is_v3 (p_n p).
Definition is_sphere (s : sphere) : Prop := is_v3 (s_center s) /\ is_f32 (s_radius s).
Definition is_isect (i : isect) : Prop := is_f32 (i_t i) /\ is_v3 (i_p i) /\ is_v3 (i_n i).
Definition is_v3s (wide : bool) (v : v3s) : Prop :=
  is_vector (f32xN wide) (xs v) /\ is_vector (f32xN wide) (ys v) /\ is_vector (f32xN wide) (zs v).
Definition is_rays (wide : bool) (r : rays) : Prop := is_v3s wide (rs_origin r) /\ is_v3s wide (rs_dir r).
Definition is_isects (wide : bool) (i : isects) : Prop :=
  is_vector (f32xN wide) (is_t i) /\ is_v3s wide (is_p i) /\ is_v3s wide (is_n i) /\ canonical (m32xN wide) (is_hit i).

(** f32xN::mul_adde works as [mad] tells. *)
Definition mul_adde_is (tg : target) (S : lane_functions) (mad : mul_adder) : Prop :=
  (t_arch tg <> S390x -> fmuladd_is S mad) /\ (t_arch tg = S390x -> mad = rounded_twice).

(** ** What debug builds check: the results for a packet and for its rays one by one agree up to 10^-3 *)
Definition nearly (x y : datum) : Prop := exists d, ieee_sub 4 x y d /\ ieee_lt (absolute d) (Fin false (rounded 4 (/ 1000))).
Definition near_points (a b : point) : Prop :=
  let '(ax, ay, az) := a in let '(bx, by_, bz) := b in nearly ax bx /\ nearly ay by_ /\ nearly az bz.
Definition agree (i j : isect) : Prop :=
  nearly (f32_datum (i_t i)) (f32_datum (i_t j)) /\ near_points (point_of (i_p i)) (point_of (i_p j)) /\
  near_points (point_of (i_n i)) (point_of (i_n j)) /\ i_hit i = i_hit j.

(** Finite values. *)
Definition finite (p : Z) : Prop := exists s x, f32_datum p = Fin s x.
Definition finite3 (v : v3) : Prop := finite (vx v) /\ finite (vy v) /\ finite (vz v).
Definition finite_ray (r : ray) : Prop := finite3 (r_origin r) /\ finite3 (r_dir r).
Definition finite_isect (i : isect) : Prop := finite (i_t i) /\ finite3 (i_p i) /\ finite3 (i_n i).
