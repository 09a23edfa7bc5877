(** Intersections of rays with planes and spheres in the ambient occlusion example
    (examples/aobench/src/intersection/*.rs, geometry/{ray,rayxN,plane,sphere}.rs). *)
From Coq Require Import ZArith List Bool.
From Verif.Model Require Import Base FloatLane Llvm Tables MathTables Math Minimal MaskReduce Ops Cmp Float ExStencil ExRandom ExGeometry.
Import ListNotations.
Open Scope Z_scope.

(** Ray (geometry/ray.rs:6-10), Plane (plane.rs:5-9), Sphere (sphere.rs:5-9), Isect (single.rs:6-12)
    and its default (14-24). *)
Record ray := Ray { r_origin : v3; r_dir : v3 }.
Record plane := Plane { p_p : v3; p_n : v3 }.
Record sphere := Sphere { s_center : v3; s_radius : Z }.
Record isect := Isect { i_t : Z; i_p : v3; i_n : v3; i_hit : bool }.
Definition isect_0 : isect := Isect f32_1e17 v3_0 v3_0 false.

(** ** One ray *)

(** [Ray::intersect] with a plane (ray_plane.rs:10-30). *)
Definition intersect_plane (r : ray) (pl : plane) (i : isect) : isect :=
  let d := f32_neg (dot (p_p pl) (p_n pl)) in
  let v := dot (r_dir r) (p_n pl) in
  if fl_lt 4 (fl_abs 4 v) f32_1em17 then i
  else
    let t := fl_div 4 (f32_neg (fl_add 4 (dot (r_origin r) (p_n pl)) d)) v in
    if fl_gt 4 t f32_0 && fl_lt 4 t (i_t i)
    then Isect t (v3_add (r_origin r) (scale_v3 t (r_dir r))) (p_n pl) true
    else i.

(** [Ray::intersect] with a sphere (ray_sphere.rs:10-30). *)
Definition intersect_sphere (r : ray) (s : sphere) (i : isect) : isect :=
  let rs := v3_sub (r_origin r) (s_center s) in
  let b := dot rs (r_dir r) in
  let c := fl_sub 4 (dot rs rs) (fl_mul 4 (s_radius s) (s_radius s)) in
  let d := fl_sub 4 (fl_mul 4 b b) c in
  if fl_gt 4 d f32_0
  then
    let t := fl_sub 4 (f32_neg b) (fl_sqrt 4 d) in
    if fl_gt 4 t f32_0 && fl_lt 4 t (i_t i)
    then
      let p := v3_add (r_origin r) (scale_v3 t (r_dir r)) in
      Isect t p (normalized (v3_sub p (s_center s))) true
    else i
  else i.

(** A ray through a scene (ambient_occlusion.rs:32-36, scalar.rs:32-36): all spheres, then the plane. *)
Definition intersect_scene (spheres : list sphere) (pl : plane) (r : ray) (i : isect) : isect :=
  intersect_plane r pl (fold_left (fun i s => intersect_sphere r s i) spheres i).

(** Isect::almost_eq (single.rs:29-35). *)
Definition isect_almost_eq (a b : isect) : bool :=
  close (i_t a) (i_t b) && v3_almost_eq (i_p a) (i_p b) && v3_almost_eq (i_n a) (i_n b) &&
  Bool.eqb (i_hit a) (i_hit b).

(** ** A packet of rays *)

(** RayxN (rayxN.rs:6-10), IsectxN (packet.rs:7-13) and its default (15-25). *)
Record rays := Rays { rs_origin : v3s; rs_dir : v3s }.
Record isects := Isects { is_t : vec; is_p : v3s; is_n : v3s; is_hit : vec }.

Section Packets.
  (** As in Model/ExGeometry.v; [debug] is debug_assertions. *)
  Variables (wide debug : bool) (X : externals) (tg : target) (junk : vec).
  Local Notation f := (f32xN wide).
  Local Notation m := (m32xN wide).

  Definition isects_0 : isects := Isects (splat f f32_1e17) (v3s_0 wide) (v3s_0 wide) (mask_splat m false).

  (** RayxN::get (rayxN.rs:13-18), IsectxN::get (packet.rs:28-35). *)
  Definition rays_get (r : rays) (k : Z) : outcome ray :=
    o <- v3s_get wide (rs_origin r) k ;;
    d <- v3s_get wide (rs_dir r) k ;;
    Ok (Ray o d).
  Definition isects_get (i : isects) (k : Z) : outcome isect :=
    t <- extract f (is_t i) k ;;
    p <- v3s_get wide (is_p i) k ;;
    n <- v3s_get wide (is_n i) k ;;
    hit <- mask_extract m (is_hit i) k ;;
    Ok (Isect t p n hit).

  (** The check in debug builds (ray_plane.rs:61-72, ray_sphere.rs:62-72): every lane is compared with the
      intersection of a single ray. *)
  Fixpoint check (one : ray -> isect -> isect) (r : rays) (old new : isects) (ks : list nat) : outcome unit :=
    match ks with
    | [] => Ok tt
    | k :: ks =>
        old_k <- isects_get old (Z.of_nat k) ;;
        ray_k <- rays_get r (Z.of_nat k) ;;
        new_k <- isects_get new (Z.of_nat k) ;;
        _ <- assert (isect_almost_eq (one ray_k old_k) new_k) ;;
        check one r old new ks
    end.
  Definition checked (one : ray -> isect -> isect) (r : rays) (old new : isects) : outcome isects :=
    if debug
    then _ <- check one r old new (seq 0 (lanes f)) ;; Ok new
    else Ok new.

  (** [RayxN::intersect] with a plane (ray_plane.rs:37-75). *)
  Definition intersects_plane (r : rays) (pl : plane) (i : isects) : outcome isects :=
    let d := f32_neg (dot (p_p pl) (p_n pl)) in
    v <- dots1 wide X tg (rs_dir r) (p_n pl) ;;
    a <- vabs wide X tg junk v ;;
    let c := vge f a (splat f f32_1em17) in
    some <- any tg m c ;;
    new <-
      (if some : bool
       then
         w <- dots1 wide X tg (rs_origin r) (p_n pl) ;;
         q <- div f (neg f (add_vs f w d)) v ;;
         t <- sel wide c q (is_t i) ;;
         let c := mask_bitand m (mask_bitand m c (vgt f t (splat f f32_0))) (vlt f t (is_t i)) in
         some <- any tg m c ;;
         (if some : bool
          then
            t' <- sel wide c t (is_t i) ;;
            let hit := mask_bitor_assign m (is_hit i) c in
            p <- v3s_sel wide c (v3s_add wide (rs_origin r) (scale_v3s wide t (rs_dir r))) (is_p i) ;;
            n <- v3s_sel1 wide c (p_n pl) (is_n i) ;;
            Ok (Isects t' p n hit)
          else Ok i)
       else Ok i) ;;
    checked (fun r i => intersect_plane r pl i) r i new.

  (** [RayxN::intersect] with a sphere (ray_sphere.rs:37-75). *)
  Definition intersects_sphere (r : rays) (s : sphere) (i : isects) : outcome isects :=
    let rs := v3s_sub1 wide (rs_origin r) (s_center s) in
    b <- dots wide X tg rs (rs_dir r) ;;
    let radius := splat f (s_radius s) in
    rr <- dots wide X tg rs rs ;;
    c <- madd wide X tg radius (neg f radius) rr ;;
    d <- madd wide X tg b b (neg f c) ;;
    let c := vgt f d (splat f f32_0) in
    some <- any tg m c ;;
    new <-
      (if some : bool
       then
         e <- vsqrt wide X tg junk d ;;
         t <- sel wide c (sub f (neg f b) e) (is_t i) ;;
         let c := mask_bitand m (mask_bitand m c (vgt f t (splat f f32_0))) (vlt f t (is_t i)) in
         some <- any tg m c ;;
         (if some : bool
          then
            t' <- sel wide c t (is_t i) ;;
            let hit := mask_bitor_assign m (is_hit i) c in
            p <- v3s_sel wide c (v3s_add wide (rs_origin r) (scale_v3s wide t (rs_dir r))) (is_p i) ;;
            u <- normalizeds wide X tg (v3s_sub1 wide p (s_center s)) ;;
            n <- v3s_sel wide c u (is_n i) ;;
            Ok (Isects t' p n hit)
          else Ok i)
       else Ok i) ;;
    checked (fun r i => intersect_sphere r s i) r i new.

  (** A packet through a scene (ambient_occlusion.rs:77-81, 115-119). *)
  Fixpoint intersects_spheres (r : rays) (spheres : list sphere) (i : isects) : outcome isects :=
    match spheres with
    | [] => Ok i
    | s :: spheres => i <- intersects_sphere r s i ;; intersects_spheres r spheres i
    end.
  Definition intersects_scene (spheres : list sphere) (pl : plane) (r : rays) (i : isects) : outcome isects :=
    i <- intersects_spheres r spheres i ;;
    intersects_plane r pl i.
End Packets.
