(** C65, C66: rays, planes and spheres of the ambient occlusion example. *)
From Coq Require Import ZArith List Bool Lia Reals.
From Verif.Model Require Import Base FloatLane Tables MathTables Math ExStencil ExRandom ExGeometry ExIntersect.
From Verif.Spec Require Import Spec Floats MathSpec Stencil Rays.
From Verif.Proofs Require Import Lib MathLlvmP ExStencilMainP ExPacketP ExIntersectP ExIntersectMainP ExIntersectTopP ExIntersectDebugP ExIntersectGroundP.
From Verif.Props Require Import Tac Targets.
Import ListNotations.
Open Scope Z_scope.

(** C65: intersecting one ray with a plane keeps the nearer one of the point known so far and the
    point where the ray meets the plane; every operation rounds. *)
Theorem C65_plane : forall r pl i, is_ray r -> is_plane pl -> is_isect i ->
  intersected left_to_right rounded_twice r (APlane pl) i (intersect_plane r pl i) /\ is_isect (intersect_plane r pl i).
Proof. exact plane_scalar. Qed.
Print Assumptions C65_plane.

(** C65: the same for a sphere. *)
Theorem C65_sphere : forall r s i, is_ray r -> is_sphere s -> is_isect i ->
  intersected left_to_right rounded_twice r (ASphere s) i (intersect_sphere r s i) /\ is_isect (intersect_sphere r s i).
Proof. exact sphere_scalar. Qed.
Print Assumptions C65_sphere.

(** C65: intersecting one ray with a scene finds the nearest point of all objects. *)
Theorem C65_nearest : forall spheres pl r i, is_ray r -> is_plane pl -> Forall is_sphere spheres -> is_isect i ->
  nearest left_to_right rounded_twice r (map ASphere spheres ++ [APlane pl]) i (intersect_scene spheres pl r i) /\
  is_isect (intersect_scene spheres pl r i).
Proof. exact scene_scalar. Qed.
Print Assumptions C65_nearest.

(** C65: a packet does that in every lane, with dot products nested from right to left and with the
    multiply-add of the target; lanes do not affect each other.  There is neither panic nor undefined
    behaviour in a release build. *)
Theorem C65_packet_plane : forall wide X S tg junk mad,
  works_lanewise X S -> follows_llvm S -> ~ uses_sleef tg -> mul_adde_is tg S mad -> is_vector (f32xN wide) junk ->
  forall r i pl, is_rays wide r -> is_isects wide i -> is_plane pl ->
  exists i', intersects_plane wide false X tg junk r pl i = Ok i' /\ is_isects wide i' /\
    forall k a b, ray_lane r k a -> isect_lane i k b ->
      exists b', isect_lane i' k b' /\ intersected (nested mad) mad a (APlane pl) b b'.
Proof. exact plane_packet. Qed.
Print Assumptions C65_packet_plane.

Theorem C65_packet_sphere : forall wide X S tg junk mad,
  works_lanewise X S -> follows_llvm S -> ~ uses_sleef tg -> mul_adde_is tg S mad -> is_vector (f32xN wide) junk ->
  forall r i s, is_rays wide r -> is_isects wide i -> is_sphere s ->
  exists i', intersects_sphere wide false X tg junk r s i = Ok i' /\ is_isects wide i' /\
    forall k a b, ray_lane r k a -> isect_lane i k b ->
      exists b', isect_lane i' k b' /\ intersected (nested mad) mad a (ASphere s) b b'.
Proof. exact sphere_packet. Qed.
Print Assumptions C65_packet_sphere.

Theorem C65_packet_nearest : forall wide X S tg junk mad,
  works_lanewise X S -> follows_llvm S -> ~ uses_sleef tg -> mul_adde_is tg S mad -> is_vector (f32xN wide) junk ->
  forall r i spheres pl, is_rays wide r -> is_isects wide i -> Forall is_sphere spheres -> is_plane pl ->
  exists i', intersects_scene wide false X tg junk spheres pl r i = Ok i' /\ is_isects wide i' /\
    forall k a b, ray_lane r k a -> isect_lane i k b ->
      exists b', isect_lane i' k b' /\ nearest (nested mad) mad a (map ASphere spheres ++ [APlane pl]) b b'.
Proof. exact scene_packet. Qed.
Print Assumptions C65_packet_nearest.

(** C66: a debug build gives the result of the release build if, ray by ray, packets and single rays
    agree up to 10^-3 in every number, and panics otherwise. *)
Theorem C66_debug_plane : forall wide X tg junk r pl i i',
  is_rays wide r -> is_isects wide i -> is_plane pl -> is_isects wide i' ->
  intersects_plane wide false X tg junk r pl i = Ok i' ->
  (intersects_plane wide true X tg junk r pl i = Ok i' \/ intersects_plane wide true X tg junk r pl i = Panic) /\
  (intersects_plane wide true X tg junk r pl i = Ok i' <->
   forall k a b b', ray_lane r k a -> isect_lane i k b -> isect_lane i' k b' -> agree (intersect_plane a pl b) b').
Proof. exact plane_debug. Qed.
Print Assumptions C66_debug_plane.

Theorem C66_debug_sphere : forall wide X tg junk r s i i',
  is_rays wide r -> is_isects wide i -> is_sphere s -> is_isects wide i' ->
  intersects_sphere wide false X tg junk r s i = Ok i' ->
  (intersects_sphere wide true X tg junk r s i = Ok i' \/ intersects_sphere wide true X tg junk r s i = Panic) /\
  (intersects_sphere wide true X tg junk r s i = Ok i' <->
   forall k a b b', ray_lane r k a -> isect_lane i k b -> isect_lane i' k b' -> agree (intersect_sphere a s b) b').
Proof. exact sphere_debug. Qed.
Print Assumptions C66_debug_sphere.

(** C66: on a plane parallel to the ground, such as the one in both scenes, packets and single rays
    agree bit by bit for all finite rays, with one rounding in mul_adde or two; so a debug build does
    not panic as long as the results are finite. *)
Theorem C66_ground : forall wide X S tg junk mad,
  works_lanewise X S -> follows_llvm S -> ~ uses_sleef tg -> mul_adde_is tg S mad ->
  mad = rounded_twice \/ mad = rounded_once -> is_vector (f32xN wide) junk ->
  forall r i pl, is_rays wide r -> is_isects wide i -> is_plane pl ->
  finite3 (p_p pl) -> p_n pl = V3 f32_0 f32_1 f32_0 -> (forall k a, ray_lane r k a -> finite_ray a) ->
  exists i', intersects_plane wide false X tg junk r pl i = Ok i' /\ is_isects wide i' /\
    (forall k a b, ray_lane r k a -> isect_lane i k b -> isect_lane i' k (intersect_plane a pl b)) /\
    ((forall k b, isect_lane i' k b -> finite_isect b) -> intersects_plane wide true X tg junk r pl i = Ok i').
Proof. exact ground_packet. Qed.
Print Assumptions C66_ground.

(** C66: that packets and single rays always agree is false: there is a plane with a finite normal
    vector and a finite ray for which they disagree on whether the ray meets the plane at all, on
    every target, so that a debug build panics. *)
Theorem C66_agree_refuted : forall wide, exists r pl i,
  is_rays wide r /\ (forall k a, ray_lane r k a -> finite_ray a) /\
  is_isects wide i /\ (forall k b, isect_lane i k b -> finite_isect b) /\
  is_plane pl /\ finite3 (p_p pl) /\ finite3 (p_n pl) /\
  forall X S tg junk mad,
    works_lanewise X S -> follows_llvm S -> ~ uses_sleef tg -> mul_adde_is tg S mad ->
    mad = rounded_twice \/ mad = rounded_once -> is_vector (f32xN wide) junk ->
    intersects_plane wide true X tg junk r pl i = Panic.
Proof.
  intros wide. exists (odd_rays wide), odd_plane, (odd_isects wide).
  destruct (odd_packet_ok wide) as (A & B & C & D). split; [exact A|]. split; [exact B|]. split; [exact C|]. split; [exact D|].
  destruct odd_plane_ok as (P & P1 & P2). split; [exact P|]. split; [exact P1|]. split; [exact P2|].
  intros X S tg junk mad H1 H2 H3 H4 H5 H6. exact (odd_debug wide X S tg junk mad H1 H2 H3 H4 H5 H6).
Qed.
Print Assumptions C66_agree_refuted.

(** Four rays from (0, 0, 0): straight ahead, to the left, down, up.  The scene has a sphere of radius 1/2 at
    (0, 0, -3), one of radius 1 at (-2, 0, 0) and a plane at height -1/2. *)
Definition f32_half : Z := 0x3f000000.
Definition f32_mhalf : Z := 0xbf000000.
Definition the_plane : plane := Plane (V3 f32_0 f32_mhalf f32_0) (V3 f32_0 f32_1 f32_0).
Definition the_spheres : list sphere :=
  [Sphere (V3 f32_0 f32_0 0xc0400000) f32_half; Sphere (V3 0xc0000000 f32_0 f32_0) f32_1].
Definition the_dirs : list v3 :=
  [V3 f32_0 f32_0 f32_m1; V3 f32_m1 f32_0 f32_0; V3 f32_0 f32_m1 f32_0; V3 f32_0 f32_1 f32_0].
Definition the_rays : rays := rays_of (seq 0 4) (fun k => Ray v3_0 (nth k the_dirs v3_0)).
Definition the_isects : isects := isects_of (seq 0 4) (fun _ => isect_0).

Example C65_example :
  works_lanewise ref_externals ref_lanes /\ follows_llvm ref_lanes /\ ~ uses_sleef x86_64_avx2 /\
  mul_adde_is s390x ref_lanes rounded_twice /\ mul_adde_is x86_64_avx2 twice_lanes rounded_twice /\
  is_rays false the_rays /\ is_isects false the_isects /\ is_plane the_plane /\ Forall is_sphere the_spheres /\
  (* the distances are 5/2, 1, 1/2; nothing is up there *)
  map (fun d => i_t (intersect_scene the_spheres the_plane (Ray v3_0 d) isect_0)) the_dirs = [0x40200000; f32_1; f32_half; f32_1e17] /\
  map (fun d => i_hit (intersect_scene the_spheres the_plane (Ray v3_0 d) isect_0)) the_dirs = [true; true; true; false] /\
  (exists i', intersects_scene false false ref_externals x86_64_avx2 (repeat 0 4) the_spheres the_plane the_rays the_isects = Ok i' /\
     is_t i' = [0x40200000; f32_1; f32_half; f32_1e17] /\ map truth (is_hit i') = [true; true; true; false] /\
     intersects_scene false true ref_externals x86_64_avx2 (repeat 0 4) the_spheres the_plane the_rays the_isects = Ok i').
Proof.
  split; [exact ref_works|]. split; [exact ref_follows|].
  split; [intros (_ & H & _); discriminate H|].
  split; [split; [intros H; now contradiction H|reflexivity]|].
  split; [split; [intros _; exact twice_is|discriminate]|].
  split; [split; apply (of_v3s false); intros k [<-|[<-|[<-|[<-|[]]]]]; vm_compute; intuition congruence|].
  split; [apply (of_isects false); intros k _; vm_compute; intuition congruence|].
  split; [vm_compute; intuition congruence|].
  split; [repeat constructor; vm_compute; intuition congruence|].
  split; [vm_compute; reflexivity|]. split; [vm_compute; reflexivity|].
  eexists. split; [vm_compute; reflexivity|]. split; [vm_compute; reflexivity|]. split; vm_compute; reflexivity.
Qed.
