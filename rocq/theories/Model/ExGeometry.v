(** Three-dimensional vectors of the ambient occlusion example
    (examples/aobench/src/geometry/vec.rs and vecxN.rs). *)
From Coq Require Import ZArith List Bool.
From Verif.Model Require Import Base FloatLane Llvm Tables MathTables Math Minimal Ops Cmp Float ExStencil ExRandom.
Import ListNotations.
Open Scope Z_scope.

(** ** Scalars *)

(** [-x] on an f32: the sign bit changes. *)
Definition f32_neg (p : Z) : Z := if 2 ^ 31 <=? p then p - 2 ^ 31 else p + 2 ^ 31.

(** f32 literals: 0., 1., 1e-17, 1e17, 1e-3, 0.6, -0.6. *)
Definition f32_0 : Z := 0.
Definition f32_1 : Z := 0x3f800000.
Definition f32_1em17 : Z := 0x233877aa.
Definition f32_1e17 : Z := 0x5bb1a2bc.
Definition f32_1em3 : Z := 0x3a83126f.
Definition f32_06 : Z := 0x3f19999a.
Definition f32_m06 : Z := 0xbf19999a.

(** V3D (vec.rs:6-10) and its default (12-22). *)
Record v3 := V3 { vx : Z; vy : Z; vz : Z }.
Definition v3_0 : v3 := V3 f32_0 f32_0 f32_0.

(** dot (vec.rs:159-165). *)
Definition dot (a o : v3) : Z :=
  fl_add 4 (fl_add 4 (fl_mul 4 (vx a) (vx o)) (fl_mul 4 (vy a) (vy o))) (fl_mul 4 (vz a) (vz o)).

(** Add (vec.rs:74-84), Sub (86-96), [V3D * f32] (109-119) and [f32 * V3D] (121-127). *)
Definition v3_add (a o : v3) : v3 := V3 (fl_add 4 (vx a) (vx o)) (fl_add 4 (vy a) (vy o)) (fl_add 4 (vz a) (vz o)).
Definition v3_sub (a o : v3) : v3 := V3 (fl_sub 4 (vx a) (vx o)) (fl_sub 4 (vy a) (vy o)) (fl_sub 4 (vz a) (vz o)).
Definition v3_scale (a : v3) (o : Z) : v3 := V3 (fl_mul 4 (vx a) o) (fl_mul 4 (vy a) o) (fl_mul 4 (vz a) o).
Definition scale_v3 (s : Z) (o : v3) : v3 := v3_scale o s.

(** cross (vec.rs:29-35). *)
Definition cross (a o : v3) : v3 :=
  V3 (fl_sub 4 (fl_mul 4 (vy a) (vz o)) (fl_mul 4 (vz a) (vy o)))
     (fl_sub 4 (fl_mul 4 (vz a) (vx o)) (fl_mul 4 (vx a) (vz o)))
     (fl_sub 4 (fl_mul 4 (vx a) (vy o)) (fl_mul 4 (vy a) (vx o))).

(** normalized (vec.rs:38-42). *)
Definition normalized (a : v3) : v3 :=
  let len2 := dot a a in
  let invlen := fl_div 4 f32_1 (fl_sqrt 4 len2) in
  scale_v3 invlen a.

(** M3x3 (vec.rs:24): three rows. *)
Definition m3 : Type := (v3 * v3 * v3)%type.

(** ortho_basis (vec.rs:45-62). *)
Definition ortho_basis (n : v3) : m3 :=
  let inner c := fl_lt 4 c f32_06 && fl_gt 4 c f32_m06 in
  let b1 :=
    if inner (vx n) then V3 f32_1 f32_0 f32_0
    else if inner (vy n) then V3 f32_0 f32_1 f32_0
    else if inner (vz n) then V3 f32_0 f32_0 f32_1
    else V3 f32_1 f32_0 f32_0 in
  let b2 := n in
  let b0 := normalized (cross b1 b2) in
  let b1 := normalized (cross b2 b0) in
  (b0, b1, b2).

(** [M3x3 * V3D] (vec.rs:129-151). *)
Definition m3_mul (m : m3) (o : v3) : v3 :=
  let '(m0, m1, m2) := m in
  V3 (dot o (V3 (vx m0) (vx m1) (vx m2))) (dot o (V3 (vy m0) (vy m1) (vy m2))) (dot o (V3 (vz m0) (vz m1) (vz m2))).

(** almost_eq (vec.rs:66-71). *)
Definition close (a b : Z) : bool := fl_lt 4 (fl_abs 4 (fl_sub 4 a b)) f32_1em3.
Definition v3_almost_eq (a b : v3) : bool := close (vx a) (vx b) && close (vy a) (vy b) && close (vz a) (vz b).

(** ** Packets *)

(** m32xN (geometry/mod.rs:30-31, 41-42). *)
Definition m32xN (wide : bool) : vty := if wide then m32x8 else m32x4.

(** V3DxN (vecxN.rs:7-12). *)
Record v3s := V3s { xs : vec; ys : vec; zs : vec }.

Section Packets.
  (** The feature 256bit, the external math functions, the target, and what an uninitialised
      vector holds (for [abs] and [sqrt], see Model/Math.v). *)
  Variables (wide : bool) (X : externals) (tg : target) (junk : vec).
  Local Notation f := (f32xN wide).
  Local Notation m := (m32xN wide).

  (** Default (vecxN.rs:14-24). *)
  Definition v3s_0 : v3s := V3s (splat f f32_0) (splat f f32_0) (splat f f32_0).

  (** The methods of f32xN that go through external functions. *)
  Definition madd (a b c : vec) : outcome vec := method (mul_adde X tg f a b c).
  Definition vabs (a : vec) : outcome vec := method (fabs X tg junk f a).
  Definition vsqrt (a : vec) : outcome vec := method (fsqrt X tg junk f a).

  (** [V3DxN . V3DxN] (vecxN.rs:149-155). *)
  Definition dots (a o : v3s) : outcome vec :=
    r <- madd (ys a) (ys o) (mul f (zs a) (zs o)) ;;
    madd (xs a) (xs o) r.

  (** [V3DxN . V3D] (vecxN.rs:157-166). *)
  Definition dots1 (a : v3s) (o : v3) : outcome vec :=
    r <- madd (ys a) (splat f (vy o)) (mul_vs f (zs a) (vz o)) ;;
    madd (xs a) (splat f (vx o)) r.

  (** Add (vecxN.rs:77-87), [V3DxN - V3D] (137-147), [f32xN * V3DxN] (101-111). *)
  Definition v3s_add (a o : v3s) : v3s := V3s (add f (xs a) (xs o)) (add f (ys a) (ys o)) (add f (zs a) (zs o)).
  Definition v3s_sub1 (a : v3s) (o : v3) : v3s :=
    V3s (sub f (xs a) (splat f (vx o))) (sub f (ys a) (splat f (vy o))) (sub f (zs a) (splat f (vz o))).
  Definition scale_v3s (s : vec) (o : v3s) : v3s := V3s (mul f s (xs o)) (mul f s (ys o)) (mul f s (zs o)).

  (** cross (vecxN.rs:68-74). *)
  Definition crosses (a o : v3s) : v3s :=
    V3s (sub f (mul f (ys a) (zs o)) (mul f (zs a) (ys o)))
        (sub f (mul f (zs a) (xs o)) (mul f (xs a) (zs o)))
        (sub f (mul f (xs a) (ys o)) (mul f (ys a) (xs o))).

  (** normalized (vecxN.rs:29-33). *)
  Definition normalizeds (a : v3s) : outcome v3s :=
    len2 <- dots a a ;;
    invlen <- rsqrte f len2 ;;
    Ok (scale_v3s invlen a).

  (** get (vecxN.rs:35-41). *)
  Definition v3s_get (a : v3s) (i : Z) : outcome v3 :=
    x <- extract f (xs a) i ;;
    y <- extract f (ys a) i ;;
    z <- extract f (zs a) i ;;
    Ok (V3 x y z).

  (** sel (vecxN.rs:173-179), on vectors (181-191), with one vector for all lanes (193-203). *)
  Definition sel (c : vec) (a b : vec) : outcome vec := select m c a b.
  Definition v3s_sel (c : vec) (a b : v3s) : outcome v3s :=
    x <- sel c (xs a) (xs b) ;;
    y <- sel c (ys a) (ys b) ;;
    z <- sel c (zs a) (zs b) ;;
    Ok (V3s x y z).
  Definition v3s_sel1 (c : vec) (a : v3) (b : v3s) : outcome v3s :=
    x <- sel c (splat f (vx a)) (xs b) ;;
    y <- sel c (splat f (vy a)) (ys b) ;;
    z <- sel c (splat f (vz a)) (zs b) ;;
    Ok (V3s x y z).

  (** ortho_basis (vecxN.rs:45-66). *)
  Definition m3s : Type := (v3s * v3s * v3s)%type.
  Definition ortho_bases (n : v3s) : outcome m3s :=
    let b1 := v3s_0 in
    let max := splat f f32_06 in
    let min := splat f f32_m06 in
    let one := splat f f32_1 in
    let mx := mask_bitand m (vlt f (xs n) max) (vgt f (xs n) min) in
    let my := mask_bitand m (vlt f (ys n) max) (vgt f (ys n) min) in
    let mz := mask_bitand m (vlt f (zs n) max) (vgt f (zs n) min) in
    x <- sel (mask_bitor m mx (mask_bitand m (mask_bitand m (mask_not m mx) (mask_not m my)) (mask_not m mz))) one (xs b1) ;;
    y <- sel (mask_bitand m (mask_not m mx) my) one (ys b1) ;;
    z <- sel (mask_bitand m (mask_bitand m (mask_not m mx) (mask_not m my)) mz) one (zs b1) ;;
    let b1 := V3s x y z in
    let b2 := n in
    b0 <- normalizeds (crosses b1 b2) ;;
    b1 <- normalizeds (crosses b2 b0) ;;
    Ok (b0, b1, b2).

  (** [[V3DxN; 3] * V3DxN] (vecxN.rs:113-135). *)
  Definition m3s_mul (a : m3s) (o : v3s) : outcome v3s :=
    let '(m0, m1, m2) := a in
    x <- dots o (V3s (xs m0) (xs m1) (xs m2)) ;;
    y <- dots o (V3s (ys m0) (ys m1) (ys m2)) ;;
    z <- dots o (V3s (zs m0) (zs m1) (zs m2)) ;;
    Ok (V3s x y z).

  (** [M3x3 * V3DxN] (vecxN.rs:205-232). *)
  Definition m3_muls (a : m3) (o : v3s) : outcome v3s :=
    let '(m0, m1, m2) := a in
    let row p q r :=
      s <- madd (ys o) (splat f q) (mul f (zs o) (splat f r)) ;;
      madd (xs o) (splat f p) s in
    x <- row (vx m0) (vx m1) (vx m2) ;;
    y <- row (vy m0) (vy m1) (vy m2) ;;
    z <- row (vz m0) (vz m1) (vz m2) ;;
    Ok (V3s x y z).
End Packets.
