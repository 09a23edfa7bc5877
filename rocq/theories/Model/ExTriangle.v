(** The triangle transform (examples/triangle_xform/src).  Lanes and scalars are f32
    patterns; scalar f32 arithmetic is that of one lane. *)
From Coq Require Import ZArith List Bool.
From Verif.Model Require Import Base FloatLane Tables Minimal Ops.
Import ListNotations.
Open Scope Z_scope.

(** [VecF] (simd.rs:4). *)
Definition VecF : vty := f32x8.

(** [Matrix] = [[f32; 3]; 4] (lib.rs:6), [Vertex] = [f32; 3] (scalar.rs:4) and the scalar
    [Triangle] of three vertices (scalar.rs:8).  An index out of bounds reads the default,
    which no theorem relies on. *)
Definition matrix := list (list Z).
Definition vertex := list Z.
Definition triangle := list vertex.

(** One coordinate of the product in the scalar version: [a * v[0] + b * v[1] + c * v[2] + d]
    (scalar.rs:26-31). *)
Definition scalar_coord (a b c d x y z : Z) : Z :=
  fl_add 4 (fl_add 4 (fl_add 4 (fl_mul 4 a x) (fl_mul 4 b y)) (fl_mul 4 c z)) d.

(** scalar::Triangle::transform (scalar.rs:13-37); the loop over k writes vertex k. *)
Definition at_ (l : list Z) (i : nat) : Z := nth i l 0.
Definition scalar_vertex (mat : matrix) (v : vertex) : vertex :=
  let col j := nth j mat [] in
  map (fun r => scalar_coord (at_ (col 0%nat) r) (at_ (col 1%nat) r) (at_ (col 2%nat) r) (at_ (col 3%nat) r)
                  (at_ v 0) (at_ v 1) (at_ v 2)) [0; 1; 2]%nat.
Definition scalar_transform (mat : matrix) (t : triangle) : triangle :=
  map (fun k => scalar_vertex mat (nth k t [])) [0; 1; 2]%nat.

(** simd::Triangle (simd.rs:8-12). *)
Record simd_triangle := ST { st_x : list vec; st_y : list vec; st_z : list vec }.

(** pack (simd.rs:16-41).  The inner loop builds one vector of each coordinate by
    [replace]; indexing [tris[i]] is in bounds after the assertion. *)
Definition pack_coord (tris : list triangle) (k c : nat) : outcome vec :=
  for_loop (lanes VecF) 0 (splat VecF (lit KFloat 4 0)) (fun i x =>
    match nth_error tris i with
    | Some t => replace VecF x (Z.of_nat i) (at_ (nth k t []) c)
    | None => Panic
    end).
Definition pack_coords (tris : list triangle) (c : nat) : outcome (list vec) :=
  a <- pack_coord tris 0 c ;; b <- pack_coord tris 1 c ;; d <- pack_coord tris 2 c ;; Ok [a; b; d].
Definition pack (tris : list triangle) : outcome simd_triangle :=
  _ <- assert (Nat.eqb (length tris) (lanes VecF)) ;;
  x <- pack_coords tris 0 ;; y <- pack_coords tris 1 ;; z <- pack_coords tris 2 ;;
  Ok (ST x y z).

(** unpack (simd.rs:44-57): an array of default triangles is filled vertex by vertex. *)
Definition set_vertex (t : triangle) (k : nat) (v : vertex) : triangle := update t k v.
Definition default_triangle : triangle := repeat (repeat 0 3) 3.
Definition unpack (s : simd_triangle) : outcome (list triangle) :=
  for_loop 3 0 (repeat default_triangle (lanes VecF)) (fun k tris =>
    for_loop (lanes VecF) 0 tris (fun i tris =>
      x <- extract VecF (nth k (st_x s) []) (Z.of_nat i) ;;
      y <- extract VecF (nth k (st_y s) []) (Z.of_nat i) ;;
      z <- extract VecF (nth k (st_z s) []) (Z.of_nat i) ;;
      Ok (update tris i (set_vertex (nth i tris []) k [x; y; z])))).

(** transform (simd.rs:61-84): [col_a[r] * x + col_b[r] * y + col_c[r] * z + col_d[r]] with
    scalar coefficients. *)
Definition simd_coord (a b c d : Z) (x y z : vec) : vec :=
  add_vs VecF (add VecF (add VecF (mul_sv VecF a x) (mul_sv VecF b y)) (mul_sv VecF c z)) d.
Definition simd_transform (mat : matrix) (s : simd_triangle) : simd_triangle :=
  let col j := nth j mat [] in
  let coord r k := simd_coord (at_ (col 0%nat) r) (at_ (col 1%nat) r) (at_ (col 2%nat) r) (at_ (col 3%nat) r)
                     (nth k (st_x s) []) (nth k (st_y s) []) (nth k (st_z s) []) in
  ST (map (coord 0%nat) [0; 1; 2]%nat) (map (coord 1%nat) [0; 1; 2]%nat) (map (coord 2%nat) [0; 1; 2]%nat).
