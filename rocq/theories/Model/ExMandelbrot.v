(** The Mandelbrot example (examples/mandelbrot/src).  Scalars are f64 patterns; scalar
    f64 arithmetic is that of one lane. *)
From Coq Require Import ZArith List Bool.
From Verif.Model Require Import Base FloatLane Llvm Tables Minimal MaskReduce Ops Cmp Cast.
Import ListNotations.
Open Scope Z_scope.

(** [THRESHOLD] = 4.0 and [ITER_LIMIT] = 50 (lib.rs:173, 179). *)
Definition THRESHOLD : Z := fl_of_int 8 4.
Definition ITER_LIMIT : nat := 50.

(** ** The scalar version *)

(** scalar_par::Complex (scalar_par.rs:8-11): real and imaginary part. *)
Definition complex := (Z * Z)%type.

(** [x * x + y * y], as computed by [diverged] (scalar_par.rs:17-21). *)
Definition norm2 (z : complex) : Z :=
  let (x, y) := z in fl_add 8 (fl_mul 8 x x) (fl_mul 8 y y).

(** diverged (scalar_par.rs:16-24). *)
Definition diverged (z : complex) : bool := fl_gt 8 (norm2 z) THRESHOLD.

(** MandelbrotIter::next (scalar_par.rs:61-75): the value after [z] in the sequence that
    started with [c]. *)
Definition next (c z : complex) : complex :=
  let (c_x, c_y) := c in let (x, y) := z in
  let xx := fl_mul 8 x x in let yy := fl_mul 8 y y in let xy := fl_mul 8 x y in
  (fl_add 8 c_x (fl_sub 8 xx yy), fl_add 8 c_y (fl_add 8 xy xy)).

(** MandelbrotIter::count (scalar_par.rs:43-53): [fuel] iterations are left, [i] is the
    loop variable. *)
Fixpoint count_loop (fuel i : nat) (c z : complex) : nat :=
  match fuel with
  | O => ITER_LIMIT
  | S fuel' => if diverged z then i else count_loop fuel' (S i) c (next c z)
  end.
Definition count (c : complex) : nat := count_loop ITER_LIMIT 0 c c.

(** The points of a row or column (scalar_par.rs:82, 88, 94, 103; simd_par.rs:118, 125, 131,
    140): [start + d * (j as f64)] with [d = (end - start) / (n as f64)]. *)
Definition coordinate (start stop : Z) (n j : nat) : Z :=
  let d := fl_div 8 (fl_sub 8 stop start) (fl_of_int 8 (Z.of_nat n)) in
  fl_add 8 start (fl_mul 8 d (fl_of_int 8 (Z.of_nat j))).

(** scalar_par::generate (scalar_par.rs:78-112).  The rows are independent, so the parallel
    loop is a map; [par_chunks_mut(0)] panics.  The counts are converted to u32. *)
Definition scalar_generate (width height : nat) (x0 x1 y0 y1 : Z) : outcome (list Z) :=
  _ <- assert (negb (Nat.eqb width 0)) ;;
  Ok (flat_map (fun i =>
        map (fun j => Z.of_nat (count (coordinate x0 x1 width j, coordinate y0 y1 height i)))
          (seq 0 width)) (seq 0 height)).

(** ** The vector version *)
Definition f64s : vty := f64x8.
Definition u64s : vty := u64x8.
Definition u32s : vty := u32x8.
Definition m64s : vty := m64x8.

(** simd_par::Complex (simd_par.rs:15-18). *)
Definition complexes := (vec * vec)%type.

(** undiverged (simd_par.rs:24-32). *)
Definition undiverged (z : complexes) : vec :=
  let (x, y) := z in
  vle f64s (add f64s (mul f64s x x) (mul f64s y y)) (splat f64s THRESHOLD).

(** MandelbrotIter::next (simd_par.rs:84-98). *)
Definition nexts (c z : complexes) : complexes :=
  let (c_x, c_y) := c in let (x, y) := z in
  let xx := mul f64s x x in let yy := mul f64s y y in let xy := mul f64s x y in
  (add f64s c_x (sub f64s xx yy), add f64s c_y (add f64s xy xy)).

(** MandelbrotIter::count (simd_par.rs:55-77). *)
Fixpoint counts_loop (tg : target) (fuel : nat) (c z : complexes) (count : vec) : outcome vec :=
  match fuel with
  | O => Ok count
  | S fuel' =>
      let u := undiverged z in
      stop <- none tg m64s u ;;
      if stop : bool then Ok count
      else
        s <- select m64s u (splat u64s 1) (splat u64s 0) ;;
        counts_loop tg fuel' c (nexts c z) (add u64s count s)
  end.
Definition counts (tg : target) (c : complexes) : outcome vec :=
  n <- counts_loop tg ITER_LIMIT c c (splat u64s 0) ;;
  cast PlainCast u64s u32s n.

(** A row of blocks (simd_par.rs:139-146), one after the other. *)
Fixpoint counts_row (tg : target) (xs : list vec) (y : vec) : outcome (list Z) :=
  match xs with
  | [] => Ok []
  | x :: xs' => n <- counts tg (x, y) ;; r <- counts_row tg xs' y ;; Ok (n ++ r)
  end.
Fixpoint rows (tg : target) (xs : list vec) (ys : list vec) : outcome (list Z) :=
  match ys with
  | [] => Ok []
  | y :: ys' => r <- counts_row tg xs y ;; l <- rows tg xs ys' ;; Ok (r ++ l)
  end.

(** simd_par::generate (simd_par.rs:101-156).  The buffer of x values is filled lane by lane
    through a slice of f64; the vector of u32x8 is finally read as one of u32. *)
Definition simd_generate (tg : target) (width height : nat) (x0 x1 y0 y1 : Z) : outcome (list Z) :=
  _ <- assert (Nat.eqb (Nat.modulo width (lanes f64s)) 0) ;;
  let blocks := (width / lanes f64s)%nat in
  let xs := map (fun k => map (fun j => coordinate x0 x1 width (lanes f64s * k + j)) (seq 0 (lanes f64s)))
              (seq 0 blocks) in
  _ <- assert (negb (Nat.eqb blocks 0)) ;;
  rows tg xs (map (fun i => splat f64s (coordinate y0 y1 height i)) (seq 0 height)).

(** [DEFAULT_REGION] (lib.rs:167): -1.5..0.5 and -1.0..1.0. *)
Definition region_x0 : Z := 0xBFF8000000000000.
Definition region_x1 : Z := 0x3FE0000000000000.
Definition region_y0 : Z := 0xBFF0000000000000.
Definition region_y1 : Z := 0x3FF0000000000000.
