(** The stencil example (examples/stencil/src).  A slice of f32 is the list of its elements and
    scalar f32 arithmetic is that of one lane.  The i32 arithmetic on indices is exact: the
    number of cells, n_x * n_y * n_z, is itself an i32 (lib.rs:59).  A negative index becomes
    a huge [usize], which is outside of every slice. *)
From Coq Require Import ZArith List Bool.
From Verif.Model Require Import Base FloatLane Tables MathTables Math Minimal Ops.
Import ListNotations.
Open Scope Z_scope.

(** [for i in a..b] and [for i in (a..b).step_by(k)]. *)
Definition range (a b : Z) : list Z := map (fun i => a + Z.of_nat i) (seq 0 (Z.to_nat (b - a))).
Definition range_by (k a b : Z) : list Z :=
  map (fun i => a + k * Z.of_nat i) (seq 0 (Z.to_nat ((b - a + (k - 1)) / k))).
Fixpoint foreach {A S} (l : list A) (s : S) (body : A -> S -> outcome S) : outcome S :=
  match l with
  | [] => Ok s
  | x :: l' => s' <- body x s ;; foreach l' s' body
  end.

(** [l[i]] and [l[i] = x]. *)
Definition within (l : list Z) (i : Z) : bool := (0 <=? i) && (i <? Z.of_nat (length l)).
Definition get (l : list Z) (i : Z) : outcome Z := if within l i then Ok (nth (Z.to_nat i) l 0) else Panic.
Definition set (l : list Z) (i x : Z) : outcome (list Z) :=
  if within l i then Ok (update l (Z.to_nat i) x) else Panic.

(** The bounds of the computation and the size of the grid (lib.rs:27, 29-31). *)
Record bounds := mkBounds { x0 : Z; x1 : Z; y0 : Z; y1 : Z; z0 : Z; z1 : Z; n_x : Z; n_y : Z; n_z : Z }.
Definition n_xy (r : bounds) : Z := n_x r * n_y r.

(** [coef[i]] and [2.]. *)
Definition coef_at (coef : list Z) (i : nat) : Z := nth i coef 0.
Definition two : Z := fl_of_int 4 2.

(** ** Scalar version (scalar.rs) *)

(** The sum of the six cells at distance [i] (scalar.rs:14-18, 29-34). *)
Definition scalar_around (r : bounds) (a_in : list Z) (index i : Z) : outcome Z :=
  let cur x y z := get a_in (index + x + y * n_x r + z * n_xy r) in
  a <- cur i 0 0 ;;
  b <- cur (- i) 0 0 ;;
  c <- cur 0 i 0 ;;
  d <- cur 0 (- i) 0 ;;
  e <- cur 0 0 i ;;
  f <- cur 0 0 (- i) ;;
  Ok (fl_add 4 (fl_add 4 (fl_add 4 (fl_add 4 (fl_add 4 a b) c) d) e) f).

(** The body of the loops of step (scalar.rs:12-37). *)
Definition scalar_cell (r : bounds) (coef vsq a_in : list Z) (z y x : Z) (a_out : list Z) : outcome (list Z) :=
  let index := z * n_xy r + y * n_x r + x in
  cur <- get a_in index ;;
  div <- foreach [1; 2; 3]%nat (fl_mul 4 (coef_at coef 0) cur) (fun i div =>
    s <- scalar_around r a_in index (Z.of_nat i) ;;
    Ok (fl_add 4 div (fl_mul 4 (coef_at coef i) s))) ;;
  old <- get a_out index ;;
  v <- get vsq index ;;
  set a_out index (fl_add 4 (fl_sub 4 (fl_mul 4 two cur) old) (fl_mul 4 v div)).

(** step (scalar.rs:3-41). *)
Definition scalar_step (r : bounds) (coef vsq a_in a_out : list Z) : outcome (list Z) :=
  foreach (range (z0 r) (z1 r)) a_out (fun z a_out =>
    foreach (range (y0 r) (y1 r)) a_out (fun y a_out =>
      foreach (range (x0 r) (x1 r)) a_out (fun x a_out =>
        scalar_cell r coef vsq a_in z y x a_out))).

(** The loop over the time steps (scalar.rs:48-60, simd.rs:77-105, simd_par.rs:12-42); the state
    has [a_even] and [a_odd]. *)
Definition time_loop (step : Z -> list Z -> list Z -> outcome (list Z)) (t0 t1 : Z) (a : list Z * list Z) :
    outcome (list Z * list Z) :=
  foreach (range t0 t1) a (fun t a =>
    if Z.even t then o <- step t (fst a) (snd a) ;; Ok (fst a, o)
    else e <- step t (snd a) (fst a) ;; Ok (e, snd a)).

(** scalar (scalar.rs:43-61). *)
Definition scalar (r : bounds) (t0 t1 : Z) (coef vsq : list Z) (a : list Z * list Z) : outcome (list Z * list Z) :=
  time_loop (fun _ => scalar_step r coef vsq) t0 t1 a.

(** ** Vector version (simd.rs) *)

(** [f32x8::from_slice_unaligned_unchecked(l.get_unchecked(k..))] and the write
    (simd.rs:22-27, 50-52, 56-58, 62-64): undefined unless eight elements follow. *)
Definition eight (l : list Z) (k : Z) : bool := (0 <=? k) && (k + 8 <=? Z.of_nat (length l)).
Definition read8 (l : list Z) (k : Z) : outcome vec :=
  if eight l k then Ok (firstn 8 (skipn (Z.to_nat k) l)) else UB.
Definition write8 (l : list Z) (k : Z) (v : vec) : outcome (list Z) :=
  if eight l k then Ok (firstn (Z.to_nat k) l ++ v ++ skipn (Z.to_nat k + 8) l) else UB.

(** A method that exists for f32x8 on every target. *)
Definition method (o : option vec) : outcome vec := match o with Some v => Ok v | None => Panic end.

(** The sum of the neighbours (simd.rs:20-29, 37-45). *)
Definition simd_around (r : bounds) (a_in : list Z) (index i : Z) : outcome vec :=
  let cur x y z := read8 a_in (index + x + y * n_x r + z * n_xy r) in
  a <- cur i 0 0 ;;
  b <- cur (- i) 0 0 ;;
  c <- cur 0 i 0 ;;
  d <- cur 0 (- i) 0 ;;
  e <- cur 0 0 i ;;
  f <- cur 0 0 (- i) ;;
  Ok (add f32x8 (add f32x8 (add f32x8 (add f32x8 (add f32x8 a b) c) d) e) f).

(** The body of the loops of step_x8 (simd.rs:18-64); [a_out] is a plane. *)
Definition simd_cells (X : externals) (tg : target) (r : bounds) (coef vsq a_in : list Z) (z y x : Z) (a_out : list Z) :
    outcome (list Z) :=
  let out_idx := x + y * n_x r in
  let index := z * n_xy r + out_idx in
  cur_0 <- read8 a_in index ;;
  div <- foreach [1; 2; 3]%nat (mul_sv f32x8 (coef_at coef 0) cur_0) (fun i div =>
    s <- simd_around r a_in index (Z.of_nat i) ;;
    method (mul_adde X tg f32x8 (splat f32x8 (coef_at coef i)) s div)) ;;
  v <- read8 vsq index ;;
  old <- read8 a_out out_idx ;;
  sum <- method (mul_adde X tg f32x8 cur_0 (splat f32x8 two) (neg f32x8 old)) ;;
  res <- method (mul_adde X tg f32x8 v div sum) ;;
  write8 a_out out_idx res.

(** step_x8 (simd.rs:6-69), from plane [za] to [zb]. *)
Definition step_x8 (X : externals) (tg : target) (r : bounds) (za zb : Z) (coef vsq a_in a_out : list Z) : outcome (list Z) :=
  _ <- assert (Z.rem (x1 r - x0 r) 8 =? 0) ;;
  foreach (range za zb) a_out (fun z a_out =>
    foreach (range (y0 r) (y1 r)) a_out (fun y a_out =>
      foreach (range_by 8 (x0 r) (x1 r)) a_out (fun x a_out =>
        simd_cells X tg r coef vsq a_in z y x a_out))).

(** [a.chunks_mut(k)]; [fuel]: the length of [a]. *)
Fixpoint chunks (fuel k : nat) (a : list Z) : list (list Z) :=
  match fuel, a with
  | S f, _ :: _ => firstn k a :: chunks f k (skipn k a)
  | _, _ => []
  end.
(** [x as usize] as the argument of [chunks_mut], or of [skip] or [take] on an iterator over at
    most [len] things: beyond [len] there is no difference. *)
Definition as_size (len : nat) (x : Z) : nat := if x <? 0 then S len else Z.to_nat x.
(** The numbers of the planes of [.enumerate().skip(z0 as usize).take((z1 - z0) as usize)]. *)
Definition planes (r : bounds) (len : nat) : list nat :=
  firstn (Nat.min len (as_size len (z1 r - z0 r))) (skipn (Nat.min len (as_size len (z0 r))) (seq 0 len)).

(** One time step (simd.rs:79-103, simd_par.rs:14-41).  [order] reorders the planes; they are
    handled one by one. *)
Definition x8_step (order : list nat -> list nat) (X : externals) (tg : target) (r : bounds) (coef vsq a_in a_out : list Z) :
    outcome (list Z) :=
  let size := as_size (length a_out) (n_xy r) in
  _ <- assert (Nat.ltb 0 size) ;;
  let cs := chunks (length a_out) size a_out in
  cs <- foreach (order (planes r (length cs))) cs (fun z cs =>
    c <- step_x8 X tg r (Z.of_nat z) (Z.of_nat z + 1) coef vsq a_in (nth z cs []) ;;
    Ok (update cs z c)) ;;
  Ok (concat cs).

(** x8 (simd.rs:166-203, 71-106): the detected processor features only choose how the same code
    is compiled; they are part of the target. *)
Definition x8 (X : externals) (tg : target) (r : bounds) (t0 t1 : Z) (coef vsq : list Z) (a : list Z * list Z) :
    outcome (list Z * list Z) :=
  time_loop (fun _ => x8_step (fun l => l) X tg r coef vsq) t0 t1 a.

(** x8_par (simd_par.rs:108-144, 5-43): in each time step the planes are handled in any order.  (They
    are disjoint parts of the output and the input is not written, so that handling them at the
    same time is like some order.) *)
Definition x8_par (order : Z -> list nat -> list nat) (X : externals) (tg : target) (r : bounds) (t0 t1 : Z) (coef vsq : list Z)
    (a : list Z * list Z) : outcome (list Z * list Z) :=
  _ <- assert (z1 r - z0 r <=? n_z r) ;;
  time_loop (fun t => x8_step (order t) X tg r coef vsq) t0 t1 a.

(** ** Data (lib.rs) *)

(** from_bounds (lib.rs:43-52), new and reinit (55-96): the bounds, the three arrays and coeff. *)
Definition from_bounds (width nx ny nz : Z) : bounds :=
  mkBounds width (nx - width) width (ny - width) width (nz - width) nx ny nz.
Definition grid {A} (r : bounds) (f : Z -> Z -> Z -> A) : list A :=
  flat_map (fun z => flat_map (fun y => map (fun x => f z y x) (range 0 (n_x r))) (range 0 (n_y r))) (range 0 (n_z r)).
Definition init_a (r : bounds) : list Z :=
  grid r (fun z y x =>
    if x <? Z.quot (n_x r) 2 then fl_div 4 (fl_of_int 4 x) (fl_of_int 4 (n_x r))
    else fl_div 4 (fl_of_int 4 y) (fl_of_int 4 (n_y r))).
Definition init_vsq (r : bounds) : list Z :=
  grid r (fun z y x => fl_div 4 (fl_of_int 4 (x * y * z)) (fl_of_int 4 (n_x r * n_y r * n_z r))).
Definition init_zero (r : bounds) : list Z := grid r (fun _ _ _ => 0).
Definition the_coef : list Z := [0x3f000000; 0xbe800000; 0x3e000000; 0xbd800000].
