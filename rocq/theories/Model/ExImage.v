(** Ambient occlusion: images (examples/aobench/src/image.rs) and the loops over their pixels
    (scalar.rs, vector.rs, tiled.rs, scalar_parallel.rs, vector_parallel.rs, tiled_parallel.rs).
    Index arithmetic is exact: offsets of elements that are in memory do not overflow. *)
From Coq Require Import ZArith List Bool.
From Verif.Model Require Import Base FloatLane Llvm Tables MathTables Math Minimal MaskReduce Ops Cmp Float Reduce
  ExStencil ExRandom ExGeometry ExIntersect ExOcclusion.
Import ListNotations.
Open Scope Z_scope.

(** Image (image.rs:9-14), new (17-24). *)
Record image := Image { img_w : nat; img_h : nat; data : list Z; fdata : list Z }.
Definition image_new (w h : nat) : image := Image w h (repeat 0 (w * h * 3)) (repeat f32_0 (w * h * 3)).

(** clamp of write_png (image.rs:40-51); 64-bit isize.  A product that isize cannot hold is undefined behaviour,
    as [as] was before Rust 1.45. *)
Definition f32_255_5 : Z := 0x437f8000.
Definition clamp (x : Z) : outcome Z :=
  match lane_cast KFloat 4 KInt 8 (fl_mul 4 x f32_255_5) with
  | None => UB
  | Some p =>
      let i := ival KInt 8 p in
      let i := if i <? 0 then 0 else i in
      let i := if 255 <? i then 255 else i in
      Ok (wrap 1 i)
  end.
(** The bytes write_png gives to the encoder (image.rs:67-85); [soa]: all red values first, then green, then blue.
    The file and the encoding are left out. *)
Fixpoint clamps (l : list Z) : outcome (list Z) :=
  match l with
  | [] => Ok []
  | x :: l => c <- clamp x ;; r <- clamps l ;; Ok (c :: r)
  end.
Definition png_bytes (soa : bool) (img : image) : outcome (list Z) :=
  if soa
  then
    let len := (img_w img * img_h img)%nat in
    let r := firstn len (fdata img) in
    let tail := skipn len (fdata img) in
    let g := firstn len tail in
    let b := skipn len tail in
    if Nat.eqb (length r) len && Nat.eqb (length g) len && Nat.eqb (length b) len
    then
      foreach (seq 0 len) (data img) (fun i d =>
        x <- clamp (nth i r 0) ;;
        y <- clamp (nth i g 0) ;;
        z <- clamp (nth i b 0) ;;
        if Nat.ltb (3 * i + 2) (length d)
        then Ok (update (update (update d (3 * i) x) (3 * i + 1) y) (3 * i + 2) z)
        else Panic)
    else Panic
  else
    let n := Nat.min (length (fdata img)) (length (data img)) in
    c <- clamps (firstn n (fdata img)) ;;
    Ok (c ++ skipn n (data img)).

(** [image[k] += r] and [image[k] /= r] for the three components of a pixel. *)
Definition change (op : Z -> Z -> Z) (k : nat) (r : Z) (image : list Z) : outcome (list Z) :=
  match nth_error image k with
  | None => Panic
  | Some p => Ok (update image k (op p r))
  end.
Definition change3 (op : Z -> Z -> Z) (offset : nat) (r : Z) (image : list Z) : outcome (list Z) :=
  image <- change op (offset + 0) r image ;;
  image <- change op (offset + 1) r image ;;
  change op (offset + 2) r image.

(** *** One ray at a time *)

(** The direction of a ray before it is normalised: scalar.rs:24-28 and scalar_parallel.rs:23-27; vector.rs:31-35
    (with [w * 0.5]); vector_parallel.rs:31-35 (with [w / 2.]). *)
Definition scalar_dir (w h ns x y u v : nat) : v3 :=
  let '(x, y, u, v, h, w, ns) :=
    (usize_f32 x, usize_f32 y, usize_f32 u, usize_f32 v, usize_f32 h, usize_f32 w, usize_f32 ns) in
  V3 (fl_div 4 (fl_mul 4 (fl_div 4 (fl_sub 4 (fl_add 4 x (fl_div 4 u ns)) (fl_div 4 w f32_2)) (fl_div 4 w f32_2)) w) h)
     (fl_div 4 (f32_neg (fl_sub 4 (fl_add 4 y (fl_div 4 v ns)) (fl_div 4 h f32_2))) (fl_div 4 h f32_2))
     (f32_neg f32_1).
Definition vector_dir_by (half : Z -> Z) (w h ns x y u v : nat) : v3 :=
  let inv_ns := fl_div 4 f32_1 (usize_f32 ns) in
  let du := fl_mul 4 (usize_f32 u) inv_ns in
  let dv := fl_mul 4 (usize_f32 v) inv_ns in
  let '(x, y, h, w) := (usize_f32 x, usize_f32 y, usize_f32 h, usize_f32 w) in
  V3 (fl_div 4 (fl_mul 4 (fl_div 4 (fl_sub 4 (fl_add 4 x du) (half w)) (half w)) w) h)
     (fl_div 4 (f32_neg (fl_sub 4 (fl_add 4 y dv) (half h))) (half h))
     (f32_neg f32_1).
Definition vector_dir : nat -> nat -> nat -> nat -> nat -> nat -> nat -> v3 := vector_dir_by (fun x => fl_mul 4 x f32_half).
Definition vector_par_dir : nat -> nat -> nat -> nat -> nat -> nat -> nat -> v3 := vector_dir_by (fun x => fl_div 4 x f32_2).

Section Pixels.
  Context {St : Type}.
  Variables (sc : scene St) (ns w h : nat).
  (** [ambient_occlusion::scalar] or [vector] on the scene, and the directions. *)
  Variables (occlusion : isect -> St -> outcome (Z * St)) (dir : nat -> nat -> nat -> nat -> nat -> nat -> nat -> v3).

  (** What a ray sees (scalar.rs:29-47; vector.rs:36-54; likewise in the parallel versions). *)
  Definition ray_value (x y u v : nat) (st : St) : outcome (Z * St) :=
    let ray := Ray v3_0 (normalized (dir w h ns x y u v)) in
    let isect := intersect_scene (sc_spheres sc) (sc_plane sc) ray isect_0 in
    if i_hit isect then occlusion isect st else Ok (f32_0, st).

  (** The loops over the rays of a pixel that begins at [offset]; [scaled] is what is added for a value
      (scalar.rs:18-53; vector.rs:23-63). *)
  Definition pixel_rays (scaled : Z -> Z) (offset x y : nat) (s : list Z * St) : outcome (list Z * St) :=
    foreach (seq 0 ns) s (fun u s => foreach (seq 0 ns) s (fun v s =>
      let (image, st) := s : list Z * St in
      rs <- ray_value x y u v st ;;
      let (ret, st) := rs : Z * St in
      image <- change3 (fl_add 4) offset (scaled ret) image ;;
      Ok (image, st))).
  (** scalar.rs:17-59, scalar_parallel.rs:18-57. *)
  Definition scalar_pixel (offset x y : nat) (s : list Z * St) : outcome (list Z * St) :=
    s <- pixel_rays (fun ret => ret) offset x y s ;;
    let (image, st) := s : list Z * St in
    image <- change3 (fl_div 4) offset (usize_f32 (ns * ns)) image ;;
    Ok (image, st).
  (** vector.rs:22-63, vector_parallel.rs:22-62. *)
  Definition vector_pixel (offset x y : nat) (s : list Z * St) : outcome (list Z * St) :=
    let inv_ns := fl_div 4 f32_1 (usize_f32 ns) in
    pixel_rays (fun ret => fl_mul 4 (fl_mul 4 ret inv_ns) inv_ns) offset x y s.

  (** The loops over the pixels (scalar.rs:15-16, vector.rs:20-21). *)
  Definition all_pixels (pixel : nat -> nat -> nat -> list Z * St -> outcome (list Z * St)) (image : list Z) (st : St)
    : outcome (list Z * St) :=
    foreach (seq 0 h) (image, st) (fun y s => foreach (seq 0 w) s (fun x s => pixel (3 * (y * w + x))%nat x y s)).
  (** The loop over the pixels of a row, in a part of the image of its own (scalar_parallel.rs:15-17,
      vector_parallel.rs:19-21). *)
  Definition row_pixels (pixel : nat -> nat -> nat -> list Z * St -> outcome (list Z * St)) (y : nat) (row : list Z) (st : St)
    : outcome (list Z) :=
    if Nat.eqb (length row) (3 * w)
    then s <- foreach (seq 0 w) (row, st) (fun x s => pixel (3 * x)%nat x y s) ;; Ok (fst s)
    else Panic.
End Pixels.

(** [par_chunks_mut(n).enumerate().for_each(body)]: panics if [n] is 0; every part is handled on its own.  Which
    thread does it when is left out, but for the state of the random numbers: part y starts from [start y]. *)
Fixpoint parts (body : nat -> list Z -> outcome (list Z)) (n : nat) (fuel : nat) (y : nat) (l : list Z) : outcome (list Z) :=
  match fuel, l with
  | S fuel, _ :: _ =>
      r <- body y (firstn n l) ;;
      rest <- parts body n fuel (S y) (skipn n l) ;;
      Ok (r ++ rest)
  | _, _ => Ok []
  end.
Definition par_chunks (body : nat -> list Z -> outcome (list Z)) (n : nat) (l : list Z) : outcome (list Z) :=
  match n with
  | O => Panic
  | S _ => parts body n (length l) 0 l
  end.

Section Serial.
  Context {St : Type}.
  Variables (sc : scene St) (ns : nat) (img : image).
  Local Notation w := (img_w img).
  Local Notation h := (img_h img).

  (** scalar::ao (scalar.rs:8-62). *)
  Definition scalar_ao (cosf sinf : Z -> Z) (st : St) : outcome (list Z * St) :=
    all_pixels w h (scalar_pixel sc ns w h (ao_scalar cosf sinf sc) scalar_dir) (fdata img) st.
  (** vector::ao (vector.rs:10-65, 67-115: the other functions only switch on processor features). *)
  Definition vector_ao (wide debug : bool) (X : externals) (tg : target) (junk : vec) (st : St) : outcome (list Z * St) :=
    all_pixels w h (vector_pixel sc ns w h (ao_vector wide debug X tg junk sc) vector_dir) (fdata img) st.
  (** scalar_parallel::ao (scalar_parallel.rs:9-60) and vector_parallel::ao (vector_parallel.rs:9-64): [S::default()]
      has the objects of [sc]. *)
  Definition scalar_par_ao (cosf sinf : Z -> Z) (start : nat -> St) : outcome (list Z) :=
    par_chunks (fun y row =>
      row_pixels w (scalar_pixel sc ns w h (ao_scalar cosf sinf sc) scalar_dir) y row (start y)) (3 * w) (fdata img).
  Definition vector_par_ao (wide debug : bool) (X : externals) (tg : target) (junk : vec) (start : nat -> St) : outcome (list Z) :=
    par_chunks (fun y row =>
      row_pixels w (vector_pixel sc ns w h (ao_vector wide debug X tg junk sc) vector_par_dir) y row (start y)) (3 * w) (fdata img).
End Serial.

(** *** A packet of rays at a time *)

(** [ptr.read(mask, value)] and [ptr.write(mask, value)] for pointers to elements of the image, as indices:
    undefined behaviour if an enabled lane is not in the image; lanes are written in order (src/api/ptr/gather_scatter.rs,
    Model/Ptr.v). *)
Fixpoint read_img (image : list Z) (at_ : list nat) (mask value : vec) : outcome vec :=
  match at_, mask, value with
  | k :: at_, c :: mask, v :: value =>
      x <- (if c =? 0 then Ok v else match nth_error image k with None => UB | Some p => Ok p end) ;;
      r <- read_img image at_ mask value ;;
      Ok (x :: r)
  | _, _, _ => Ok []
  end.
Fixpoint write_img (image : list Z) (at_ : list nat) (mask value : vec) : outcome (list Z) :=
  match at_, mask, value with
  | k :: at_, c :: mask, v :: value =>
      image <- (if c =? 0 then Ok image else match nth_error image k with None => UB | Some _ => Ok (update image k v) end) ;;
      write_img image at_ mask value
  | _, _, _ => Ok image
  end.

Section Tiled.
  Variables (wide debug : bool) (X : externals) (tg : target) (junk : vec).
  Local Notation f := (f32xN wide).
  Local Notation N := (vn (f32xN wide)).
  Context {St : Type}.
  Variables (sc : scene St) (ns w h : nat).

  (** IncrV of f32xN and of usizexN (geometry/mod.rs:49-74, 99-124). *)
  Definition incr_f32 (x step : Z) : vec := map (fun k => fl_add 4 x (fl_mul 4 (usize_f32 k) step)) (seq 0 N).
  Definition incr_usize (x step : nat) : list nat := map (fun k => x + k * step)%nat (seq 0 N).

  (** tiled.rs:37-43, tiled_parallel.rs:35-41. *)
  Definition tiled_dir (x y u v : nat) : outcome v3s :=
    let inv_ns := fl_div 4 f32_1 (usize_f32 ns) in
    let xf := incr_f32 (usize_f32 x) f32_1 in
    let yf := splat f (usize_f32 y) in
    let du := fl_mul 4 (usize_f32 u) inv_ns in
    let dv := fl_mul 4 (usize_f32 v) inv_ns in
    let '(hf, wf) := (usize_f32 h, usize_f32 w) in
    dx <- div f (add f xf (splat f (fl_sub 4 du (fl_div 4 wf f32_2))))
                (splat f (fl_div 4 (fl_mul 4 (fl_div 4 wf f32_2) hf) wf)) ;;
    dy <- div f (neg f (add f yf (splat f (fl_sub 4 dv (fl_div 4 hf f32_2))))) (splat f (fl_div 4 hf f32_2)) ;;
    Ok (V3s dx dy (splat f (f32_neg f32_1))).

  (** The body of the loops over u and v (tiled.rs:33-75, tiled_parallel.rs:31-76); pixel x of row y begins at
      [offset]. *)
  Definition tiled_rays (offset x y u v : nat) (s : list Z * St) : outcome (list Z * St) :=
    let (image, st) := s : list Z * St in
    let inv_ns := fl_div 4 f32_1 (usize_f32 ns) in
    let r_ptr := map (fun k => offset + k)%nat (incr_usize 0 3) in
    let g_ptr := map (fun k => offset + k)%nat (incr_usize 1 3) in
    let b_ptr := map (fun k => offset + k)%nat (incr_usize 2 3) in
    dir <- tiled_dir x y u v ;;
    dir <- normalizeds wide X tg dir ;;
    isect <- intersects_scene wide debug X tg junk (sc_spheres sc) (sc_plane sc) (Rays (v3s_0 wide) dir) (isects_0 wide) ;;
    some <- any tg (m32xN wide) (is_hit isect) ;;
    if some : bool
    then
      rs <- ao_tiled wide debug X tg junk sc isect st ;;
      let (ret, st) := rs : vec * St in
      let ret := mul f ret (splat f (fl_mul 4 inv_ns inv_ns)) in
      img_r <- read_img image r_ptr (is_hit isect) (splat f f32_0) ;;
      img_g <- read_img image g_ptr (is_hit isect) (splat f f32_0) ;;
      img_b <- read_img image b_ptr (is_hit isect) (splat f f32_0) ;;
      image <- write_img image r_ptr (is_hit isect) (add f img_r ret) ;;
      image <- write_img image g_ptr (is_hit isect) (add f img_g ret) ;;
      image <- write_img image b_ptr (is_hit isect) (add f img_b ret) ;;
      Ok (image, st)
    else Ok (image, st).
  Definition tiled_packet (x y : nat) (s : list Z * St) : outcome (list Z * St) :=
    foreach (seq 0 ns) s (fun u s => foreach (seq 0 ns) s (fun v s => tiled_rays (3 * (y * w + x)) x y u v s)).
  (** [(0..w).step_by(N)]. *)
  Definition packets : list nat := map (fun j => j * N)%nat (seq 0 (steps w N)).

  (** tiled::ao (tiled.rs:10-81, 83-131). *)
  Definition tiled_ao (image : list Z) (st : St) : outcome (list Z * St) :=
    if Nat.eqb (w mod N) 0
    then foreach (seq 0 h) (image, st) (fun y s => foreach packets s (fun x s => tiled_packet x y s))
    else Panic.
End Tiled.

(** tiled_parallel::ao (tiled_parallel.rs:9-81): every row is a task, but all rows write to the whole image through one
    pointer.  A task does its packets and, for each of them, its rays in order; [schedule] tells whose turn it is, as
    long as that row has rays left.  What one turn does to the image, reading and writing, is not interrupted.  Row y
    starts from [start y]. *)
Definition row_steps (wide : bool) (ns w : nat) : list (nat * (nat * nat)) :=
  list_prod (packets wide w) (list_prod (seq 0 ns) (seq 0 ns)).
Definition tiled_par_ao (wide debug : bool) (X : externals) (tg : target) (junk : vec) {St} (sc : scene St) (ns w h : nat)
    (schedule : list nat) (start : nat -> St) (image : list Z) : outcome (list Z) :=
  if Nat.eqb (w mod vn (f32xN wide)) 0 && negb (Nat.eqb w 0) && Nat.eqb (length image mod (3 * w)) 0
  then
    s <- foreach schedule (image, fun y => (row_steps wide ns w, start y)) (fun y s =>
      let (image, rows) := s : list Z * (nat -> list (nat * (nat * nat)) * St) in
      match rows y with
      | ([], _) => Ok s
      | ((x, (u, v)) :: rest, st) =>
          r <- tiled_rays wide debug X tg junk sc ns w h (3 * (y * w + x)) x y u v (image, st) ;;
          Ok (fst r, fun z => if Nat.eqb z y then (rest, snd r) else rows z)
      end) ;;
    Ok (fst s)
  else Panic.
