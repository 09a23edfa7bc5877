(** The files written by the Mandelbrot example (examples/mandelbrot/src/lib.rs) and the memory of its images.  A byte
    is a number; the ISPC version is left out. *)
From Coq Require Import ZArith Ascii String List Bool.
From Verif.Model Require Import Base FloatLane Llvm Tables Minimal Fmt ExMandelbrot ExStencil.
Import ListNotations.
Open Scope Z_scope.

(** [dyn io::Write]: takes [room] more bytes and then fails; [got]: what it has taken.  An operation on it goes on
    ([Written]), returns the error, or panics. *)
Record sink := { got : list Z; room : nat }.
Inductive ended := Written | Failed | Panicked | Undefined.
Definition io := sink -> ended * sink.

(** std's [write_all]: the bytes that fit are taken, then an error is returned. *)
Definition write_all (buf : list Z) : io := fun s =>
  (if (length buf <=? room s)%nat then Written else Failed,
   {| got := (got s ++ firstn (room s) buf)%list; room := room s - length buf |}).
(** [a?; b]. *)
Definition then_ (a b : io) : io := fun s =>
  let (r, s') := a s in match r with Written => b s' | _ => (r, s') end.
(** [let x = e; k] for an [e] that does not write. *)
Definition let_ {A} (e : outcome A) (k : A -> io) : io := fun s =>
  match e with Ok x => k x s | Panic => (Panicked, s) | UB => (Undefined, s) end.
(** The parts of [write!], written one after the other; [{}] of an integer is its numeral. *)
Definition bytes (l : text) : list Z := map (fun c => Z.of_N (N_of_ascii c)) l.
Definition LF : text := ["010"%char].
Definition decimal (n : nat) : text := numeral false 10 8 (Z.of_nat n).

(** Mandelbrot (lib.rs:50-53). *)
Record mandelbrot := { mb_width : nat; mb_height : nat; mb_data : list Z }.

(** Algorithm (lib.rs:41-48), generate_region and generate (55-80), built without the feature `ispc`. *)
Inductive algorithm := Scalar | Simd | Ispc.
Definition generate_region (tg : target) (w h : nat) (x0 x1 y0 y1 : Z) (algo : algorithm) : outcome mandelbrot :=
  data <- match algo with
          | Scalar => scalar_generate w h x0 x1 y0 y1
          | Simd => simd_generate tg w h x0 x1 y0 y1
          | Ispc => Panic
          end ;;
  Ok {| mb_width := w; mb_height := h; mb_data := data |}.
Definition generate (tg : target) (w h : nat) (algo : algorithm) : outcome mandelbrot :=
  generate_region tg w h region_x0 region_x1 region_y0 region_y1 algo.

(** write_header (lib.rs:83-92). *)
Definition write_header (mb : mandelbrot) (color : bool) : io :=
  then_ (write_all (bytes (str "P")))
  (then_ (write_all (bytes (decimal (if color then 6 else 4))))
  (then_ (write_all (bytes LF))
  (then_ (write_all (bytes (decimal (mb_width mb))))
  (then_ (write_all (bytes (str " ")))
  (then_ (write_all (bytes (decimal (mb_height mb))))
  (then_ (if color then write_all (bytes (str " 255")) else write_all [])
         (write_all (bytes LF)))))))).

(** The closure of output_pbm (lib.rs:106-113). *)
Definition pbm_byte (ch : list Z) : Z :=
  fold_left (fun result ic =>
    let undiverged := snd ic =? Z.of_nat ITER_LIMIT in
    Z.lor result (wrap 1 (Z.shiftl (if undiverged then 1 else 0) (7 - Z.of_nat (fst ic)))))
    (combine (seq 0 (length ch)) ch) 0.
(** output_pbm (lib.rs:95-117); [par_chunks(8)] and [collect] keep the order. *)
Definition output_pbm (mb : mandelbrot) : io :=
  then_ (write_header mb false)
  (let_ (assert (Nat.eqb (length (mb_data mb) mod 8) 0)) (fun _ =>
   write_all (map pbm_byte (chunks (length (mb_data mb)) 8 (mb_data mb))))).

(** COLORS, SCALE (lib.rs:127-134); the components are f32. *)
Definition COLORS : list (Z * Z * Z) :=
  map (fun c => match c with (r, g, b) => (fl_of_int 4 r, fl_of_int 4 g, fl_of_int 4 b) end)
    [(0, 7, 100); (32, 107, 203); (237, 255, 255); (255, 170, 0); (0, 2, 0)].
Definition SCALE : Z := 12.
(** [COLORS[i]]. *)
Definition color_at (i : Z) : outcome (Z * Z * Z) :=
  match nth_error COLORS (Z.to_nat i) with Some c => Ok c | None => Panic end.
(** [(c1 + (c2 - c1) * alpha) as u8] (149-151). *)
Definition blend (c1 c2 alpha : Z) : outcome Z :=
  match lane_cast KFloat 4 KUint 1 (fl_add 4 c1 (fl_mul 4 (fl_sub 4 c2 c1) alpha)) with Some p => Ok p | None => UB end.
(** The closure of output_ppm (lib.rs:126-156).  No operation on u32 leaves its range. *)
Definition ppm_color (val : Z) : outcome (list Z) :=
  let color_count := Z.of_nat (length COLORS) in
  if val =? Z.of_nat ITER_LIMIT then Ok [0; 0; 0]
  else
    let val := val mod SCALE * color_count / SCALE in
    let left := val mod color_count in
    let right := (left + 1) mod color_count in
    let alpha := fl_of_int 4 (val - left) in
    c1 <- color_at left ;;
    c2 <- color_at right ;;
    match c1, c2 with (r1, g1, b1), (r2, g2, b2) =>
      r <- blend r1 r2 alpha ;;
      g <- blend g1 g2 alpha ;;
      b <- blend b1 b2 alpha ;;
      Ok [r; g; b]
    end.
(** output_ppm (lib.rs:120-160). *)
Fixpoint ppm_colors (data : list Z) : outcome (list Z) :=
  match data with
  | [] => Ok []
  | val :: data => c <- ppm_color val ;; r <- ppm_colors data ;; Ok (c ++ r)%list
  end.
Definition output_ppm (mb : mandelbrot) : io :=
  then_ (write_header mb true) (let_ (ppm_colors (mb_data mb)) write_all).

(** main (main.rs:32-53), after the parsing of its arguments: generate, write, [unwrap].  [algo] is [None] for an
    unknown name. *)
Definition mandelbrot_main (tg : target) (w h : nat) (color : bool) (algo : option algorithm) : io := fun s =>
  match algo with
  | None => (Panicked, s)
  | Some algo =>
      let (r, s') := let_ (generate tg w h algo) (fun mb => if color then output_ppm mb else output_pbm mb) s in
      (match r with Failed => Panicked | r => r end, s')
  end.

(** ** The memory of an image *)

(** A [Vec]: how many elements there is room for, how many it says to have, how the memory was asked for (size and
    alignment), and size and alignment of its elements. *)
Record raw_vec := { v_capacity : Z; v_length : Z; v_asked : Z * Z; v_element : Z * Z }.
(** [Vec::with_capacity], [set_len], [mem::transmute] to a vector of other elements. *)
Definition with_capacity (n : Z) (element : Z * Z) : raw_vec :=
  {| v_capacity := n; v_length := 0; v_asked := (n * fst element, snd element); v_element := element |}.
Definition set_len (v : raw_vec) (n : Z) : raw_vec :=
  {| v_capacity := v_capacity v; v_length := n; v_asked := v_asked v; v_element := v_element v |}.
Definition transmute (v : raw_vec) (element : Z * Z) : raw_vec :=
  {| v_capacity := v_capacity v; v_length := v_length v; v_asked := v_asked v; v_element := element |}.
(** What [drop] gives back: the capacity in elements, as the type says. *)
Definition given_back (v : raw_vec) : Z * Z := (v_capacity v * fst (v_element v), snd (v_element v)).

(** The vector returned by scalar_par::generate (scalar_par.rs:96-100) and simd_par::generate (simd_par.rs:133-137,
    151-155); [al]: the alignment of u32x8, which the ABI decides. *)
Definition u32_layout : Z * Z := (4, 4).
Definition scalar_buffer (w h : nat) : raw_vec :=
  let len := Z.of_nat (w * h) in set_len (with_capacity len u32_layout) len.
Definition simd_buffer (al : Z) (w h : nat) : raw_vec :=
  let len := Z.of_nat (w / lanes f64s * h) in
  let out := set_len (with_capacity len (Z.of_nat (vb u32s * vn u32s), al)) len in
  set_len (transmute out u32_layout) (Z.of_nat (w * h)).
