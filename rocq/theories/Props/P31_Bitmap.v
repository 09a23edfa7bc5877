(** C77, C78: the files of the Mandelbrot example and the memory of its images. *)
From Coq Require Import ZArith Ascii String List Bool Lia.
From Verif.Model Require Import Base Tables ExMandelbrot ExMandelbrotOut.
From Verif.Spec Require Import Spec Floats Text Numerals Orbits Netpbm.
From Verif.Proofs Require Import ExMandelbrotOutP.
From Verif.Props Require Import Tac Targets.
Import ListNotations.
Open Scope Z_scope.
Open Scope list_scope.

(** C77: with a width that is a multiple of eight the black and white output is a PBM file in which exactly the points
    with count 50 are black; if the receiver fails, the error is returned and it has got the beginning of the file. *)
Theorem C77_pbm : forall mb, let w := mb_width mb in let h := mb_height mb in
  length (mb_data mb) = (h * w)%nat -> (w mod 8 = 0)%nat -> Z.of_nat w < 2 ^ 64 -> Z.of_nat h < 2 ^ 64 ->
  exists file, is_pbm w h (fun i j => nth_error (mb_data mb) (i * w + j) = Some 50) file /\ delivers (output_pbm mb) file.
Proof. exact pbm_ok. Qed.
Print Assumptions C77_pbm.

(** C77: the colour output is a PPM file for any width: black for count 50, otherwise one of five colours by the
    remainder of the count by twelve, never a mixture of two. *)
Theorem C77_ppm : forall mb, let w := mb_width mb in let h := mb_height mb in
  length (mb_data mb) = (h * w)%nat -> Z.of_nat w < 2 ^ 64 -> Z.of_nat h < 2 ^ 64 ->
  exists file, is_ppm w h (fun i j c => exists n, nth_error (mb_data mb) (i * w + j) = Some n /\ escape_colour n c) file /\
    delivers (output_ppm mb) file.
Proof. exact ppm_ok. Qed.
Print Assumptions C77_ppm.

(** C77: if the number of points is no multiple of eight, the black and white output panics, but only when the header
    has been written. *)
Theorem C77_pbm_panics : forall mb, let w := mb_width mb in let h := mb_height mb in
  (length (mb_data mb) mod 8 <> 0)%nat -> Z.of_nat w < 2 ^ 64 -> Z.of_nat h < 2 ^ 64 ->
  exists head, header "P4" w h "" head /\
    forall s, (length head <= room s)%nat -> exists s', output_pbm mb s = (Panicked, s') /\ got s' = got s ++ head.
Proof. exact pbm_panics. Qed.
Print Assumptions C77_pbm_panics.

(** C77: if it is one but the width is not, no row is filled up: the output is accepted by the check but is not a PBM
    file of that size, whatever the pixels. *)
Theorem C77_any_width_refuted : forall mb, let w := mb_width mb in let h := mb_height mb in
  length (mb_data mb) = (h * w)%nat -> (h * w mod 8 = 0)%nat -> (w mod 8 <> 0)%nat -> (0 < h)%nat ->
  Z.of_nat w < 2 ^ 64 -> Z.of_nat h < 2 ^ 64 ->
  exists file, delivers (output_pbm mb) file /\ forall black, ~ is_pbm w h black file.
Proof. exact pbm_unpadded. Qed.
Print Assumptions C77_any_width_refuted.

(** C77: the program, with either algorithm: a point is black if and only if it does not escape within 50 iterations. *)
Theorem C77_program_pbm : forall tg w h algo, algo = Scalar \/ algo = Simd ->
  (w mod 8 = 0)%nat -> (0 < w)%nat -> Z.of_nat w < 2 ^ 53 -> Z.of_nat h < 2 ^ 53 ->
  exists file,
    is_pbm w h (fun i j => exists cx cy, grid_point region_left region_right w j cx /\
                             grid_point region_top region_bottom h i cy /\ escape_time 50 cx cy 50) file /\
    forall s, exists r s', mandelbrot_main tg w h false (Some algo) s = (r, s') /\
      ((length file <= room s)%nat -> r = Written /\ got s' = got s ++ file) /\
      ((room s < length file)%nat -> r = Panicked /\ got s' = got s ++ firstn (room s) file).
Proof. exact program_pbm. Qed.
Print Assumptions C77_program_pbm.

(** C77: and in colour. *)
Theorem C77_program_ppm : forall tg w h algo, algo = Scalar \/ (algo = Simd /\ (w mod 8 = 0)%nat) ->
  (0 < w)%nat -> Z.of_nat w < 2 ^ 53 -> Z.of_nat h < 2 ^ 53 ->
  exists file,
    is_ppm w h (fun i j c => exists cx cy n, grid_point region_left region_right w j cx /\
                               grid_point region_top region_bottom h i cy /\ escape_time 50 cx cy n /\
                               escape_colour (Z.of_nat n) c) file /\
    forall s, exists r s', mandelbrot_main tg w h true (Some algo) s = (r, s') /\
      ((length file <= room s)%nat -> r = Written /\ got s' = got s ++ file) /\
      ((room s < length file)%nat -> r = Panicked /\ got s' = got s ++ firstn (room s) file).
Proof. exact program_ppm. Qed.
Print Assumptions C77_program_ppm.

(** C77: in all other cases that the image is not generated nothing is written. *)
Theorem C77_program_stops : forall tg w h color algo s,
  algo = None \/ algo = Some Ispc \/ w = 0%nat \/ (algo = Some Simd /\ (w mod 8 <> 0)%nat) ->
  mandelbrot_main tg w h color algo s = (Panicked, s).
Proof. exact program_stops. Qed.
Print Assumptions C77_program_stops.

(** C78: the scalar version gives its memory back as it asked for it. *)
Theorem C78_scalar : forall w h, let v := scalar_buffer w h in
  given_back v = v_asked v /\ v_length v = Z.of_nat (h * w) /\ v_length v <= v_capacity v.
Proof. exact scalar_memory. Qed.
Print Assumptions C78_scalar.

(** C78: the vector version never does, unless the image is empty: the size is another one, and the vector says to hold
    more elements than it has room for.  Both are undefined behaviour by the rules of the allocator and of [Vec]. *)
Theorem C78_vector_refuted : forall al w h, (w mod 8 = 0)%nat -> let v := simd_buffer al w h in
  v_length v = Z.of_nat (h * w) /\
  ((0 < w)%nat -> (0 < h)%nat -> fst (given_back v) <> fst (v_asked v) /\ v_capacity v < v_length v).
Proof. exact simd_memory. Qed.
Print Assumptions C78_vector_refuted.

(** A bitmap of eight by two pixels, a receiver that fails, one of four by two, and colours. *)
Definition small : mandelbrot := {| mb_width := 8; mb_height := 2; mb_data := [1; 2; 2; 2; 3; 5; 50; 3; 50; 50; 50; 50; 50; 50; 50; 49] |}.
Definition narrow : mandelbrot := {| mb_width := 4; mb_height := 2; mb_data := [1; 2; 2; 50; 3; 5; 50; 3] |}.
Example C77_example :
  length (mb_data small) = (2 * 8)%nat /\
  output_pbm small {| got := []; room := 100 |} = (Written, {| got := [80; 52; 10; 56; 32; 50; 10; 2; 254]; room := 91 |}) /\
  output_pbm small {| got := []; room := 5 |} = (Failed, {| got := [80; 52; 10; 56; 32]; room := 0 |}) /\
  length (mb_data narrow) = (2 * 4)%nat /\ (2 * 4 mod 8 = 0)%nat /\ (4 mod 8 <> 0)%nat /\
  output_pbm narrow {| got := []; room := 100 |} = (Written, {| got := [80; 52; 10; 52; 32; 50; 10; 18]; room := 92 |}) /\
  output_pbm {| mb_width := 3; mb_height := 1; mb_data := [1; 2; 50] |} {| got := []; room := 100 |} =
    (Panicked, {| got := [80; 52; 10; 51; 32; 49; 10]; room := 93 |}) /\
  output_ppm {| mb_width := 3; mb_height := 1; mb_data := [1; 5; 50] |} {| got := []; room := 100 |} =
    (Written, {| got := [80; 54; 10; 51; 32; 49; 32; 50; 53; 53; 10; 0; 7; 100; 237; 255; 255; 0; 0; 0]; room := 80 |}) /\
  escape_colour 5 (237, 255, 255) /\
  mandelbrot_main x86_64_base 8 2 false (Some Simd) {| got := []; room := 100 |} =
    (Written, {| got := [80; 52; 10; 56; 32; 50; 10; 2; 255]; room := 91 |}).
Proof.
  do 3 (split; [vm_compute; reflexivity|]). do 2 (split; [reflexivity|]). split; [cbn; lia|].
  do 3 (split; [vm_compute; reflexivity|]). split; [|vm_compute; reflexivity].
  right. split; [lia|]. exists 2%nat. split; [vm_compute; split; congruence|reflexivity].
Qed.
Example C78_example :
  given_back (simd_buffer 32 8 2) = (8, 4) /\ v_asked (simd_buffer 32 8 2) = (64, 32) /\
  v_length (simd_buffer 32 8 2) = 16 /\ v_capacity (simd_buffer 32 8 2) = 2 /\
  given_back (scalar_buffer 8 2) = (64, 4) /\ v_asked (scalar_buffer 8 2) = (64, 4).
Proof. vm_compute. auto 10. Qed.
