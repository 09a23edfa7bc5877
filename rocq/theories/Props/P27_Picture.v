(** C70, C72: the images of the example aobench, with one ray at a time, and their bytes. *)
From Coq Require Import ZArith List Bool Lia Reals Lra.
From Verif.Model Require Import Base FloatLane Tables MathTables Math ExStencil ExRandom ExGeometry ExIntersect ExOcclusion ExImage.
From Verif.Spec Require Import Spec Floats MathSpec Stencil Rays Occlusion.
From Verif.Proofs Require Import Lib MathLlvmP ExPacketP ExIntersectP ExIntersectMainP ExIntersectTopP ExSceneTopP ExImageP ExImageTopP.
From Verif.Props Require Import Tac Targets P26_Occlusion.
From Verif.Spec Require Import Picture.
Import ListNotations.
Open Scope Z_scope.

(** C70: [scalar::ao] sends ns * ns rays through every pixel, row by row, and adds the mean of what they see to the three
    components of the pixel; nothing else changes. *)
Theorem C70_scalar : forall cosf sinf cosine sine, computes cosf cosine -> computes sinf sine ->
  forall St (sc : scene St) ok ns img, is_scene sc -> endless sc ok ->
  Z.of_nat (nao sc * nao sc) <= 2 ^ 24 -> Z.of_nat (img_w img) <= 2 ^ 24 -> Z.of_nat (img_h img) <= 2 ^ 24 -> Z.of_nat (ns * ns) <= 2 ^ 24 ->
  length (fdata img) = (3 * (img_h img * img_w img))%nat -> Forall is_f32 (fdata img) ->
  forall st, ok st ->
  exists css new st', scalar_ao sc ns img cosf sinf st = Ok (new, st') /\
    in_turn (pixel_seen (occlusion_scalar cosine sine sc) (view part_of (img_w img) (img_h img) ns) (objects sc) ns)
      (grid (img_h img) (img_w img)) st css st' /\
    painted (divided ns) (fdata img) css new /\ ok st'.
Proof. exact @scalar_ao_ok. Qed.
Print Assumptions C70_scalar.

(** C70: [vector::ao] does the same with packets of samples: it looks at u times 1 / ns and scales every value. *)
Theorem C70_vector : forall wide X S tg junk mad cosine sine,
  works_lanewise X S -> follows_llvm S -> ~ uses_sleef tg -> mul_adde_is tg S mad -> is_vector (f32xN wide) junk -> trig_is S cosine sine ->
  forall St (sc : scene St) ok ns img, is_scene sc -> endless_packets wide sc ok ->
  Z.of_nat (nao sc * ((nao sc + vn (f32xN wide) - 1) / vn (f32xN wide)) * vn (f32xN wide)) <= 2 ^ 24 ->
  Z.of_nat (img_w img) <= 2 ^ 24 -> Z.of_nat (img_h img) <= 2 ^ 24 -> Z.of_nat ns <= 2 ^ 24 ->
  length (fdata img) = (3 * (img_h img * img_w img))%nat -> Forall is_f32 (fdata img) ->
  forall st, ok st ->
  exists css new st', vector_ao sc ns img wide false X tg junk st = Ok (new, st') /\
    in_turn (pixel_seen (occlusion_vector wide mad cosine sine sc) (view times_part (img_w img) (img_h img) ns) (objects sc) ns)
      (grid (img_h img) (img_w img)) st css st' /\
    painted (scaled ns) (fdata img) css new /\ ok st'.
Proof. exact @vector_ao_ok. Qed.
Print Assumptions C70_vector.

(** C70: the parallel versions do the same in every row, with a scene of their own for the row. *)
Theorem C70_scalar_parallel : forall cosf sinf cosine sine, computes cosf cosine -> computes sinf sine ->
  forall St (sc : scene St) ok ns img, is_scene sc -> endless sc ok ->
  Z.of_nat (nao sc * nao sc) <= 2 ^ 24 -> Z.of_nat (img_w img) <= 2 ^ 24 -> Z.of_nat (img_h img) <= 2 ^ 24 -> Z.of_nat (ns * ns) <= 2 ^ 24 ->
  length (fdata img) = (3 * (img_h img * img_w img))%nat -> Forall is_f32 (fdata img) ->
  forall start, (forall y, ok (start y)) -> (0 < img_w img)%nat ->
  exists csss new, scalar_par_ao sc ns img cosf sinf start = Ok new /\ length csss = img_h img /\
    painted (divided ns) (fdata img) (concat csss) new /\
    forall y css, nth_error csss y = Some css -> exists st',
      in_turn (pixel_seen (occlusion_scalar cosine sine sc) (view part_of (img_w img) (img_h img) ns) (objects sc) ns)
        (map (pair y) (seq 0 (img_w img))) (start y) css st'.
Proof. exact @scalar_par_ao_ok. Qed.
Print Assumptions C70_scalar_parallel.

Theorem C70_vector_parallel : forall wide X S tg junk mad cosine sine,
  works_lanewise X S -> follows_llvm S -> ~ uses_sleef tg -> mul_adde_is tg S mad -> is_vector (f32xN wide) junk -> trig_is S cosine sine ->
  forall St (sc : scene St) ok ns img, is_scene sc -> endless_packets wide sc ok ->
  Z.of_nat (nao sc * ((nao sc + vn (f32xN wide) - 1) / vn (f32xN wide)) * vn (f32xN wide)) <= 2 ^ 24 ->
  Z.of_nat (img_w img) <= 2 ^ 24 -> Z.of_nat (img_h img) <= 2 ^ 24 -> Z.of_nat ns <= 2 ^ 24 ->
  length (fdata img) = (3 * (img_h img * img_w img))%nat -> Forall is_f32 (fdata img) ->
  forall start, (forall y, ok (start y)) -> (0 < img_w img)%nat ->
  exists csss new, vector_par_ao sc ns img wide false X tg junk start = Ok new /\ length csss = img_h img /\
    painted (scaled ns) (fdata img) (concat csss) new /\
    forall y css, nth_error csss y = Some css -> exists st',
      in_turn (pixel_seen (occlusion_vector wide mad cosine sine sc) (view times_part (img_w img) (img_h img) ns) (objects sc) ns)
        (map (pair y) (seq 0 (img_w img))) (start y) css st'.
Proof. exact @vector_par_ao_ok. Qed.
Print Assumptions C70_vector_parallel.

(** C70: the parallel versions panic if the image has no columns. *)
Theorem C70_no_columns : forall St (sc : scene St) ns img cosf sinf wide debug X tg junk start, img_w img = 0%nat ->
  scalar_par_ao sc ns img cosf sinf start = Panic /\ vector_par_ao sc ns img wide debug X tg junk start = Panic.
Proof. intros St sc ns img cosf sinf wide debug X tg junk start E. unfold scalar_par_ao, vector_par_ao. rewrite E. split; apply par_panics. Qed.
Print Assumptions C70_no_columns.

(** C70: the program, with a black image and four rays for each pixel: every component is exactly the mean of what the
    four rays see.  Both scenes never run out of random numbers. *)
Theorem C70_program_scalar : forall St (sc : scene St) ok w h, is_scene sc -> nao sc = 8%nat ->
  Z.of_nat w <= 2 ^ 24 -> Z.of_nat h <= 2 ^ 24 ->
  forall cosf sinf cosine sine, computes cosf cosine -> computes sinf sine -> endless sc ok ->
  forall st, ok st ->
  exists css new st', scalar_ao sc 2 (image_new w h) cosf sinf st = Ok (new, st') /\
    in_turn (pixel_seen (occlusion_scalar cosine sine sc) (view part_of w h 2) (objects sc) 2) (grid h w) st css st' /\ ok st' /\
    averages (h * w) css new.
Proof. exact @main_scalar. Qed.
Print Assumptions C70_program_scalar.

Theorem C70_program_scalar_parallel : forall St (sc : scene St) ok w h, is_scene sc -> nao sc = 8%nat ->
  Z.of_nat w <= 2 ^ 24 -> Z.of_nat h <= 2 ^ 24 ->
  forall cosf sinf cosine sine, computes cosf cosine -> computes sinf sine -> endless sc ok ->
  forall start, (forall y, ok (start y)) -> (0 < w)%nat ->
  exists csss new, scalar_par_ao sc 2 (image_new w h) cosf sinf start = Ok new /\ length csss = h /\
    (forall y css, nth_error csss y = Some css -> exists st',
       in_turn (pixel_seen (occlusion_scalar cosine sine sc) (view part_of w h 2) (objects sc) 2) (map (pair y) (seq 0 w)) (start y) css st') /\
    averages (h * w) (concat csss) new.
Proof. exact @main_scalar_par. Qed.
Print Assumptions C70_program_scalar_parallel.

Theorem C70_program_vector : forall St (sc : scene St) ok w h, is_scene sc -> nao sc = 8%nat ->
  Z.of_nat w <= 2 ^ 24 -> Z.of_nat h <= 2 ^ 24 ->
  forall wide X S tg junk mad cosine sine,
  works_lanewise X S -> follows_llvm S -> ~ uses_sleef tg -> mul_adde_is tg S mad -> is_vector (f32xN wide) junk -> trig_is S cosine sine ->
  endless_packets wide sc ok ->
  forall st, ok st ->
  exists css new st', vector_ao sc 2 (image_new w h) wide false X tg junk st = Ok (new, st') /\
    in_turn (pixel_seen (occlusion_vector wide mad cosine sine sc) (view times_part w h 2) (objects sc) 2) (grid h w) st css st' /\ ok st' /\
    averages (h * w) css new.
Proof. exact @main_vector. Qed.
Print Assumptions C70_program_vector.

Theorem C70_program_vector_parallel : forall St (sc : scene St) ok w h, is_scene sc -> nao sc = 8%nat ->
  Z.of_nat w <= 2 ^ 24 -> Z.of_nat h <= 2 ^ 24 ->
  forall wide X S tg junk mad cosine sine,
  works_lanewise X S -> follows_llvm S -> ~ uses_sleef tg -> mul_adde_is tg S mad -> is_vector (f32xN wide) junk -> trig_is S cosine sine ->
  endless_packets wide sc ok ->
  forall start, (forall y, ok (start y)) -> (0 < w)%nat ->
  exists csss new, vector_par_ao sc 2 (image_new w h) wide false X tg junk start = Ok new /\ length csss = h /\
    (forall y css, nth_error csss y = Some css -> exists st',
       in_turn (pixel_seen (occlusion_vector wide mad cosine sine sc) (view times_part w h 2) (objects sc) 2) (map (pair y) (seq 0 w)) (start y) css st') /\
    averages (h * w) (concat csss) new.
Proof. exact @main_vector_par. Qed.
Print Assumptions C70_program_vector_parallel.

Theorem C70_random_scene : forall wide,
  is_scene (random_scene wide) /\ nao (random_scene wide) = 8%nat /\
  endless (random_scene wide) (fun st => is_state (fst st)) /\ endless_packets wide (random_scene wide) (fun st => is_vstate wide (snd st)).
Proof. intros wide. exact (conj (scene_random wide) (conj eq_refl (conj (endless_random wide) (endless_random_packets wide)))). Qed.
Print Assumptions C70_random_scene.

Theorem C70_test_scene : forall wide rands, length rands = 128%nat -> Forall is_f32 rands ->
  is_scene (test_scene wide rands) /\ nao (test_scene wide rands) = 8%nat /\
  endless (test_scene wide rands) (fun st => (st < 128)%nat) /\ endless_packets wide (test_scene wide rands) (fun st => (st < 128)%nat).
Proof. intros wide rands L F. exact (conj (scene_test wide rands) (conj eq_refl (conj (endless_test wide rands L F) (endless_test_packets wide rands L F)))). Qed.
Print Assumptions C70_test_scene.

(** C70: with four rays for each pixel [scalar] and [vector] look in the same directions. *)
Theorem C70_same_directions : forall w h x y u v d d', (u < 2)%nat -> (v < 2)%nat ->
  view part_of w h 2 x y u v d -> view times_part w h 2 x y u v d' -> d = d'.
Proof. exact same_view. Qed.
Print Assumptions C70_same_directions.

(** C72: the bytes of an image are 255.5 times the components, truncated and no less than 0 and no more than 255; if
    isize cannot hold one of the numbers the behaviour is undefined. *)
Theorem C72_bytes : forall img, length (data img) = length (fdata img) -> Forall is_f32 (fdata img) ->
  (exists bs, png_bytes false img = Ok bs /\ Forall2 (fun x b => shade (f32_datum x) b) (fdata img) bs) \/
  (png_bytes false img = UB /\ exists x, In x (fdata img) /\ forall b, ~ shade (f32_datum x) b).
Proof. exact png_aos_ok. Qed.
Print Assumptions C72_bytes.

(** C72: an image with all red components first, then all green ones, then all blue ones: component c of pixel i. *)
Theorem C72_planes : forall img, let n := (img_w img * img_h img)%nat in
  length (data img) = (3 * n)%nat -> length (fdata img) = (3 * n)%nat -> Forall is_f32 (fdata img) ->
  (exists bs, png_bytes true img = Ok bs /\ length bs = (3 * n)%nat /\
     forall i c y, (c < 3)%nat -> nth_error bs (3 * i + c) = Some y ->
       exists x, nth_error (fdata img) (c * n + i) = Some x /\ shade (f32_datum x) y) \/
  (png_bytes true img = UB /\ exists x, In x (fdata img) /\ forall b, ~ shade (f32_datum x) b).
Proof. exact png_soa_ok. Qed.
Print Assumptions C72_planes.

(** C72: a number has no more than one byte. *)
Theorem C72_unique : forall x b b', shade x b -> shade x b' -> b = b'.
Proof. exact shade_unique. Qed.
Print Assumptions C72_unique.

(** C72: the images of the program are always written: m / 256 becomes the byte 511 m / 512, rounded down. *)
Theorem C72_program : forall w h css new, averages (h * w) css new ->
  exists bs, png_bytes false (Image w h (data (image_new w h)) new) = Ok bs /\
    Forall2 (fun q y => exists m, (m <= 256)%nat /\ f32_datum q = Fin false (INR m / 256) /\ y = 511 * Z.of_nat m / 512) new bs.
Proof. exact png_picture. Qed.
Print Assumptions C72_program.

(** An image of two pixels, the sky and the ground: one state of the generators that meets the hypotheses, and the
    image with the functions of [Targets]. *)
Example C70_example :
  computes (fun _ => f32_1) (fun _ c => c = one) /\ computes (fun _ => f32_0) (fun _ s => s = zero) /\
  trig_is ref_lanes (fun a c => c = a) (fun a s => s = a) /\
  length (fdata (image_new 1 2)) = 6%nat /\ is_state some_rng /\ is_vstate false (repeat 1 4, repeat 2 4, repeat 3 4, repeat 4 4) /\
  (exists c, fl_lt 4 f32_0 c = true /\ fl_lt 4 c f32_1 = true /\
     scalar_ao (test_scene false (fst (test_rands some_rng))) 1 (image_new 1 2) (fun _ => f32_1) (fun _ => f32_0) 0%nat =
       Ok ([f32_0; f32_0; f32_0; c; c; c], 0%nat)).
Proof.
  split; [intros p _; split; [vm_compute; intuition congruence|exact d_1]|].
  split; [intros p _; split; [vm_compute; intuition congruence|exact d_0]|].
  split; [exact ref_trig|]. split; [reflexivity|]. split; [vm_compute; intuition congruence|].
  split; [repeat split; repeat constructor; vm_compute; congruence|].
  eexists. split; [|split]; [| |vm_compute; reflexivity]; vm_compute; reflexivity.
Qed.

(** 1/2, -1, 2; then 1e30. *)
Example C72_example :
  Forall is_f32 [f32_half; f32_m1; f32_2; f32_half; f32_m1; 0x7149f2ca] /\
  png_bytes false (Image 1 1 [0; 0; 0] [f32_half; f32_m1; f32_2]) = Ok [127; 0; 255] /\
  png_bytes true (Image 2 1 [0; 0; 0; 0; 0; 0] [f32_half; f32_m1; f32_2; f32_half; f32_m1; f32_1]) = Ok [127; 255; 0; 0; 127; 255] /\
  png_bytes false (Image 1 1 [0; 0; 0] [f32_half; f32_m1; 0x7149f2ca]) = UB.
Proof. split; [repeat constructor; vm_compute; congruence|]. vm_compute. auto. Qed.
