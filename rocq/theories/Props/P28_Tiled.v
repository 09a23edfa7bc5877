(** C71: the images of the example aobench, with a packet of rays at a time. *)
From Coq Require Import ZArith List Bool Lia Reals Lra.
From Verif.Model Require Import Base FloatLane Tables MathTables Math ExStencil ExRandom ExGeometry ExIntersect ExOcclusion ExImage.
From Verif.Spec Require Import Spec Floats MathSpec Stencil Rays Occlusion.
From Verif.Proofs Require Import Lib MathLlvmP ExPacketP ExIntersectP ExIntersectMainP ExIntersectTopP ExSceneTopP ExImageP ExImageTopP ExTiledMainP.
From Verif.Props Require Import Tac Targets P26_Occlusion.
From Verif.Spec Require Import Picture.
Import ListNotations.
Open Scope Z_scope.

(** C71: [tiled::ao] sends packets of N rays through N pixels of a row.  A pixel gets the ambient occlusion of what its
    rays meet, scaled; the other pixels, and those whose rays meet nothing, do not change. *)
Theorem C71_tiled : forall wide X S tg junk mad cosine sine,
  works_lanewise X S -> follows_llvm S -> ~ uses_sleef tg -> mul_adde_is tg S mad -> is_vector (f32xN wide) junk -> trig_is S cosine sine ->
  forall St (sc : scene St) ok, is_scene sc -> endless_packets wide sc ok ->
  forall ns w h, Z.of_nat (nao sc * nao sc) <= 2 ^ 24 -> Z.of_nat w <= 2 ^ 24 -> Z.of_nat h <= 2 ^ 24 -> Z.of_nat ns <= 2 ^ 24 ->
  (w mod vn (f32xN wide) = 0)%nat ->
  forall image, length image = (3 * (h * w))%nat -> Forall is_f32 image ->
  forall st, ok st ->
  exists csls new st', tiled_ao wide false X tg junk sc ns w h image st = Ok (new, st') /\
    in_turn (packets_seen wide mad cosine sine sc w h ns) (grid h (w / vn (f32xN wide))) st csls st' /\
    painted (scaled_hits ns) image (concat (map (pixels_of wide) csls)) new /\ ok st'.
Proof. exact @tiled_ao_ok. Qed.
Print Assumptions C71_tiled.

(** C71: in [tiled_parallel::ao] all rows write to one image.  Whatever the order in which their rays get their turns,
    every row becomes what it becomes alone, with a scene of its own. *)
Theorem C71_parallel : forall wide X S tg junk mad cosine sine,
  works_lanewise X S -> follows_llvm S -> ~ uses_sleef tg -> mul_adde_is tg S mad -> is_vector (f32xN wide) junk -> trig_is S cosine sine ->
  forall St (sc : scene St) ok, is_scene sc -> endless_packets wide sc ok ->
  forall ns w h, Z.of_nat (nao sc * nao sc) <= 2 ^ 24 -> Z.of_nat w <= 2 ^ 24 -> Z.of_nat h <= 2 ^ 24 -> Z.of_nat ns <= 2 ^ 24 ->
  (w mod vn (f32xN wide) = 0)%nat ->
  forall image, length image = (3 * (h * w))%nat -> Forall is_f32 image ->
  forall start, (forall y, ok (start y)) -> (0 < w)%nat ->
  forall schedule, complete h (w / vn (f32xN wide) * (ns * ns)) schedule ->
  exists csss new, tiled_par_ao wide false X tg junk sc ns w h schedule start image = Ok new /\ length csss = h /\
    painted (scaled_hits ns) image (concat (map (pixels_of wide) (concat csss))) new /\
    forall y csls, nth_error csss y = Some csls -> exists st',
      in_turn (packets_seen wide mad cosine sine sc w h ns) (map (pair y) (seq 0 (w / vn (f32xN wide)))) (start y) csls st'.
Proof. exact @tiled_par_ao_ok. Qed.
Print Assumptions C71_parallel.

(** C71: two schedules give the same image. *)
Theorem C71_schedules : forall wide X S tg junk mad cosine sine,
  works_lanewise X S -> follows_llvm S -> ~ uses_sleef tg -> mul_adde_is tg S mad -> is_vector (f32xN wide) junk -> trig_is S cosine sine ->
  forall St (sc : scene St) ok, is_scene sc -> endless_packets wide sc ok ->
  forall ns w h, Z.of_nat (nao sc * nao sc) <= 2 ^ 24 -> Z.of_nat w <= 2 ^ 24 -> Z.of_nat h <= 2 ^ 24 -> Z.of_nat ns <= 2 ^ 24 ->
  (w mod vn (f32xN wide) = 0)%nat ->
  forall image, length image = (3 * (h * w))%nat -> Forall is_f32 image ->
  forall start, (forall y, ok (start y)) -> (0 < w)%nat ->
  forall l1 l2, complete h (w / vn (f32xN wide) * (ns * ns)) l1 -> complete h (w / vn (f32xN wide) * (ns * ns)) l2 ->
  tiled_par_ao wide false X tg junk sc ns w h l1 start image = tiled_par_ao wide false X tg junk sc ns w h l2 start image.
Proof. exact @tiled_schedules. Qed.
Print Assumptions C71_schedules.

(** C71: the program, with a black image and four rays for each pixel: every component is exactly the mean of what the
    four rays see. *)
Theorem C71_program : forall wide X S tg junk mad cosine sine,
  works_lanewise X S -> follows_llvm S -> ~ uses_sleef tg -> mul_adde_is tg S mad -> is_vector (f32xN wide) junk -> trig_is S cosine sine ->
  forall St (sc : scene St) ok, is_scene sc -> endless_packets wide sc ok ->
  forall w h, nao sc = 8%nat -> Z.of_nat w <= 2 ^ 24 -> Z.of_nat h <= 2 ^ 24 -> (w mod vn (f32xN wide) = 0)%nat ->
  forall st, ok st ->
  exists csls new st', tiled_ao wide false X tg junk sc 2 w h (fdata (image_new w h)) st = Ok (new, st') /\
    in_turn (packets_seen wide mad cosine sine sc w h 2) (grid h (w / vn (f32xN wide))) st csls st' /\ ok st' /\
    averages (h * w) (map (map or_black) (concat (map (pixels_of wide) csls))) new.
Proof. exact @main_tiled. Qed.
Print Assumptions C71_program.

Theorem C71_program_parallel : forall wide X S tg junk mad cosine sine,
  works_lanewise X S -> follows_llvm S -> ~ uses_sleef tg -> mul_adde_is tg S mad -> is_vector (f32xN wide) junk -> trig_is S cosine sine ->
  forall St (sc : scene St) ok, is_scene sc -> endless_packets wide sc ok ->
  forall w h, nao sc = 8%nat -> Z.of_nat w <= 2 ^ 24 -> Z.of_nat h <= 2 ^ 24 -> (w mod vn (f32xN wide) = 0)%nat ->
  forall start, (forall y, ok (start y)) -> (0 < w)%nat ->
  forall schedule, complete h (w / vn (f32xN wide) * 4) schedule ->
  exists csss new, tiled_par_ao wide false X tg junk sc 2 w h schedule start (fdata (image_new w h)) = Ok new /\ length csss = h /\
    (forall y csls, nth_error csss y = Some csls -> exists st',
       in_turn (packets_seen wide mad cosine sine sc w h 2) (map (pair y) (seq 0 (w / vn (f32xN wide)))) (start y) csls st') /\
    averages (h * w) (map (map or_black) (concat (map (pixels_of wide) (concat csss)))) new.
Proof. exact @main_tiled_par. Qed.
Print Assumptions C71_program_parallel.

(** C71: both panic if the width is not a multiple of N, and the parallel version if the image has no columns. *)
Theorem C71_width : forall St wide debug X tg junk (sc : scene St) ns w h image st schedule start, (w mod vn (f32xN wide) <> 0)%nat ->
  tiled_ao wide debug X tg junk sc ns w h image st = Panic /\ tiled_par_ao wide debug X tg junk sc ns w h schedule start image = Panic.
Proof. exact @tiled_panics. Qed.
Print Assumptions C71_width.

Theorem C71_no_columns : forall St wide debug X tg junk (sc : scene St) ns h image schedule start,
  tiled_par_ao wide debug X tg junk sc ns 0 h schedule start image = Panic.
Proof. exact @tiled_par_panics. Qed.
Print Assumptions C71_no_columns.

(** C70, C71: a debug build that does not panic paints what the release build paints. *)
Theorem C70_debug : forall wide X tg junk St (sc : scene St) ns img,
  (forall st r, vector_ao sc ns img wide true X tg junk st = Ok r -> vector_ao sc ns img wide false X tg junk st = Ok r) /\
  (forall start r, vector_par_ao sc ns img wide true X tg junk start = Ok r -> vector_par_ao sc ns img wide false X tg junk start = Ok r).
Proof. intros wide X tg junk St sc ns img. exact (conj (vector_ao_release wide X tg junk sc ns img) (vector_par_ao_release wide X tg junk sc ns img)). Qed.
Print Assumptions C70_debug.

Theorem C71_debug : forall wide X tg junk St (sc : scene St) ns w h,
  (forall image st r, tiled_ao wide true X tg junk sc ns w h image st = Ok r -> tiled_ao wide false X tg junk sc ns w h image st = Ok r) /\
  (forall schedule start image r, tiled_par_ao wide true X tg junk sc ns w h schedule start image = Ok r ->
     tiled_par_ao wide false X tg junk sc ns w h schedule start image = Ok r).
Proof. intros wide X tg junk St sc ns w h. exact (conj (tiled_ao_release wide X tg junk sc ns w h) (tiled_par_ao_release wide X tg junk sc ns w h)). Qed.
Print Assumptions C71_debug.

(** An image of four columns and three rows: sky, horizon and ground, row by row and in another order. *)
Example C71_example :
  works_lanewise ref_externals ref_lanes /\ follows_llvm ref_lanes /\ ~ uses_sleef s390x /\
  mul_adde_is s390x ref_lanes rounded_twice /\ trig_is ref_lanes (fun a c => c = a) (fun a s => s = a) /\
  complete 3 1 [2; 0; 1]%nat /\
  let sc := test_scene false (fst (test_rands some_rng)) in
  let black := fdata (image_new 4 3) in
  let new := repeat f32_0 24 ++ repeat 0x3ec00000 6 ++ repeat 0x3f400000 3 ++ repeat f32_1 3 in
  tiled_ao false false ref_externals s390x (repeat 0 4) sc 1 4 3 black 0%nat = Ok (new, 0%nat) /\
  tiled_par_ao false true ref_externals s390x (repeat 0 4) sc 1 4 3 [2; 0; 1]%nat (fun _ => 0%nat) black = Ok new.
Proof.
  split; [exact ref_works|]. split; [exact ref_follows|]. split; [intros (_ & H & _); discriminate H|].
  split; [split; [intros H; now contradiction H|reflexivity]|]. split; [exact ref_trig|].
  split; [split; [apply Forall_forall; intros y [<-|[<-|[<-|[]]]]; lia|intros [|[|[|y]]] Y; [vm_compute; repeat constructor..|lia]]|].
  split; vm_compute; reflexivity.
Qed.
