(** C63: the stencil example. *)
From Coq Require Import ZArith List Bool Lia Reals Permutation.
From Verif.Model Require Import Base FloatLane Tables MathTables Math ExStencil.
From Verif.Spec Require Import Spec Floats MathSpec Stencil.
From Verif.Proofs Require Import Lib MathLlvmP ExStencilP ExStencilSimdP ExStencilMainP ExStencilDataP.
From Verif.Props Require Import Tac Targets.
Import ListNotations.
Open Scope Z_scope.

(** C63: the scalar version computes the wave, with every product and every sum rounded. *)
Theorem C63_scalar : forall r coef vsq a t0 t1, ready r coef vsq a ->
  exists a', scalar r t0 t1 coef vsq a = Ok a' /\ wave rounded_twice r coef vsq t0 t1 a a'.
Proof. exact scalar_wave. Qed.
Print Assumptions C63_scalar.

(** C63: the vector version has no undefined behaviour on such data and computes the wave as
    LLVM's fmuladd does products with sums. *)
Theorem C63_simd : forall X S tg mad r coef vsq a t0 t1,
  works_lanewise X S -> fmuladd_is S mad -> t_arch tg <> S390x ->
  ready r coef vsq a -> z0 r <= z1 r -> (8 | x1 r - x0 r) ->
  exists a', x8 X tg r t0 t1 coef vsq a = Ok a' /\ wave mad r coef vsq t0 t1 a a'.
Proof. exact x8_lanes. Qed.
Print Assumptions C63_simd.

(** C63: by the LLVM manual that is one or two roundings. *)
Theorem C63_fmuladd : forall S, follows_llvm S -> fmuladd_is S either.
Proof. exact follows_either. Qed.
Print Assumptions C63_fmuladd.

(** C63: on s390x there are two roundings. *)
Theorem C63_s390x : forall X tg r coef vsq a t0 t1, t_arch tg = S390x ->
  ready r coef vsq a -> z0 r <= z1 r -> (8 | x1 r - x0 r) ->
  exists a', x8 X tg r t0 t1 coef vsq a = Ok a' /\ wave rounded_twice r coef vsq t0 t1 a a'.
Proof. exact x8_s390x. Qed.
Print Assumptions C63_s390x.

(** C63: the wave is determined by the data, for two roundings and for one. *)
Theorem C63_unique : forall mad r coef vsq t0 t1 a a' a'', mad = rounded_twice \/ mad = rounded_once -> box_fits r ->
  wave mad r coef vsq t0 t1 a a' -> wave mad r coef vsq t0 t1 a a'' ->
  same_numbers (fst a') (fst a'') /\ same_numbers (snd a') (snd a'').
Proof. intros mad r coef vsq t0 t1 a a' a'' [-> | ->]; apply wave_unique; [exact twice_fun|exact once_fun]. Qed.
Print Assumptions C63_unique.

(** C63: where fmuladd rounds twice, the vector version gives the numbers of the scalar version. *)
Theorem C63_agree : forall X S tg r coef vsq a t0 t1,
  t_arch tg = S390x \/ (works_lanewise X S /\ fmuladd_is S rounded_twice) ->
  ready r coef vsq a -> z0 r <= z1 r -> (8 | x1 r - x0 r) ->
  exists a' a'', scalar r t0 t1 coef vsq a = Ok a' /\ x8 X tg r t0 t1 coef vsq a = Ok a'' /\
    same_numbers (fst a') (fst a'') /\ same_numbers (snd a') (snd a'').
Proof. exact same_as_scalar. Qed.
Print Assumptions C63_agree.

(** C63: where it is fused, it need not. *)
Theorem C63_agree_refuted :
  ~ (forall X S tg r coef vsq a t0 t1, works_lanewise X S -> follows_llvm S -> ready r coef vsq a ->
       z0 r <= z1 r -> (8 | x1 r - x0 r) ->
       exists a' a'', scalar r t0 t1 coef vsq a = Ok a' /\ x8 X tg r t0 t1 coef vsq a = Ok a'' /\
         same_numbers (fst a') (fst a'') /\ same_numbers (snd a') (snd a'')).
Proof. exact fused_refuted. Qed.
Print Assumptions C63_agree_refuted.

(** C63: the parallel version succeeds exactly when the vector version does, with the same
    result bit by bit, in whatever order the planes are handled in each time step. *)
Theorem C63_parallel : forall X tg r t0 t1 coef vsq a a' order,
  (forall t l, Permutation (order t l) l) -> z1 r - z0 r <= n_z r ->
  x8_par order X tg r t0 t1 coef vsq a = Ok a' <-> x8 X tg r t0 t1 coef vsq a = Ok a'.
Proof. exact par_same. Qed.
Print Assumptions C63_parallel.

(** C63: a box whose width is no multiple of eight makes the vector version panic. *)
Theorem C63_width : forall X tg r coef vsq a t0 t1, ready r coef vsq a -> z0 r < z1 r -> t0 < t1 -> ~ (8 | x1 r - x0 r) ->
  x8 X tg r t0 t1 coef vsq a = Panic.
Proof. exact x8_panics. Qed.
Print Assumptions C63_width.

(** C63: x8 is a safe function but not memory safe: where the scalar version panics, and where
    it does nothing, x8 reads outside of the arrays. *)
Theorem C63_safe_refuted :
  (exists r coef vsq a, is_grid r vsq /\ is_grid r (fst a) /\ is_grid r (snd a) /\ scalar r 0 1 coef vsq a = Panic /\
     forall X tg, x8 X tg r 0 1 coef vsq a = UB) /\
  (exists r coef vsq a, is_grid r vsq /\ is_grid r (fst a) /\ is_grid r (snd a) /\ scalar r 0 1 coef vsq a = Ok a /\
     forall X tg, x8 X tg r 0 1 coef vsq a = UB).
Proof.
  assert (forall za zb, is_grid (small za zb) (row 0)) as G.
  { intros za zb. split; [reflexivity|]. apply Forall_forall. intros q I. apply repeat_spec in I as ->. lia. }
  split; [exists (small 0 1)|exists (small 6 5)]; exists the_coef, (row 0), (row 0, row 0);
    (split; [apply G|split; [apply G|split; [apply G|]]]).
  - split; [exact (proj1 (unchecked_ub ref_externals x86_64_avx2))|]. intros X tg. exact (proj2 (unchecked_ub X tg)).
  - split; [exact (proj1 (backwards_ub ref_externals x86_64_avx2))|]. intros X tg. exact (proj2 (backwards_ub X tg)).
Qed.
Print Assumptions C63_safe_refuted.

(** C63: more planes in the box than in the grid make the parallel version panic. *)
Theorem C63_parallel_panics : forall order X tg r t0 t1 coef vsq a, n_z r < z1 r - z0 r ->
  x8_par order X tg r t0 t1 coef vsq a = Panic.
Proof. exact par_checks. Qed.
Print Assumptions C63_parallel_panics.

(** C63: the program starts with f32 quotients of the coordinates: vsq = x y z / (nx ny nz), the current
    values x / nx in the left half and y / ny in the right one, the values before are 0, and the
    coefficients are 1/2, -1/4, 1/8, -1/16. *)
Theorem C63_data : forall r x y z, in_grid r x y z ->
  let quotient a b d := exists u v, rounds_to 4 (IZR a) false u /\ rounds_to 4 (IZR b) false v /\ ieee_div 4 u v d in
  quotient (x * y * z) (n_x r * n_y r * n_z r) (cell r (init_vsq r) x y z) /\
  (if x <? Z.quot (n_x r) 2 then quotient x (n_x r) (cell r (init_a r) x y z) else quotient y (n_y r) (cell r (init_a r) x y z)) /\
  cell r (init_zero r) x y z = Fin false 0 /\
  map (coefficient the_coef) [0; 1; 2; 3]%nat = [Fin false (/ 2); Fin true (- / 4); Fin false (/ 8); Fin true (- / 16)]%R.
Proof.
  intros r x y z G. destruct (start_data r x y z G) as (A & B & C). split; [exact A|]. split; [exact B|]. split; [exact C|].
  exact coef_values.
Qed.
Print Assumptions C63_data.

(** C63: the data the program starts with meets the hypotheses if the border has width 3 or more. *)
Theorem C63_start : forall w nx ny nz, 3 <= w -> 0 < nx -> 0 < ny -> 0 < nz ->
  let r := from_bounds w nx ny nz in ready r the_coef (init_vsq r) (init_a r, init_zero r).
Proof. exact starts_ready. Qed.
Print Assumptions C63_start.

(** The two sizes in the program, and a wave that does something. *)
Example C63_example :
  (let r := from_bounds 4 128 128 128 in z0 r <= z1 r /\ (8 | x1 r - x0 r) /\ z1 r - z0 r <= n_z r) /\
  (let r := from_bounds 4 256 256 256 in z0 r <= z1 r /\ (8 | x1 r - x0 r) /\ z1 r - z0 r <= n_z r) /\
  fmuladd_is ref_lanes either /\ works_lanewise ref_externals ref_lanes /\
  fmuladd_is twice_lanes rounded_twice /\ works_lanewise twice_externals twice_lanes /\
  (forall l : list nat, Permutation (rev l) l) /\
  ready (small 3 4) the_coef (row 0x3f800000) (row 0x3f800000, row 0) /\
  (* 2 * 1 - 0 + 1 * (1/2 - 6/4 + 6/8 - 6/16) = 11/8 *)
  scalar (small 3 4) 0 1 the_coef (row 0x3f800000) (row 0x3f800000, row 0) =
    Ok (row 0x3f800000, repeat 0 24 ++ repeat 0x3fb00000 8 ++ repeat 0 24) /\
  x8 ref_externals x86_64_avx2 (small 3 4) 0 1 the_coef (row 0x3f800000) (row 0x3f800000, row 0) =
    Ok (row 0x3f800000, repeat 0 24 ++ repeat 0x3fb00000 8 ++ repeat 0 24) /\
  x8_par (fun _ => @rev nat) ref_externals s390x (small 3 4) 0 1 the_coef (row 0x3f800000) (row 0x3f800000, row 0) =
    Ok (row 0x3f800000, repeat 0 24 ++ repeat 0x3fb00000 8 ++ repeat 0 24).
Proof.
  split; [cbn; repeat split; try lia; exists 15; reflexivity|].
  split; [cbn; repeat split; try lia; exists 31; reflexivity|].
  split; [exact (follows_either _ ref_follows)|]. split; [exact ref_works|].
  split; [exact twice_is|]. split; [exact twice_works|].
  split; [intros t; symmetry; apply Permutation_rev|].
  split; [apply small_ready; try reflexivity; lia|].
  split; [vm_compute; reflexivity|]. split; vm_compute; reflexivity.
Qed.
