(** The n-body example (examples/nbody/src).  An array is the list of its elements and scalar f64 arithmetic is that of
    one lane.  Printing and the parsing of arguments (main.rs) are left out. *)
From Coq Require Import ZArith List Bool.
From Verif.Model Require Import Base FloatLane Llvm Tables MathTables Math Minimal Ops Reduce ExStencil ExOptions.
Import ListNotations.
Open Scope Z_scope.

(** Literals: 0., 0.5, 2., 4., 0.01 and PI (scalar.rs:7-8, 120, 164; simd.rs:5-6, 102, 157), and -x (scalar.rs:142). *)
Definition f64_0 : Z := 0.
Definition f64_half : Z := 0x3fe0000000000000.
Definition f64_2 : Z := 0x4000000000000000.
Definition f64_4 : Z := 0x4010000000000000.
Definition f64_step : Z := 0x3f847ae147ae147b.
Definition f64_pi : Z := 0x400921fb54442d18.
Definition f64_neg (p : Z) : Z := if p <? 2 ^ 63 then p + 2 ^ 63 else p - 2 ^ 63.

(** SOLAR_MASS, DAYS_PER_YEAR, N_BODIES (scalar.rs:8-9, 17; simd.rs:6-7, 14). *)
Definition SOLAR_MASS : Z := fl_mul 8 (fl_mul 8 f64_4 f64_pi) f64_pi.
Definition DAYS_PER_YEAR : Z := 0x4076d3d70a3d70a4.
Definition N_BODIES : nat := 5.

(** Body (scalar.rs:11-15, simd.rs:9-13); [b_x] and [b_v] have three elements in the scalar and four in the vector
    version. *)
Record body := { b_x : list Z; b_v : list Z; b_mass : Z }.

(** The literals of the planets (scalar.rs:22-77, simd.rs:23-86): position, velocity per day, mass in solar masses. *)
Definition planet_literals : list (list Z * list Z * Z) :=
  [([0x40135da0343cd92c; 0xbff290abc01fdb7c; 0xbfba86f96c25ebf0],
      [0x3f5b32ddb8ec9209; 0x3f7f88ff93f670b6; 0xbf12199946debd80], 0x3f4f49601333c135);
     ([0x4020afcdc332ca67; 0x40107fcb31de01b0; 0xbfd9d353e1eb467c],
      [0xbf66abb60a8e1d76; 0x3f747956257578b8; 0x3ef829379cad4ac0], 0x3f32bc5eeff5e6f8);
     ([0x4029c9eacea7d9cf; 0xc02e38e8d626667e; 0xbfcc9557be257da0],
      [0x3f6849383e87d954; 0x3f637c044ac0ace1; 0xbeff1983fedbfaa0], 0x3f06e44607a13bd6);
     ([0x402ec267a905572a; 0xc039eb5833c8a220; 0x3fc6f1f393abe540],
      [0x3f65f5c9e51b4320; 0x3f5aad5736999d88; 0xbf18f2070b7f9750], 0x3f0b0213ca2d0eec)].

(** BODIES; [pad] is the fourth element of the vectors (scalar.rs:19-78, simd.rs:16-87). *)
Definition bodies_with (pad : list Z) : list body :=
  {| b_x := [f64_0; f64_0; f64_0] ++ pad; b_v := [f64_0; f64_0; f64_0] ++ pad; b_mass := SOLAR_MASS |} ::
  map (fun l => match l with (x, v, m) =>
    {| b_x := x ++ pad; b_v := map (fun c => fl_mul 8 c DAYS_PER_YEAR) v ++ pad; b_mass := fl_mul 8 m SOLAR_MASS |} end)
    planet_literals.
Definition scalar_BODIES : list body := bodies_with [].
Definition simd_BODIES : list body := bodies_with [f64_0].

(** ** Scalar version (scalar.rs) *)

(** The body of the inner loop of advance (scalar.rs:84-104): bi and bj afterwards. *)
Definition scalar_pull (dt : Z) (bi bj : body) : body * body :=
  let dx := map2 (fl_sub 8) (b_x bi) (b_x bj) in
  let d2 := fold_left (fun d2 dx => fl_add 8 d2 (fl_mul 8 dx dx)) dx f64_0 in
  let mag := fl_div 8 dt (fl_mul 8 d2 (fl_sqrt 8 d2)) in
  let massi_mag := fl_mul 8 (b_mass bi) mag in
  let massj_mag := fl_mul 8 (b_mass bj) mag in
  ({| b_x := b_x bi; b_v := map2 (fun v_i dx => fl_sub 8 v_i (fl_mul 8 dx massj_mag)) (b_v bi) dx; b_mass := b_mass bi |},
   {| b_x := b_x bj; b_v := map2 (fun v_j dx => fl_add 8 v_j (fl_mul 8 dx massi_mag)) (b_v bj) dx; b_mass := b_mass bj |}).
(** The inner loop (scalar.rs:83-105). *)
Fixpoint scalar_pulls (dt : Z) (bi : body) (b_slice : list body) : body * list body :=
  match b_slice with
  | [] => (bi, [])
  | bj :: b_slice' =>
      let (bi, bj) := scalar_pull dt bi bj in
      let (bi, b_slice') := scalar_pulls dt bi b_slice' in
      (bi, bj :: b_slice')
  end.
(** [*x += dt * v] (scalar.rs:106-108). *)
Definition scalar_move (dt : Z) (bi : body) : body :=
  {| b_x := map2 (fun x v => fl_add 8 x (fl_mul 8 dt v)) (b_x bi) (b_v bi); b_v := b_v bi; b_mass := b_mass bi |}.
(** advance (scalar.rs:80-110), with shift_mut_ref (149-157) as the pattern of the list; [fuel] is its length. *)
Fixpoint scalar_advance_loop (fuel : nat) (dt : Z) (b_slice : list body) : list body :=
  match fuel, b_slice with
  | S fuel, bi :: b_slice =>
      let (bi, b_slice) := scalar_pulls dt bi b_slice in
      scalar_move dt bi :: scalar_advance_loop fuel dt b_slice
  | _, _ => b_slice
  end.
Definition scalar_advance (bodies : list body) (dt : Z) : list body := scalar_advance_loop (length bodies) dt bodies.

(** energy (scalar.rs:112-131). *)
Definition scalar_pair_energy (bi : body) (e : Z) (bj : body) : Z :=
  let dist := fold_left (fl_add 8) (map2 (fun xi xj => let dx := fl_sub 8 xi xj in fl_mul 8 dx dx) (b_x bi) (b_x bj)) f64_0 in
  fl_sub 8 e (fl_div 8 (fl_mul 8 (b_mass bi) (b_mass bj)) (fl_sqrt 8 dist)).
Fixpoint scalar_energy_loop (e : Z) (bodies : list body) : Z :=
  match bodies with
  | [] => e
  | bi :: bodies' =>
      let e_l := fold_left (fun e_l v => fl_add 8 e_l (fl_mul 8 v v)) (b_v bi) f64_0 in
      let e := fl_add 8 e (fl_div 8 (fl_mul 8 e_l (b_mass bi)) f64_2) in
      scalar_energy_loop (fold_left (scalar_pair_energy bi) bodies' e) bodies'
  end.
Definition scalar_energy (bodies : list body) : Z := scalar_energy_loop f64_0 bodies.

(** offset_momentum (scalar.rs:133-144). *)
Definition scalar_offset_momentum (bodies : list body) : outcome (list body) :=
  let p := fold_left (fun p bi => map2 (fun p v => fl_add 8 p (fl_mul 8 v (b_mass bi))) p (b_v bi)) bodies [f64_0; f64_0; f64_0] in
  sun <- at_ bodies 0 ;;
  put bodies 0 {| b_x := b_x sun; b_v := map2 (fun v p => fl_div 8 (f64_neg p) SOLAR_MASS) (b_v sun) p; b_mass := b_mass sun |}.

(** run (scalar.rs:159-168). *)
Definition scalar_run (n : nat) : outcome (Z * Z) :=
  bodies <- scalar_offset_momentum scalar_BODIES ;;
  let a := scalar_energy bodies in
  bodies <- foreach (seq 0 n) bodies (fun _ bodies => Ok (scalar_advance bodies f64_step)) ;;
  Ok (a, scalar_energy bodies).

(** ** Vector version (simd.rs) *)

(** offset_momentum (simd.rs:89-96). *)
Definition simd_offset_momentum (bodies : list body) : outcome (list body) :=
  match bodies with
  | [] => Panic
  | sun :: rest =>
      let v := fold_left (fun v b =>
                 let m_ratio := fl_div 8 (b_mass b) SOLAR_MASS in
                 sub_assign f64x4 v (mul_vs f64x4 (b_v b) m_ratio)) rest (b_v sun) in
      Ok ({| b_x := b_x sun; b_v := v; b_mass := b_mass sun |} :: rest)
  end.

Section Simd.
  (** As in Model/Math.v: external functions and what an uninitialised vector holds. *)
  Variables (X : externals) (tg : target) (junk : vec).

  (** energy (simd.rs:98-109). *)
  Definition simd_energy (bodies : list body) : outcome Z :=
    foreach (seq 0 N_BODIES) f64_0 (fun i e =>
      bi <- at_ bodies i ;;
      s <- fsum tg f64x4 (mul f64x4 (b_v bi) (b_v bi)) ;;
      let e := fl_add 8 e (fl_mul 8 (fl_mul 8 (b_mass bi) s) f64_half) in
      foreach (skipn (i + 1) (firstn N_BODIES bodies)) e (fun bj e =>
        let dx := sub f64x4 (b_x bi) (b_x bj) in
        s <- fsum tg f64x4 (mul f64x4 dx dx) ;;
        Ok (fl_sub 8 e (fl_div 8 (fl_mul 8 (b_mass bi) (b_mass bj)) (fl_sqrt 8 s))))).

  (** [N] (simd.rs:112). *)
  Definition N : nat := N_BODIES * (N_BODIES - 1) / 2.

  (** The two loops over the pairs j < k (simd.rs:117-123, 135-143); [i] counts the pairs. *)
  Definition for_pairs {S} (s : S) (f : nat -> nat -> nat -> S -> outcome S) : outcome S :=
    r <- foreach (seq 0 N_BODIES) (s, 0%nat) (fun j s =>
           foreach (seq (j + 1) (N_BODIES - (j + 1))) s (fun k s =>
             s' <- f j k (snd s) (fst s) ;; Ok (s', snd s + 1)%nat)) ;;
    Ok (fst r).

  (** The distances (simd.rs:115-124). *)
  Definition simd_distances (bodies : list body) : outcome (list vec) :=
    for_pairs (repeat (splat f64x4 f64_0) N) (fun j k i r =>
      bj <- at_ bodies j ;;
      bk <- at_ bodies k ;;
      put r i (sub f64x4 (b_x bj) (b_x bk))).

  (** [v.write_to_slice_unaligned(&mut mag[i..])] (simd.rs:131). *)
  Definition write_f64x2 (v : vec) (mag : list Z) (i : nat) : outcome (list Z) :=
    _ <- assert (i <=? length mag)%nat ;;
    _ <- assert (lanes f64x2 <=? length (skipn i mag))%nat ;;
    Ok (firstn i mag ++ v ++ skipn (i + lanes f64x2) mag).
  (** The magnitudes (simd.rs:126-133); [fuel] bounds the iterations. *)
  Fixpoint simd_mags (fuel : nat) (dt : Z) (r : list vec) (i : nat) (mag : list Z) : outcome (list Z) :=
    match fuel with
    | O => Ok mag
    | S fuel' =>
        if (i <? N)%nat then
          r0 <- at_ r i ;;
          r1 <- at_ r (i + 1) ;;
          s0 <- fsum tg f64x4 (mul f64x4 r0 r0) ;;
          s1 <- fsum tg f64x4 (mul f64x4 r1 r1) ;;
          let d2s := [s0; s1] in
          q <- method (sqrte X tg junk f64x2 d2s) ;;
          dmags <- div f64x2 (splat f64x2 dt) (mul f64x2 d2s q) ;;
          mag <- write_f64x2 dmags mag i ;;
          simd_mags fuel' dt r (i + 2) mag
        else Ok mag
    end.

  (** The pulls (simd.rs:135-143). *)
  Definition with_v (b : body) (v : vec) : body := {| b_x := b_x b; b_v := v; b_mass := b_mass b |}.
  Definition simd_pulls (r : list vec) (mag : list Z) (bodies : list body) : outcome (list body) :=
    for_pairs bodies (fun j k i bodies =>
      ri <- at_ r i ;;
      mi <- at_ mag i ;;
      let f := mul_vs f64x4 ri mi in
      bj <- at_ bodies j ;;
      bk <- at_ bodies k ;;
      bodies <- put bodies j (with_v bj (sub_assign f64x4 (b_v bj) (mul_vs f64x4 f (b_mass bk)))) ;;
      bj <- at_ bodies j ;;
      bk <- at_ bodies k ;;
      put bodies k (with_v bk (add_assign f64x4 (b_v bk) (mul_vs f64x4 f (b_mass bj))))).

  (** advance (simd.rs:111-147). *)
  Definition simd_advance (bodies : list body) (dt : Z) : outcome (list body) :=
    r <- simd_distances bodies ;;
    mag <- simd_mags N dt r 0 (repeat f64_0 N) ;;
    bodies <- simd_pulls r mag bodies ;;
    Ok (map (fun b => {| b_x := add_assign f64x4 (b_x b) (mul_sv f64x4 dt (b_v b)); b_v := b_v b; b_mass := b_mass b |}) bodies).

  (** run_k with advance, run (simd.rs:149-166). *)
  Definition simd_run (n : nat) : outcome (Z * Z) :=
    bodies <- simd_offset_momentum simd_BODIES ;;
    energy_before <- simd_energy bodies ;;
    bodies <- foreach (seq 0 n) bodies (fun _ bodies => simd_advance bodies f64_step) ;;
    energy_after <- simd_energy bodies ;;
    Ok (energy_before, energy_after).
End Simd.

(** run (lib.rs:14-20). *)
Definition nbody_run (X : externals) (tg : target) (junk : vec) (n alg : nat) : outcome (Z * Z) :=
  match alg with
  | 0%nat => scalar_run n
  | 1%nat => simd_run X tg junk n
  | _ => Panic
  end.
