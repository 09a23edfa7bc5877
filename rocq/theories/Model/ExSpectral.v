(** The spectral norm example (examples/spectral_norm/src).  The vectors of f64 are owned,
    so a slice is the list of its elements; scalar f64 arithmetic is that of one lane. *)
From Coq Require Import ZArith List Bool.
From Verif.Model Require Import Base FloatLane Tables Minimal Ops Reduce ExSum.
Import ListNotations.
Open Scope Z_scope.

(** [A] (lib.rs:12-14), with the wrapping [usize] arithmetic of a release build. *)
Definition A (tg : target) (i j : nat) : Z :=
  let u x := wrap (t_ptr tg) x in
  let s := u (Z.of_nat i + Z.of_nat j) in
  fl_of_int 8 (u (u (u (s * u (s + 1)) / 2 + Z.of_nat i) + 1)).

(** [x.iter().zip(y).map(|(x, y)| x * y).fold(0.0, |a, b| a + b)]
    (scalar.rs:62-64, simd.rs:60-63). *)
Definition dot (x y : list Z) : Z := fold_left (fl_add 8) (map2 (fl_mul 8) x y) (fl_of_int 8 0).

(** The inner loop of scalar [mult] (scalar.rs:49-56): the chunks of [v] from element [j]
    on; indexing the last chunk of a slice of odd length panics. *)
Fixpoint scalar_row (a : nat -> nat -> Z) (i j : nat) (v : list Z) (sum : Z * Z) : outcome (Z * Z) :=
  match v with
  | [] => Ok sum
  | [_] => Panic
  | x :: y :: v' =>
      scalar_row a i (j + 2) v'
        (fl_add 8 (fst sum) (fl_div 8 x (a i j)), fl_add 8 (snd sum) (fl_div 8 y (a i (j + 1)%nat)))
  end.
(** mult (scalar.rs:45-60) with [start] = 0; every slot of [out] is written. *)
Definition scalar_mult (a : nat -> nat -> Z) (v out : list Z) : outcome (list Z) :=
  map_ok (fun i => s <- scalar_row a i 0 v (fl_of_int 8 0, fl_of_int 8 0) ;; Ok (fl_add 8 (fst s) (snd s)))
    (seq 0 (length out)).
(** mult_Av, mult_Atv, mult_AtAv (scalar.rs:33-43): the new [out] and [tmp]. *)
Definition scalar_mult_AtAv (tg : target) (v out tmp : list Z) : outcome (list Z * list Z) :=
  tmp' <- scalar_mult (A tg) v tmp ;;
  out' <- scalar_mult (fun i j => A tg j i) tmp' out ;;
  Ok (out', tmp').

(** [f64x2::from_slice_unaligned(&v[j..])]: the slice must have two elements from [j] on. *)
Definition read_f64x2 (v : list Z) (j : nat) : outcome vec :=
  _ <- assert (j <=? length v)%nat ;;
  _ <- assert (lanes f64x2 <=? length (skipn j v))%nat ;;
  Ok (firstn (lanes f64x2) (skipn j v)).
(** The loop over [j] (simd.rs:13-19, 31-37); [fuel] bounds the iterations. *)
Fixpoint simd_row (a : nat -> nat -> Z) (i j fuel : nat) (v : list Z) (sum : vec) : outcome vec :=
  match fuel with
  | O => Ok sum
  | S fuel' =>
      if (j <? length v)%nat then
        b <- read_f64x2 v j ;;
        q <- div f64x2 b [a i j; a i (j + 1)%nat] ;;
        simd_row a i (j + 2) fuel' v (add_assign f64x2 sum q)
      else Ok sum
  end.
(** mult_Av, mult_Atv (simd.rs:6-22, 24-40). *)
Definition simd_mult (tg : target) (a : nat -> nat -> Z) (v out : list Z) : outcome (list Z) :=
  _ <- assert (Nat.eqb (length v) (length out)) ;;
  _ <- assert (Nat.eqb (Nat.modulo (length v) 2) 0) ;;
  map_ok (fun i => s <- simd_row a i 0 (length v) v (splat f64x2 (fl_of_int 8 0)) ;; fsum tg f64x2 s)
    (seq 0 (length out)).
(** mult_AtAv (simd.rs:42-45). *)
Definition simd_mult_AtAv (tg : target) (v out tmp : list Z) : outcome (list Z * list Z) :=
  tmp' <- simd_mult tg (A tg) v tmp ;;
  out' <- simd_mult tg (fun i j => A tg j i) tmp' out ;;
  Ok (out', tmp').

(** spectral_norm (scalar.rs:21-31, simd.rs:47-58), which differ in [mult_AtAv] only. *)
Definition ten_times (mult_AtAv : list Z -> list Z -> list Z -> outcome (list Z * list Z)) :
    nat -> list Z -> list Z -> list Z -> outcome (list Z * list Z) :=
  fix go k u v tmp :=
    match k with
    | O => Ok (u, v)
    | S k' =>
        r <- mult_AtAv u v tmp ;;
        r' <- mult_AtAv (fst r) u (snd r) ;;
        go k' (fst r') (fst r) (snd r')
    end.
Definition spectral_norm_with (mult_AtAv : list Z -> list Z -> list Z -> outcome (list Z * list Z)) (n : nat) :
    outcome Z :=
  _ <- assert (Nat.eqb (Nat.modulo n 2) 0) ;;
  let one := repeat (fl_of_int 8 1) n in
  r <- ten_times mult_AtAv 10 one one one ;;
  let (u, v) := (r : list Z * list Z) in
  Ok (fl_sqrt 8 (fl_div 8 (dot u v) (dot v v))).
Definition scalar_spectral_norm (tg : target) (n : nat) : outcome Z := spectral_norm_with (scalar_mult_AtAv tg) n.
Definition simd_spectral_norm (tg : target) (n : nat) : outcome Z := spectral_norm_with (simd_mult_AtAv tg) n.
