(** The matrix inverse example (examples/matrix_inverse/src).  A matrix is a list of rows of
    f32 patterns; scalar f32 arithmetic is that of one lane. *)
From Coq Require Import ZArith List Bool.
From Verif.Model Require Import Base FloatLane Tables Minimal Ops Reduce Shuffle Float.
Import ListNotations.
Open Scope Z_scope.

(** Unary minus on a scalar f32 flips the sign bit. *)
Definition f32_neg (p : Z) : Z := if p <? 2 ^ 31 then p + 2 ^ 31 else p - 2 ^ 31.

Declare Scope f32_scope.
Delimit Scope f32_scope with f32.
Local Infix "⊗" := (fl_mul 4) (at level 40, left associativity) : f32_scope.
Local Infix "⊕" := (fl_add 4) (at level 50, left associativity) : f32_scope.
Local Infix "⊖" := (fl_sub 4) (at level 50, left associativity) : f32_scope.
Local Notation "∸ x" := (f32_neg x) (at level 35, right associativity) : f32_scope.
Local Infix "⊠" := (mul f32x4) (at level 40, left associativity) : f32_scope.
Local Infix "⊞" := (add f32x4) (at level 50, left associativity) : f32_scope.
Local Infix "⊟" := (sub f32x4) (at level 50, left associativity) : f32_scope.

(** [Matrix4x4] (lib.rs:9-10).  An index out of bounds reads the default, which no theorem
    relies on. *)
Definition matrix := list (list Z).
Definition entry (mat : matrix) (i j : nat) : Z := nth j (nth i mat []) 0.

(** ** The scalar version *)

(** The array [inv] before the division (scalar.rs:9-130). *)
Definition scalar_cofactors (mat : matrix) : matrix :=
  let m := entry mat in ([
  [ m 1 1 ⊗ m 2 2 ⊗ m 3 3 ⊖ m 1 1 ⊗ m 2 3 ⊗ m 3 2 ⊖ m 2 1 ⊗ m 1 2 ⊗ m 3 3
      ⊕ m 2 1 ⊗ m 1 3 ⊗ m 3 2 ⊕ m 3 1 ⊗ m 1 2 ⊗ m 2 3 ⊖ m 3 1 ⊗ m 1 3 ⊗ m 2 2;
    ∸ m 0 1 ⊗ m 2 2 ⊗ m 3 3 ⊕ m 0 1 ⊗ m 2 3 ⊗ m 3 2 ⊕ m 2 1 ⊗ m 0 2 ⊗ m 3 3
      ⊖ m 2 1 ⊗ m 0 3 ⊗ m 3 2 ⊖ m 3 1 ⊗ m 0 2 ⊗ m 2 3 ⊕ m 3 1 ⊗ m 0 3 ⊗ m 2 2;
    m 0 1 ⊗ m 1 2 ⊗ m 3 3 ⊖ m 0 1 ⊗ m 1 3 ⊗ m 3 2 ⊖ m 1 1 ⊗ m 0 2 ⊗ m 3 3
      ⊕ m 1 1 ⊗ m 0 3 ⊗ m 3 2 ⊕ m 3 1 ⊗ m 0 2 ⊗ m 1 3 ⊖ m 3 1 ⊗ m 0 3 ⊗ m 1 2;
    ∸ m 0 1 ⊗ m 1 2 ⊗ m 2 3 ⊕ m 0 1 ⊗ m 1 3 ⊗ m 2 2 ⊕ m 1 1 ⊗ m 0 2 ⊗ m 2 3
      ⊖ m 1 1 ⊗ m 0 3 ⊗ m 2 2 ⊖ m 2 1 ⊗ m 0 2 ⊗ m 1 3 ⊕ m 2 1 ⊗ m 0 3 ⊗ m 1 2 ];
  [ ∸ m 1 0 ⊗ m 2 2 ⊗ m 3 3 ⊕ m 1 0 ⊗ m 2 3 ⊗ m 3 2 ⊕ m 2 0 ⊗ m 1 2 ⊗ m 3 3
      ⊖ m 2 0 ⊗ m 1 3 ⊗ m 3 2 ⊖ m 3 0 ⊗ m 1 2 ⊗ m 2 3 ⊕ m 3 0 ⊗ m 1 3 ⊗ m 2 2;
    m 0 0 ⊗ m 2 2 ⊗ m 3 3 ⊖ m 0 0 ⊗ m 2 3 ⊗ m 3 2 ⊖ m 2 0 ⊗ m 0 2 ⊗ m 3 3
      ⊕ m 2 0 ⊗ m 0 3 ⊗ m 3 2 ⊕ m 3 0 ⊗ m 0 2 ⊗ m 2 3 ⊖ m 3 0 ⊗ m 0 3 ⊗ m 2 2;
    ∸ m 0 0 ⊗ m 1 2 ⊗ m 3 3 ⊕ m 0 0 ⊗ m 1 3 ⊗ m 3 2 ⊕ m 1 0 ⊗ m 0 2 ⊗ m 3 3
      ⊖ m 1 0 ⊗ m 0 3 ⊗ m 3 2 ⊖ m 3 0 ⊗ m 0 2 ⊗ m 1 3 ⊕ m 3 0 ⊗ m 0 3 ⊗ m 1 2;
    m 0 0 ⊗ m 1 2 ⊗ m 2 3 ⊖ m 0 0 ⊗ m 1 3 ⊗ m 2 2 ⊖ m 1 0 ⊗ m 0 2 ⊗ m 2 3
      ⊕ m 1 0 ⊗ m 0 3 ⊗ m 2 2 ⊕ m 2 0 ⊗ m 0 2 ⊗ m 1 3 ⊖ m 2 0 ⊗ m 0 3 ⊗ m 1 2 ];
  [ m 1 0 ⊗ m 2 1 ⊗ m 3 3 ⊖ m 1 0 ⊗ m 2 3 ⊗ m 3 1 ⊖ m 2 0 ⊗ m 1 1 ⊗ m 3 3
      ⊕ m 2 0 ⊗ m 1 3 ⊗ m 3 1 ⊕ m 3 0 ⊗ m 1 1 ⊗ m 2 3 ⊖ m 3 0 ⊗ m 1 3 ⊗ m 2 1;
    ∸ m 0 0 ⊗ m 2 1 ⊗ m 3 3 ⊕ m 0 0 ⊗ m 2 3 ⊗ m 3 1 ⊕ m 2 0 ⊗ m 0 1 ⊗ m 3 3
      ⊖ m 2 0 ⊗ m 0 3 ⊗ m 3 1 ⊖ m 3 0 ⊗ m 0 1 ⊗ m 2 3 ⊕ m 3 0 ⊗ m 0 3 ⊗ m 2 1;
    m 0 0 ⊗ m 1 1 ⊗ m 3 3 ⊖ m 0 0 ⊗ m 1 3 ⊗ m 3 1 ⊖ m 1 0 ⊗ m 0 1 ⊗ m 3 3
      ⊕ m 1 0 ⊗ m 0 3 ⊗ m 3 1 ⊕ m 3 0 ⊗ m 0 1 ⊗ m 1 3 ⊖ m 3 0 ⊗ m 0 3 ⊗ m 1 1;
    ∸ m 0 0 ⊗ m 1 1 ⊗ m 2 3 ⊕ m 0 0 ⊗ m 1 3 ⊗ m 2 1 ⊕ m 1 0 ⊗ m 0 1 ⊗ m 2 3
      ⊖ m 1 0 ⊗ m 0 3 ⊗ m 2 1 ⊖ m 2 0 ⊗ m 0 1 ⊗ m 1 3 ⊕ m 2 0 ⊗ m 0 3 ⊗ m 1 1 ];
  [ ∸ m 1 0 ⊗ m 2 1 ⊗ m 3 2 ⊕ m 1 0 ⊗ m 2 2 ⊗ m 3 1 ⊕ m 2 0 ⊗ m 1 1 ⊗ m 3 2
      ⊖ m 2 0 ⊗ m 1 2 ⊗ m 3 1 ⊖ m 3 0 ⊗ m 1 1 ⊗ m 2 2 ⊕ m 3 0 ⊗ m 1 2 ⊗ m 2 1;
    m 0 0 ⊗ m 2 1 ⊗ m 3 2 ⊖ m 0 0 ⊗ m 2 2 ⊗ m 3 1 ⊖ m 2 0 ⊗ m 0 1 ⊗ m 3 2
      ⊕ m 2 0 ⊗ m 0 2 ⊗ m 3 1 ⊕ m 3 0 ⊗ m 0 1 ⊗ m 2 2 ⊖ m 3 0 ⊗ m 0 2 ⊗ m 2 1;
    ∸ m 0 0 ⊗ m 1 1 ⊗ m 3 2 ⊕ m 0 0 ⊗ m 1 2 ⊗ m 3 1 ⊕ m 1 0 ⊗ m 0 1 ⊗ m 3 2
      ⊖ m 1 0 ⊗ m 0 2 ⊗ m 3 1 ⊖ m 3 0 ⊗ m 0 1 ⊗ m 1 2 ⊕ m 3 0 ⊗ m 0 2 ⊗ m 1 1;
    m 0 0 ⊗ m 1 1 ⊗ m 2 2 ⊖ m 0 0 ⊗ m 1 2 ⊗ m 2 1 ⊖ m 1 0 ⊗ m 0 1 ⊗ m 2 2
      ⊕ m 1 0 ⊗ m 0 2 ⊗ m 2 1 ⊕ m 2 0 ⊗ m 0 1 ⊗ m 1 2 ⊖ m 2 0 ⊗ m 0 2 ⊗ m 1 1 ]
  ])%f32%nat.

(** inv4x4 (scalar.rs:6-145). *)
Definition scalar_inv4x4 (mat : matrix) : option matrix :=
  let m := entry mat in
  let inv := scalar_cofactors mat in
  let i := entry inv in
  let det := (m 0 0 ⊗ i 0 0 ⊕ m 0 1 ⊗ i 1 0 ⊕ m 0 2 ⊗ i 2 0 ⊕ m 0 3 ⊗ i 3 0)%f32%nat in
  if fl_eq 4 det (fl_of_int 4 0) then None
  else
    let det_inv := fl_div 4 (fl_of_int 4 1) det in
    Some (map (map (fun elem => fl_mul 4 elem det_inv)) inv).

(** ** The vector version *)
Definition shuf (x y : vec) (idx : list nat) : outcome vec := shuffled (shuffle2 false f32x4 x y idx).

(** The minors (simd.rs:14-77); the rows of the array are the vectors [m_0] to [m_3]
    (simd.rs:9-12).  The result also has [row0], which the determinant needs. *)
Definition simd_minors (mat : matrix) : outcome (vec * list vec) := (
  let m_0 := nth 0 mat [] in
  let m_1 := nth 1 mat [] in
  let m_2 := nth 2 mat [] in
  let m_3 := nth 3 mat [] in
  tmp1 <- shuf m_0 m_1 [0; 1; 4; 5] ;;
  row1 <- shuf m_2 m_3 [0; 1; 4; 5] ;;
  row0 <- shuf tmp1 row1 [0; 2; 4; 6] ;;
  row1 <- shuf row1 tmp1 [1; 3; 5; 7] ;;
  tmp1 <- shuf m_0 m_1 [2; 3; 6; 7] ;;
  row3 <- shuf m_2 m_3 [2; 3; 6; 7] ;;
  row2 <- shuf tmp1 row3 [0; 2; 4; 6] ;;
  row3 <- shuf row3 tmp1 [1; 3; 5; 7] ;;
  let tmp1 := row2 ⊠ row3 in
  tmp1 <- shuf tmp1 tmp1 [1; 0; 3; 2] ;;
  let minor0 := row1 ⊠ tmp1 in
  let minor1 := row0 ⊠ tmp1 in
  tmp1 <- shuf tmp1 tmp1 [2; 3; 0; 1] ;;
  let minor0 := (row1 ⊠ tmp1) ⊟ minor0 in
  let minor1 := (row0 ⊠ tmp1) ⊟ minor1 in
  minor1 <- shuf minor1 minor1 [2; 3; 0; 1] ;;
  let tmp1 := row1 ⊠ row2 in
  tmp1 <- shuf tmp1 tmp1 [1; 0; 3; 2] ;;
  let minor0 := (row3 ⊠ tmp1) ⊞ minor0 in
  let minor3 := row0 ⊠ tmp1 in
  tmp1 <- shuf tmp1 tmp1 [2; 3; 0; 1] ;;
  let minor0 := minor0 ⊟ row3 ⊠ tmp1 in
  let minor3 := row0 ⊠ tmp1 ⊟ minor3 in
  minor3 <- shuf minor3 minor3 [2; 3; 0; 1] ;;
  sh <- shuf row1 row1 [2; 3; 0; 1] ;;
  let tmp1 := row3 ⊠ sh in
  tmp1 <- shuf tmp1 tmp1 [1; 0; 3; 2] ;;
  row2 <- shuf row2 row2 [2; 3; 0; 1] ;;
  let minor0 := row2 ⊠ tmp1 ⊞ minor0 in
  let minor2 := row0 ⊠ tmp1 in
  tmp1 <- shuf tmp1 tmp1 [2; 3; 0; 1] ;;
  let minor0 := minor0 ⊟ row2 ⊠ tmp1 in
  let minor2 := row0 ⊠ tmp1 ⊟ minor2 in
  minor2 <- shuf minor2 minor2 [2; 3; 0; 1] ;;
  let tmp1 := row0 ⊠ row1 in
  tmp1 <- shuf tmp1 tmp1 [1; 0; 3; 2] ;;
  let minor2 := minor2 ⊞ row3 ⊠ tmp1 in
  let minor3 := row2 ⊠ tmp1 ⊟ minor3 in
  tmp1 <- shuf tmp1 tmp1 [2; 3; 0; 1] ;;
  let minor2 := row3 ⊠ tmp1 ⊟ minor2 in
  let minor3 := minor3 ⊟ row2 ⊠ tmp1 in
  let tmp1 := row0 ⊠ row3 in
  tmp1 <- shuf tmp1 tmp1 [1; 0; 3; 2] ;;
  let minor1 := minor1 ⊟ row2 ⊠ tmp1 in
  let minor2 := row1 ⊠ tmp1 ⊞ minor2 in
  tmp1 <- shuf tmp1 tmp1 [2; 3; 0; 1] ;;
  let minor1 := row2 ⊠ tmp1 ⊞ minor1 in
  let minor2 := minor2 ⊟ row1 ⊠ tmp1 in
  let tmp1 := row0 ⊠ row2 in
  tmp1 <- shuf tmp1 tmp1 [1; 0; 3; 2] ;;
  let minor1 := row3 ⊠ tmp1 ⊞ minor1 in
  let minor3 := minor3 ⊟ row1 ⊠ tmp1 in
  tmp1 <- shuf tmp1 tmp1 [2; 3; 0; 1] ;;
  let minor1 := minor1 ⊟ row3 ⊠ tmp1 in
  let minor3 := row1 ⊠ tmp1 ⊞ minor3 in
  Ok (row0, [minor0; minor1; minor2; minor3]))%nat%f32.

(** inv4x4 (simd.rs:7-102). *)
Definition simd_inv4x4 (tg : target) (mat : matrix) : outcome (option matrix) := (
  rm <- simd_minors mat ;;
  let row0 := fst rm in
  let det := row0 ⊠ nth 0 (snd rm) [] in
  s <- shuf det det [2; 3; 0; 1]%nat ;;
  let det := s ⊞ det in
  s <- shuf det det [1; 0; 3; 2]%nat ;;
  let det := s ⊞ det in
  sum <- fsum tg f32x4 det ;;
  if fl_eq 4 sum (fl_of_int 4 0) then Ok None
  else
    tmp1 <- recpre f32x4 det ;;
    let det := tmp1 ⊞ tmp1 ⊟ det ⊠ tmp1 ⊠ tmp1 in
    Ok (Some (map (fun minor => minor ⊠ det) (snd rm))))%f32.
