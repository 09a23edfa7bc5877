(** IEEE-754 lanes: [f32] is a lane of 4 bytes, [f64] one of 8.  Bit patterns
    are decoded to the standard library's [spec_float] and back.  A NaN result
    is given one quiet pattern: sign and payload of NaNs are not modelled. *)
From Coq Require Import ZArith List Bool.
From Coq.Floats Require Import SpecFloat.
From Verif.Model Require Import Base.
Import ListNotations.
Open Scope Z_scope.

(** Precision (with the hidden bit) and exponent bound of the format. *)
Definition fprec (b : nat) : Z := if Nat.eqb b 4 then 24 else 53.
Definition femax (b : nat) : Z := if Nat.eqb b 4 then 128 else 1024.
Definition femin (b : nat) : Z := 3 - femax b - fprec b.
(** Width of the stored significand and of the exponent field. *)
Definition fmw (b : nat) : Z := fprec b - 1.
Definition few (b : nat) : Z := if Nat.eqb b 4 then 8 else 11.

(** Decode: sign bit, exponent field, significand field. *)
Definition fdecode (b : nat) (p : Z) : spec_float :=
  let s := Z.testbit p (fmw b + few b) in
  let e := (p / 2 ^ fmw b) mod 2 ^ few b in
  let m := p mod 2 ^ fmw b in
  if e =? 0 then
    match m with Zpos q => S754_finite s q (femin b) | _ => S754_zero s end
  else if e =? 2 ^ few b - 1 then
    if m =? 0 then S754_infinity s else S754_nan
  else
    match m + 2 ^ fmw b with
    | Zpos q => S754_finite s q (e + femin b - 1)
    | _ => S754_nan
    end.

Definition fjoin (b : nat) (s : bool) (m e : Z) : Z :=
  ((if s then 2 ^ few b else 0) + e) * 2 ^ fmw b + m.

Definition fencode (b : nat) (f : spec_float) : Z :=
  match f with
  | S754_zero s => fjoin b s 0 0
  | S754_infinity s => fjoin b s 0 (2 ^ few b - 1)
  | S754_nan => fjoin b false (2 ^ (fmw b - 1)) (2 ^ few b - 1)
  | S754_finite s m e =>
      if Zpos m <? 2 ^ fmw b then fjoin b s (Zpos m) 0
      else fjoin b s (Zpos m - 2 ^ fmw b) (e - femin b + 1)
  end.

(** LLVM [fadd], [fsub], [fmul], [fdiv] (round to nearest even). *)
Definition fl_add (b : nat) (p q : Z) : Z :=
  fencode b (SFadd (fprec b) (femax b) (fdecode b p) (fdecode b q)).
Definition fl_sub (b : nat) (p q : Z) : Z :=
  fencode b (SFsub (fprec b) (femax b) (fdecode b p) (fdecode b q)).
Definition fl_mul (b : nat) (p q : Z) : Z :=
  fencode b (SFmul (fprec b) (femax b) (fdecode b p) (fdecode b q)).
Definition fl_div (b : nat) (p q : Z) : Z :=
  fencode b (SFdiv (fprec b) (femax b) (fdecode b p) (fdecode b q)).

(** LLVM [frem] (C's [fmod]): exact remainder of the truncating division, with
    the sign of the dividend. *)
Definition SFrem (prec emax : Z) (x y : spec_float) : spec_float :=
  match x, y with
  | S754_nan, _ | _, S754_nan => S754_nan
  | S754_infinity _, _ => S754_nan
  | _, S754_zero _ => S754_nan
  | _, S754_infinity _ => x
  | S754_zero _, _ => x
  | S754_finite sx mx ex, S754_finite _ my ey =>
      let e := Z.min ex ey in
      let r := Z.rem (Zpos mx * 2 ^ (ex - e)) (Zpos my * 2 ^ (ey - e)) in
      binary_normalize prec emax (cond_Zopp sx r) e sx
  end.
Definition fl_rem (b : nat) (p q : Z) : Z :=
  fencode b (SFrem (fprec b) (femax b) (fdecode b p) (fdecode b q)).

(** LLVM [fcmp]: ordered comparisons, and unordered not-equal. *)
Definition fl_eq (b : nat) (p q : Z) : bool := SFeqb (fdecode b p) (fdecode b q).
Definition fl_ne (b : nat) (p q : Z) : bool := negb (SFeqb (fdecode b p) (fdecode b q)).
Definition fl_lt (b : nat) (p q : Z) : bool := SFltb (fdecode b p) (fdecode b q).
Definition fl_le (b : nat) (p q : Z) : bool := SFleb (fdecode b p) (fdecode b q).
Definition fl_gt (b : nat) (p q : Z) : bool := SFltb (fdecode b q) (fdecode b p).
Definition fl_ge (b : nat) (p q : Z) : bool := SFleb (fdecode b q) (fdecode b p).

Definition SFis_nan (f : spec_float) : bool :=
  match f with S754_nan => true | _ => false end.

(** LLVM [minnum] / [maxnum]: a NaN operand is ignored.  (For -0 and +0 LLVM
    may return either; here the first operand.) *)
Definition fl_min (b : nat) (p q : Z) : Z :=
  if SFis_nan (fdecode b p) then q
  else if SFis_nan (fdecode b q) then p
  else if fl_lt b q p then q else p.
Definition fl_max (b : nat) (p q : Z) : Z :=
  if SFis_nan (fdecode b p) then q
  else if SFis_nan (fdecode b q) then p
  else if fl_lt b p q then q else p.

(** LLVM [sqrt]. *)
Definition fl_sqrt (b : nat) (p : Z) : Z :=
  fencode b (SFsqrt (fprec b) (femax b) (fdecode b p)).

(** LLVM [fabs]: clears the sign bit, also of a NaN. *)
Definition fl_abs (b : nat) (p : Z) : Z := p mod 2 ^ (fmw b + few b).

(** LLVM [fma]: the exact product and sum, rounded once. *)
Definition SFfma (prec emax : Z) (x y z : spec_float) : spec_float :=
  match x, y, z with
  | S754_nan, _, _ | _, S754_nan, _ | _, _, S754_nan => S754_nan
  | S754_infinity _, S754_zero _, _ | S754_zero _, S754_infinity _, _ => S754_nan
  | S754_infinity sx, S754_infinity sy, _ | S754_infinity sx, S754_finite sy _ _, _
  | S754_finite sx _ _, S754_infinity sy, _ =>
      match z with
      | S754_infinity sz => if Bool.eqb (xorb sx sy) sz then z else S754_nan
      | _ => S754_infinity (xorb sx sy)
      end
  | _, _, S754_infinity _ => z
  | (S754_zero sx | S754_finite sx _ _), (S754_zero sy | S754_finite sy _ _),
    (S754_zero sz | S754_finite sz _ _) =>
      let num f := match f with S754_finite s m _ => cond_Zopp s (Zpos m) | _ => 0 end in
      let expo f := match f with S754_finite _ _ e => e | _ => 0 end in
      let ep := expo x + expo y in
      let e := Z.min ep (expo z) in
      binary_normalize prec emax
        (num x * num y * 2 ^ (ep - e) + num z * 2 ^ (expo z - e)) e (xorb sx sy && sz)
  end.
Definition fl_fma (b : nat) (p q r : Z) : Z :=
  fencode b (SFfma (fprec b) (femax b) (fdecode b p) (fdecode b q) (fdecode b r)).

(** LLVM [sitofp]/[uitofp] of an integer value. *)
Definition fl_of_int (b : nat) (z : Z) : Z :=
  fencode b (binary_normalize (fprec b) (femax b) z 0 false).

(** LLVM [fptosi]/[fptoui] before the range check: truncation toward zero
    ([None]: infinite or NaN). *)
Definition SFtrunc (f : spec_float) : option Z :=
  match f with
  | S754_zero _ => Some 0
  | S754_finite s m e =>
      let a := if 0 <=? e then Zpos m * 2 ^ e else Zpos m / 2 ^ (- e) in
      Some (cond_Zopp s a)
  | _ => None
  end.

(** LLVM [fpext]/[fptrunc]: re-round to the other format. *)
Definition fl_convert (b b' : nat) (p : Z) : Z :=
  fencode b'
    match fdecode b p with
    | S754_finite s m e =>
        binary_normalize (fprec b') (femax b') (cond_Zopp s (Zpos m)) e s
    | f => f
    end.
