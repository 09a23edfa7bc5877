(** Vocabulary for IEEE-754 lanes.  A lane pattern is read field by field, straight from
    the interchange format; rounding is Flocq's round-to-nearest-even on real numbers. *)
From Coq Require Import ZArith List Bool Reals.
From Flocq Require Import Core.
From Verif.Model Require Import Base.
From Verif.Spec Require Import Spec.
Open Scope Z_scope.

(** f32 and f64 vector types. *)
Definition float_type (t : vty) : Prop :=
  vkind t = KFloat /\ (vb t = 4%nat \/ vb t = 8%nat) /\ vector_type t.

(** Widths of the fields of a lane of [b] bytes: significand and exponent. *)
Definition sig_width (b : nat) : Z := if Nat.eqb b 4 then 23 else 52.
Definition exp_width (b : nat) : Z := if Nat.eqb b 4 then 8 else 11.
Definition bias (b : nat) : Z := 2 ^ (exp_width b - 1) - 1.
Definition sig_field (b : nat) (p : Z) : Z := p mod 2 ^ sig_width b.
Definition exp_field (b : nat) (p : Z) : Z := (p / 2 ^ sig_width b) mod 2 ^ exp_width b.
Definition sign_field (b : nat) (p : Z) : bool := 2 ^ (8 * Z.of_nat b - 1) <=? p.

(** What a pattern stands for. *)
Inductive datum :=
| NaN
| Inf (negative : bool)
| Fin (negative : bool) (x : R).

(** The real number of a finite pattern: subnormal numbers have exponent field 0, the
    others a hidden leading 1. *)
Definition magnitude (b : nat) (p : Z) : R :=
  if exp_field b p =? 0
  then IZR (sig_field b p) * bpow radix2 (1 - bias b - sig_width b)
  else IZR (2 ^ sig_width b + sig_field b p) * bpow radix2 (exp_field b p - bias b - sig_width b).

Definition datum_of (b : nat) (p : Z) : datum :=
  if exp_field b p =? 2 ^ exp_width b - 1
  then if sig_field b p =? 0 then Inf (sign_field b p) else NaN
  else Fin (sign_field b p) (if sign_field b p then - magnitude b p else magnitude b p)%R.

(** Round to nearest, ties to even, with unbounded exponent range above. *)
Definition rounded (b : nat) (x : R) : R :=
  round radix2 (FLT_exp (1 - bias b - sig_width b) (sig_width b + 1)) ZnearestE x.

(** The sign of a result: that of the exact result, or [z] if that is zero. *)
Definition result_sign (x : R) (z s : bool) : Prop :=
  ((x < 0)%R -> s = true) /\ ((0 < x)%R -> s = false) /\ (x = 0%R -> s = z).

(** [r] is the exact result [x] correctly rounded; [z] is the sign if [x] is zero.  Too
    large a result is an infinity. *)
Definition rounds_to (b : nat) (x : R) (z : bool) (r : datum) : Prop :=
  exists s, result_sign x z s /\
    r = if Rlt_bool (Rabs (rounded b x)) (bpow radix2 (bias b + 1)) then Fin s (rounded b x) else Inf s.

(** IEEE-754 arithmetic.  A zero result of addition or subtraction is -0 only if both
    operands count as negative. *)
Definition ieee_add (b : nat) (x y r : datum) : Prop :=
  match x, y with
  | NaN, _ | _, NaN => r = NaN
  | Inf s, Inf s' => r = if Bool.eqb s s' then Inf s else NaN
  | Inf s, Fin _ _ => r = Inf s
  | Fin _ _, Inf s => r = Inf s
  | Fin s u, Fin s' v => rounds_to b (u + v) (s && s') r
  end.
Definition negated (x : datum) : datum :=
  match x with
  | NaN => NaN
  | Inf s => Inf (negb s)
  | Fin s u => Fin (negb s) (- u)
  end.
Definition ieee_sub (b : nat) (x y r : datum) : Prop := ieee_add b x (negated y) r.
Definition ieee_mul (b : nat) (x y r : datum) : Prop :=
  match x, y with
  | NaN, _ | _, NaN => r = NaN
  | Inf s, Inf s' => r = Inf (xorb s s')
  | Inf s, Fin s' u | Fin s' u, Inf s => r = if Req_bool u 0 then NaN else Inf (xorb s s')
  | Fin s u, Fin s' v => rounds_to b (u * v) (xorb s s') r
  end.
Definition ieee_div (b : nat) (x y r : datum) : Prop :=
  match x, y with
  | NaN, _ | _, NaN => r = NaN
  | Inf s, Inf s' => r = NaN
  | Inf s, Fin s' _ => r = Inf (xorb s s')
  | Fin s _, Inf s' => r = Fin (xorb s s') 0
  | Fin s u, Fin s' v =>
      if Req_bool v 0 then r = if Req_bool u 0 then NaN else Inf (xorb s s')
      else rounds_to b (u / v) (xorb s s') r
  end.
Definition ieee_sqrt (b : nat) (x r : datum) : Prop :=
  match x with
  | NaN => r = NaN
  | Inf s => r = if s then NaN else Inf false
  | Fin s u => if Rlt_bool u 0 then r = NaN else rounds_to b (sqrt u) s r
  end.

(** IEEE-754 order: NaN is unordered, the two zeros are equal. *)
Definition ieee_lt (x y : datum) : Prop :=
  match x, y with
  | NaN, _ | _, NaN => False
  | Inf true, Inf false => True
  | Inf _, Inf _ => False
  | Inf s, Fin _ _ => s = true
  | Fin _ _, Inf s => s = false
  | Fin _ u, Fin _ v => (u < v)%R
  end.
Definition ieee_eq (x y : datum) : Prop :=
  match x, y with
  | Inf s, Inf s' => s = s'
  | Fin _ u, Fin _ v => u = v
  | _, _ => False
  end.
Definition ieee_le (x y : datum) : Prop := ieee_lt x y \/ ieee_eq x y.

(** Remainder: x - y * trunc(x / y), exactly, with the sign of x. *)
Definition ieee_rem (x y r : datum) : Prop :=
  match x, y with
  | NaN, _ | _, NaN | Inf _, _ => r = NaN
  | Fin s u, Inf _ => r = Fin s u
  | Fin s u, Fin _ v =>
      r = if Req_bool v 0 then NaN else Fin s (u - v * IZR (Ztrunc (u / v)))
  end.

(** Minimum and maximum of two lanes: a NaN is ignored, otherwise it is the smaller
    (larger) one; of two equal lanes either. *)
Definition ieee_min (x y r : datum) : Prop :=
  match x, y with
  | NaN, _ => r = y
  | _, NaN => r = x
  | _, _ => (r = x \/ r = y) /\ ieee_le r x /\ ieee_le r y
  end.
Definition ieee_max (x y r : datum) : Prop :=
  match x, y with
  | NaN, _ => r = y
  | _, NaN => r = x
  | _, _ => (r = x \/ r = y) /\ ieee_le x r /\ ieee_le y r
  end.

(** Conversion to the format with lanes of [b] bytes. *)
Definition ieee_convert (b : nat) (x r : datum) : Prop :=
  match x with
  | Fin s u => rounds_to b u s r
  | _ => r = x
  end.

(** [folds b op d l r]: starting from [d], [op] takes in the lanes of [l] one after
    the other, in order, and ends with [r]. *)
Inductive folds (b : nat) (op : datum -> datum -> datum -> Prop) : datum -> list Z -> datum -> Prop :=
| folds_nil d : folds b op d nil d
| folds_cons d p l e r : op d (datum_of b p) e -> folds b op e l r -> folds b op d (p :: l) r.
