(** Arithmetic formulas, in floats and in exact arithmetic. *)
From Coq Require Import ZArith List Bool Reals.
From Flocq Require Import Core.
From Verif.Spec Require Import Spec Floats Rays.
Import ListNotations.
Open Scope Z_scope.

(** An arithmetic formula; [Arg i] is the i-th of its arguments. *)
Inductive formula :=
| Arg (i : nat)
| Num (x : R)
| Plus (a b : formula)
| Minus (a b : formula)
| Times (a b : formula)
| Over (a b : formula)
| Opposite (a : formula)
| Modulus (a : formula)
| Root (a : formula).

(** What it comes to in floats of [b] bytes: numbers are rounded, and so is the result of every operation. *)
Fixpoint computed (b : nat) (env : list datum) (e : formula) (r : datum) : Prop :=
  match e with
  | Arg i => nth_error env i = Some r
  | Num x => r = Fin (Rlt_bool x 0) (rounded b x)
  | Plus e1 e2 => exists x y, computed b env e1 x /\ computed b env e2 y /\ ieee_add b x y r
  | Minus e1 e2 => exists x y, computed b env e1 x /\ computed b env e2 y /\ ieee_sub b x y r
  | Times e1 e2 => exists x y, computed b env e1 x /\ computed b env e2 y /\ ieee_mul b x y r
  | Over e1 e2 => exists x y, computed b env e1 x /\ computed b env e2 y /\ ieee_div b x y r
  | Opposite a => exists x, computed b env a x /\ r = negated x
  | Modulus a => exists x, computed b env a x /\ r = absolute x
  | Root a => exists x, computed b env a x /\ ieee_sqrt b x r
  end.

(** What it comes to in exact arithmetic. *)
Fixpoint exact_value (env : list R) (e : formula) : R :=
  match e with
  | Arg i => nth i env 0
  | Num x => x
  | Plus a b => exact_value env a + exact_value env b
  | Minus a b => exact_value env a - exact_value env b
  | Times a b => exact_value env a * exact_value env b
  | Over a b => exact_value env a / exact_value env b
  | Opposite a => - exact_value env a
  | Modulus a => Rabs (exact_value env a)
  | Root a => R_sqrt.sqrt (exact_value env a)
  end%R.

Definition square (a : formula) : formula := Times a a.
Definition cube (a : formula) : formula := Times (square a) a.
