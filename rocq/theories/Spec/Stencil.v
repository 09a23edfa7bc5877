(** Vocabulary for the stencil example: a wave equation on a grid, in f32. *)
From Coq Require Import ZArith List Bool Reals.
From Verif.Model Require Import Base Tables MathTables Math ExStencil.
From Verif.Spec Require Import Spec Floats MathSpec.
Import ListNotations.
Open Scope Z_scope.

(** An array with one f32 for every cell of the grid, in the order z, y, x. *)
Definition is_grid (r : bounds) (a : list Z) : Prop :=
  Z.of_nat (length a) = n_x r * n_y r * n_z r /\ Forall (fun p => 0 <= p < 2 ^ 32) a.

(** The value in cell (x, y, z).  Counting on in x over the end of a row leads into the next
    row, and counting on in y over the last row into the next plane. *)
Definition cell (r : bounds) (a : list Z) (x y z : Z) : datum :=
  datum_of 4 (nth (Z.to_nat ((z * n_y r + y) * n_x r + x)) a 0).

Definition in_grid (r : bounds) (x y z : Z) : Prop := 0 <= x < n_x r /\ 0 <= y < n_y r /\ 0 <= z < n_z r.
Definition in_box (r : bounds) (x y z : Z) : Prop := x0 r <= x < x1 r /\ y0 r <= y < y1 r /\ z0 r <= z < z1 r.

(** The box lies in the grid, with three planes below and above. *)
Definition box_fits (r : bounds) : Prop :=
  0 < n_x r /\ 0 < n_y r /\ 0 <= x0 r /\ x1 r <= n_x r /\ 0 <= y0 r /\ y1 r <= n_y r /\ 3 <= z0 r /\ z1 r <= n_z r - 3.

(** The sum of the values at distance [i] in the six directions, from left to right. *)
Definition around (r : bounds) (a : list Z) (x y z i : Z) (s : datum) : Prop :=
  exists s1 s2 s3 s4,
    ieee_add 4 (cell r a (x + i) y z) (cell r a (x - i) y z) s1 /\
    ieee_add 4 s1 (cell r a x (y + i) z) s2 /\
    ieee_add 4 s2 (cell r a x (y - i) z) s3 /\
    ieee_add 4 s3 (cell r a x y (z + i)) s4 /\
    ieee_add 4 s4 (cell r a x y (z - i)) s.

(** A way to compute x * y + z. *)
Definition mul_adder := datum -> datum -> datum -> datum -> Prop.
Definition rounded_twice : mul_adder := ieee_mul_add 4.
Definition rounded_once : mul_adder := ieee_fma 4.
Definition either : mul_adder := fun x y z r => rounded_twice x y z r \/ rounded_once x y z r.

Definition coefficient (coef : list Z) (i : nat) : datum := datum_of 4 (nth i coef 0).
Definition datum_2 : datum := Fin false 2%R.

(** The scheme: [next] - 2 [cur] + [prev] = vsq * div, with
    div = c0 * cur + c1 * (sum at distance 1) + c2 * (.. 2) + c3 * (.. 3). *)
Definition wave_cell (mad : mul_adder) (r : bounds) (coef vsq cur : list Z) (x y z : Z) (prev next : datum) : Prop :=
  let c i := coefficient coef i in
  let here := cell r cur x y z in
  exists d0 s1 d1 s2 d2 s3 d3 e,
    ieee_mul 4 (c 0%nat) here d0 /\
    around r cur x y z 1 s1 /\ mad (c 1%nat) s1 d0 d1 /\
    around r cur x y z 2 s2 /\ mad (c 2%nat) s2 d1 d2 /\
    around r cur x y z 3 s3 /\ mad (c 3%nat) s3 d2 d3 /\
    mad here datum_2 (negated prev) e /\ mad (cell r vsq x y z) d3 e next.

(** One time step: the cells of the box follow the scheme, the other cells keep what was in
    the array before. *)
Definition wave_step (mad : mul_adder) (r : bounds) (coef vsq cur prev next : list Z) : Prop :=
  is_grid r next /\
  forall x y z, in_grid r x y z ->
    (in_box r x y z -> wave_cell mad r coef vsq cur x y z (cell r prev x y z) (cell r next x y z)) /\
    (~ in_box r x y z -> nth (Z.to_nat ((z * n_y r + y) * n_x r + x)) next 0 = nth (Z.to_nat ((z * n_y r + y) * n_x r + x)) prev 0).

(** The array for time [t] of a pair (array for even times, array for odd times). *)
Definition at_time (t : Z) (a : list Z * list Z) : list Z := if Z.even t then fst a else snd a.

(** [u] is a history from t0 to the end (t1, if that is later than t0): it starts with the
    arrays [a] at times t0 and t0 - 1 and ends with the arrays [a']. *)
Definition wave (mad : mul_adder) (r : bounds) (coef vsq : list Z) (t0 t1 : Z) (a a' : list Z * list Z) : Prop :=
  let e := Z.max t0 t1 in
  exists u : Z -> list Z,
    u t0 = at_time t0 a /\ u (t0 - 1) = at_time (t0 - 1) a /\
    (forall t, t0 <= t < e -> wave_step mad r coef vsq (u t) (u (t - 1)) (u (t + 1))) /\
    u e = at_time e a' /\ u (e - 1) = at_time (e - 1) a'.

(** Equal as numbers, cell by cell (all NaNs are alike). *)
Definition same_numbers (a b : list Z) : Prop := Forall2 (fun p q => datum_of 4 p = datum_of 4 q) a b.

(** Four coefficients and three arrays that match a box in the grid. *)
Definition ready (r : bounds) (coef vsq : list Z) (a : list Z * list Z) : Prop :=
  box_fits r /\ (length coef = 4%nat /\ Forall (fun p => 0 <= p < 2 ^ 32) coef) /\
  is_grid r vsq /\ is_grid r (fst a) /\ is_grid r (snd a).

(** LLVM's fmuladd on an f32 works as [mad] tells. *)
Definition fmuladd_is (S : lane_functions) (mad : mul_adder) : Prop :=
  forall f p q s, x_fn f = EFmuladd -> x_lib f = LLVM -> x_b f = 4%nat ->
    0 <= p < 2 ^ 32 -> 0 <= q < 2 ^ 32 -> 0 <= s < 2 ^ 32 ->
    mad (datum_of 4 p) (datum_of 4 q) (datum_of 4 s) (datum_of 4 (l3 S f p q s)).
