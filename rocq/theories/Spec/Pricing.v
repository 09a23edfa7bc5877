(** Vocabulary for the option pricing example. *)
From Coq Require Import ZArith List Bool Reals.
From Flocq Require Import Core.
From Verif.Model Require Import Base Tables MathTables Math.
From Verif.Spec Require Import Spec Floats MathSpec Stencil Rays Occlusion Formulas.
Import ListNotations.
Open Scope Z_scope.

(** ** Prices *)
Section Prices.
  (** What the functions of the platform do. *)
  Variables (exponential logarithm : datum -> datum -> Prop) (power : datum -> datum -> datum -> Prop).

  (** c1 k - c2 k^2 + c3 k^3 - c4 k^4 + c5 k^5, from left to right. *)
  Definition polynomial (k : formula) : formula :=
    Plus (Plus (Plus (Minus (Times (Num (31938153 / 100000000)) k)
                            (Times (Num (356563782 / 1000000000)) (square k)))
                     (Times (Num (1781477937 / 1000000000)) (cube k)))
               (Times (Num (- 1821255978 / 1000000000)) (square (square k))))
         (Times (Num (1330274429 / 1000000000)) (Times (cube k) (square k))).

  (** The approximation of the cumulative normal distribution: with k = 1 / (1 + 0.2316419 |x|),
      polynomial(k) * 0.39894228040 * exp (- |x|^2 / 2) for x <= 0 and one minus that for x > 0. *)
  Definition cumulative (x r : datum) : Prop :=
    exists l k q e p,
      computed 4 [x] (Modulus (Arg 0)) l /\
      computed 4 [l] (Over (Num 1) (Plus (Num 1) (Times (Num (2316419 / 10000000)) (Arg 0)))) k /\
      computed 4 [l] (Times (Times (Opposite (Arg 0)) (Arg 0)) (Num (1 / 2))) q /\
      exponential q e /\
      computed 4 [k; e] (Times (Times (polynomial (Arg 0)) (Num (39894228040 / 100000000000))) (Arg 1)) p /\
      (ieee_lt zero x -> computed 4 [p] (Minus (Num 1) (Arg 0)) r) /\
      (~ ieee_lt zero x -> r = p).

  (** The price of a call by the formula of Black and Scholes, s N(d1) - x exp(- r t) N(d2), where
      d1 = (ln (s / x) + (r + v^2 / 2) t) / (v sqrt t) and d2 = d1 - v sqrt t. *)
  Definition call_price (s x t r v c : datum) : Prop :=
    exists q g d1 d2 n1 n2 h e,
      computed 4 [s; x] (Over (Arg 0) (Arg 1)) q /\ logarithm q g /\
      computed 4 [g; r; v; t] (Over (Plus (Arg 0) (Times (Plus (Arg 1) (Times (square (Arg 2)) (Num (1 / 2)))) (Arg 3)))
                                  (Times (Arg 2) (Root (Arg 3)))) d1 /\
      computed 4 [d1; v; t] (Minus (Arg 0) (Times (Arg 1) (Root (Arg 2)))) d2 /\
      cumulative d1 n1 /\ cumulative d2 n2 /\
      computed 4 [r; t] (Times (Opposite (Arg 0)) (Arg 1)) h /\ exponential h e /\
      computed 4 [s; n1; x; e; n2] (Minus (Times (Arg 0) (Arg 1)) (Times (Times (Arg 2) (Arg 3)) (Arg 4))) c.

  (** The price of a put from a binomial tree with [leaves] leaves: dt = t / leaves, u = exp (v sqrt dt),
      disc = exp (r dt), pu = (disc - 1/u) / (u - 1/u); leaf j is max (0, x - s u^(2 j - leaves)), and node j
      of a later row is [step] of pu, disc and the nodes j and j + 1 of the row before. *)
  Definition put_price (leaves : nat) (step : formula) (s x t r v c : datum) : Prop :=
    exists dt q u d h disc pu (node : nat -> nat -> datum),
      computed 4 [t] (Over (Arg 0) (Num (INR leaves))) dt /\
      computed 4 [v; dt] (Times (Arg 0) (Root (Arg 1))) q /\ exponential q u /\
      computed 4 [u] (Over (Num 1) (Arg 0)) d /\
      computed 4 [r; dt] (Times (Arg 0) (Arg 1)) h /\ exponential h disc /\
      computed 4 [disc; d; u] (Over (Minus (Arg 0) (Arg 1)) (Minus (Arg 2) (Arg 1))) pu /\
      (forall j, (j < leaves)%nat ->
         let e := 2 * Z.of_nat j - Z.of_nat leaves in
         exists up y, power u (Fin (e <? 0) (IZR e)) up /\
           computed 4 [x; s; up] (Minus (Arg 0) (Times (Arg 1) (Arg 2))) y /\ ieee_max zero y (node 0%nat j)) /\
      (forall n j, (S n + j < leaves)%nat ->
         computed 4 [pu; disc; node n j; node n (S j)] step (node (S n) j)) /\
      c = node (leaves - 1)%nat 0%nat.
End Prices.

(** The two ways to go back one row: (1 - pu) a + pu b divided by disc, or multiplied by 1 / disc. *)
Definition mean : formula := Plus (Times (Minus (Num 1) (Arg 0)) (Arg 2)) (Times (Arg 0) (Arg 3)).
Definition divided : formula := Over mean (Arg 1).
Definition multiplied : formula := Times mean (Over (Num 1) (Arg 1)).

(** ** Slices *)

(** Slices of f32. *)
Definition are_f32 (l : list Z) : Prop := Forall is_f32 l.

(** The first [count] results are prices: result i is the price of option [option i]; the others are as before. *)
Definition priced (price : datum -> datum -> datum -> datum -> datum -> datum -> Prop) (option : nat -> nat) (count : nat)
    (sa xa ta ra va old new : list Z) : Prop :=
  length new = length old /\
  (forall i, (i < count)%nat -> exists s x t r v c,
     nth_error sa (option i) = Some s /\ nth_error xa (option i) = Some x /\ nth_error ta (option i) = Some t /\
     nth_error ra (option i) = Some r /\ nth_error va (option i) = Some v /\
     nth_error new i = Some c /\ is_f32 c /\
     price (f32_datum s) (f32_datum x) (f32_datum t) (f32_datum r) (f32_datum v) (f32_datum c)) /\
  (forall i, (count <= i)%nat -> nth_error new i = nth_error old i).

(** All five inputs have at least [n] elements. *)
Definition inputs_have (n : nat) (sa xa ta ra va : list Z) : Prop :=
  (n <= length sa /\ n <= length xa /\ n <= length ta /\ n <= length ra /\ n <= length va)%nat.

(** A price of the options the program starts with: s = 100, x = 98, t = 2, r = 0.02, v = 5. *)
Definition start_price (price : datum -> datum -> datum -> datum -> datum -> datum -> Prop) (c : Z) : Prop :=
  is_f32 c /\ price (Fin false 100) (Fin false 98) (Fin false 2) (Fin false (rounded 4 (2 / 100))) (Fin false 5) (f32_datum c).

(** A kernel for eight options at a time that prices each by itself. *)
Definition prices (kernel : vec -> vec -> vec -> vec -> vec -> outcome vec)
    (price : datum -> datum -> datum -> datum -> datum -> datum -> Prop) : Prop :=
  forall s x t r v, is_vector f32x8 s -> is_vector f32x8 x -> is_vector f32x8 t -> is_vector f32x8 r -> is_vector f32x8 v ->
  exists o, kernel s x t r v = Ok o /\ is_vector f32x8 o /\
    forall i a b c d e, lane s i a -> lane x i b -> lane t i c -> lane r i d -> lane v i e ->
    exists p, lane o i p /\ price (f32_datum a) (f32_datum b) (f32_datum c) (f32_datum d) (f32_datum e) (f32_datum p).

(** ** Sums *)

(** Starting from [d], the numbers [l] are added in order, in f64. *)
Inductive accumulates : datum -> list datum -> datum -> Prop :=
| no_more d : accumulates d [] d
| one_more d x l d1 r : ieee_add 8 d x d1 -> accumulates d1 l r -> accumulates d (x :: l) r.

(** The eight columns of [l] are added up by themselves, in order; then the eight sums.  On AArch64 this last sum
    starts from the first column, elsewhere from zero. *)
Definition sum_by_columns (arch : arch) (l : list datum) (r : datum) : Prop :=
  exists c cs, length (c :: cs) = 8%nat /\
    (forall j d, nth_error (c :: cs) j = Some d -> exists column,
       (8 * length column = length l)%nat /\
       (forall k, (k < length column)%nat -> nth_error column k = nth_error l (8 * k + j)) /\
       accumulates zero column d) /\
    (arch <> Aarch64 -> accumulates zero (c :: cs) r) /\
    (arch = Aarch64 -> accumulates c cs r).

(** A pattern of an f64. *)
Definition is_f64 (p : Z) : Prop := 0 <= p < 2 ^ 64.

(** What exp, ln and powf of LLVM do to a lane. *)
Definition math_is (S : lane_functions) (exponential logarithm : datum -> datum -> Prop) (power : datum -> datum -> datum -> Prop) : Prop :=
  forall f, x_lib f = LLVM -> x_b f = 4%nat ->
    (x_fn f = EExp -> forall p, is_f32 p -> exponential (f32_datum p) (f32_datum (l1 S f p))) /\
    (x_fn f = ELn -> forall p, is_f32 p -> logarithm (f32_datum p) (f32_datum (l1 S f p))) /\
    (x_fn f = EPow -> forall p q, is_f32 p -> is_f32 q -> power (f32_datum p) (f32_datum q) (f32_datum (l2 S f p q))).
(** The same of the functions of the standard library. *)
Definition computes2 (f : Z -> Z -> Z) (R : datum -> datum -> datum -> Prop) : Prop :=
  forall p q, is_f32 p -> is_f32 q -> is_f32 (f p q) /\ R (f32_datum p) (f32_datum q) (f32_datum (f p q)).

(** ** Exact arithmetic *)

(** The mean of [leaf] over the number of heads in [n] throws that show heads with probability [p]. *)
Definition binomial_mean (n : nat) (p : R) (leaf : nat -> R) : R :=
  sum_f_R0 (fun i => Binomial.C n i * p ^ i * (1 - p) ^ (n - i) * leaf i)%R n.
