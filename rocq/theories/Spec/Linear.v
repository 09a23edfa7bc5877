(** Power iteration in floating point, as the spectral norm example is meant to do it. *)
From Coq Require Import ZArith List Reals.
From Verif.Spec Require Import Spec Floats.
Import ListNotations.
Open Scope R_scope.

(** The infinite matrix with a(i, j) = 1 / ((i + j)(i + j + 1) / 2 + i + 1) is given by the
    reciprocals of its entries. *)
Definition recip_entry (i j : nat) : datum :=
  Fin false (IZR (Z.of_nat ((i + j) * (i + j + 1) / 2 + i + 1))).

(** [quotients a j v s t s' t']: starting from [s] and [t], add x / a(j) to the first and
    y / a(j+1) to the second for the numbers x, y of [v] in turn, two at a time. *)
Inductive quotients (a : nat -> datum) : nat -> list datum -> datum -> datum -> datum -> datum -> Prop :=
| quotients_nil j s t : quotients a j [] s t s t
| quotients_cons j x y v s t p q s1 t1 s2 t2 :
    ieee_div 8 x (a j) p -> ieee_div 8 y (a (j + 1)%nat) q ->
    ieee_add 8 s p s1 -> ieee_add 8 t q t1 ->
    quotients a (j + 2) v s1 t1 s2 t2 -> quotients a j (x :: y :: v) s t s2 t2.

(** [r] is the product of the matrix with the vector [v]. *)
Definition times (a : nat -> nat -> datum) (v r : list datum) : Prop :=
  length r = length v /\
  forall i d, nth_error r i = Some d ->
    exists s t, quotients (a i) 0 v (Fin false 0) (Fin false 0) s t /\ ieee_add 8 s t d.

(** [w] is (transposed A) A [v]. *)
Definition AtA (v w : list datum) : Prop :=
  exists t, times recip_entry v t /\ times (fun i j => recip_entry j i) t w.

(** The inner product, added up from the left. *)
Inductive inner : datum -> list datum -> list datum -> datum -> Prop :=
| inner_nil s : inner s [] [] s
| inner_cons s x y l r p s1 s2 :
    ieee_mul 8 x y p -> ieee_add 8 s p s1 -> inner s1 l r s2 -> inner s (x :: l) (y :: r) s2.

(** [k] double steps of the iteration: v is made from u, then u from v. *)
Inductive iterated : nat -> list datum -> list datum -> list datum -> list datum -> Prop :=
| iterated_0 u v : iterated 0 u v u v
| iterated_S k u v u1 v1 u2 v2 :
    AtA u v1 -> AtA v1 u1 -> iterated k u1 v1 u2 v2 -> iterated (S k) u v u2 v2.

(** The result for size [n] with ten double steps: sqrt((u . v) / (v . v)). *)
Definition spectral_norm_of (n : nat) (r : datum) : Prop :=
  exists u v uv vv q,
    iterated 10 (repeat (Fin false 1) n) (repeat (Fin false 1) n) u v /\
    inner (Fin false 0) u v uv /\ inner (Fin false 0) v v vv /\
    ieee_div 8 uv vv q /\ ieee_sqrt 8 q r.
