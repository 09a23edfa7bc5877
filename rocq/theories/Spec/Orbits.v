(** The Mandelbrot sequence in floating point, and when it escapes. *)
From Coq Require Import ZArith Reals.
From Verif.Spec Require Import Spec Floats.
Open Scope R_scope.

(** [x k] and [y k] are the real and imaginary part of the k-th member of the sequence
    z -> z^2 + c that starts at c, and [n k] is x^2 + y^2, every operation being rounded to
    f64: x' = cx + (x*x - y*y), y' = cy + (x*y + x*y). *)
Definition orbit (cx cy : datum) (x y n : nat -> datum) : Prop :=
  x 0%nat = cx /\ y 0%nat = cy /\
  forall k, exists xx yy xy d s,
    ieee_mul 8 (x k) (x k) xx /\ ieee_mul 8 (y k) (y k) yy /\ ieee_mul 8 (x k) (y k) xy /\
    ieee_add 8 xx yy (n k) /\ ieee_sub 8 xx yy d /\ ieee_add 8 xy xy s /\
    ieee_add 8 cx d (x (S k)) /\ ieee_add 8 cy s (y (S k)).

(** [r] is the first index below [limit] at which the norm exceeds 4, or [limit]. *)
Definition escapes_at (limit : nat) (n : nat -> datum) (r : nat) : Prop :=
  (r <= limit)%nat /\ (forall k, (k < r)%nat -> ~ ieee_lt (Fin false 4) (n k)) /\
  ((r < limit)%nat -> ieee_lt (Fin false 4) (n r)).

(** [r] is the number of iterations of c before it escapes, at most [limit]. *)
Definition escape_time (limit : nat) (cx cy : datum) (r : nat) : Prop :=
  exists x y n, orbit cx cy x y n /\ escapes_at limit n r.

(** A point of the plane with finite coordinates, not far out. *)
Definition near (cx cy : datum) : Prop :=
  exists s u s' v, cx = Fin s u /\ cy = Fin s' v /\ u * u + v * v <= 7 / 2.

(** [r] is the j-th of the n points that divide the interval from [a] to [b], every
    operation being rounded to f64: a + ((b - a) / n) * j. *)
Definition grid_point (a b : datum) (n j : nat) (r : datum) : Prop :=
  exists range d t,
    ieee_sub 8 b a range /\ ieee_div 8 range (Fin false (IZR (Z.of_nat n))) d /\
    ieee_mul 8 d (Fin false (IZR (Z.of_nat j))) t /\ ieee_add 8 a t r.

(** The default region: -1.5 to 0.5 and -1 to 1. *)
Definition region_left : datum := Fin true (- (3 / 2)).
Definition region_right : datum := Fin false (1 / 2).
Definition region_top : datum := Fin true (- 1).
Definition region_bottom : datum := Fin false 1.
