(** Vocabulary for the images of the ambient occlusion example. *)
From Coq Require Import ZArith List Bool Reals.
From Flocq Require Import Core.
From Verif.Model Require Import Base Tables MathTables Math ExRandom ExGeometry ExIntersect ExOcclusion.
From Verif.Spec Require Import Spec Floats MathSpec Stencil Rays Occlusion.
Import ListNotations.
Open Scope Z_scope.

(** ** Doing something for each element of a list, with a state *)
Inductive in_turn {A B St} (R : A -> St -> B -> St -> Prop) : list A -> St -> list B -> St -> Prop :=
| in_turn_nil st : in_turn R [] st [] st
| in_turn_cons a l st b st1 bs st' : R a st b st1 -> in_turn R l st1 bs st' -> in_turn R (a :: l) st (b :: bs) st'.

(** ** Rays through the pixels *)
Definition whole (n : nat) : datum := Fin false (INR n).

(** How far into the pixel ray [u] of [ns] goes: u / ns, or u times 1 / ns. *)
Definition part_of (ns u : nat) (a : datum) : Prop := ieee_div 4 (whole u) (whole ns) a.
Definition times_part (ns u : nat) (a : datum) : Prop :=
  exists i, ieee_div 4 one (whole ns) i /\ ieee_mul 4 (whole u) i a.

(** The direction through pixel (x, y) of an image of w times h pixels:
    (((x + a - w/2) / (w/2)) w / h, - (y + b - h/2) / (h/2), -1), every operation rounded. *)
Definition view (part : nat -> nat -> datum -> Prop) (w h ns : nat) (x y u v : nat) (d : point) : Prop :=
  exists a b hw hh x1 x2 x3 x4 x5 y1 y2 y3,
    part ns u a /\ part ns v b /\ ieee_div 4 (whole w) (whole 2) hw /\ ieee_div 4 (whole h) (whole 2) hh /\
    ieee_add 4 (whole x) a x1 /\ ieee_sub 4 x1 hw x2 /\ ieee_div 4 x2 hw x3 /\ ieee_mul 4 x3 (whole w) x4 /\ ieee_div 4 x4 (whole h) x5 /\
    ieee_add 4 (whole y) b y1 /\ ieee_sub 4 y1 hh y2 /\ ieee_div 4 (negated y2) hh y3 /\
    d = (x5, y3, Fin true (-1)).
(** The same in another order: ((x + (a - w/2)) / ((w/2) h / w), - (y + (b - h/2)) / (h/2), -1). *)
Definition view_tiled (w h ns : nat) (x y u v : nat) (d : point) : Prop :=
  exists a b hw hh x1 x2 x3 x4 x5 y1 y2 y3,
    times_part ns u a /\ times_part ns v b /\ ieee_div 4 (whole w) (whole 2) hw /\ ieee_div 4 (whole h) (whole 2) hh /\
    ieee_sub 4 a hw x1 /\ ieee_add 4 (whole x) x1 x2 /\ ieee_mul 4 hw (whole h) x3 /\ ieee_div 4 x3 (whole w) x4 /\ ieee_div 4 x2 x4 x5 /\
    ieee_sub 4 b hh y1 /\ ieee_add 4 (whole y) y1 y2 /\ ieee_div 4 (negated y2) hh y3 /\
    d = (x5, y3, Fin true (-1)).

(** What a ray from the origin in direction [d] meets first. *)
Definition sees (dot : dotter) (mad : mul_adder) (obs : list object) (d : point) (i : isect) : Prop :=
  exists r, r_origin r = v3_0 /\ unit_vector dot d (point_of (r_dir r)) /\ nearest dot mad r obs isect_0 i.

(** ** What one ray adds to the image *)

(** [occlusion i st c st']: the ambient occlusion of point [i] is [c], with random numbers that lead from [st] to
    [st'] (C68). *)
Definition occlusion_scalar {St} (cosine sine : datum -> datum -> Prop) (sc : scene St) (i : isect) (st : St) (c : datum) (st' : St) : Prop :=
  exists l hs, draws (sc_rand sc) st l st' /\ length l = (2 * (nao sc * nao sc))%nat /\
    Forall2 (fun p h => sampled left_to_right left_to_right rounded_twice cosine sine (objects sc) i (fst p) (snd p) h) (pairs l) hs /\
    free_share (nao sc * nao sc) hs c.
Definition occlusion_vector {St} (wide : bool) (mad : mul_adder) (cosine sine : datum -> datum -> Prop) (sc : scene St)
    (i : isect) (st : St) (c : datum) (st' : St) : Prop :=
  exists ps hs, draws (sc_rands sc) st ps st' /\ are_packets wide ps /\
    length ps = (nao sc * ((nao sc + vn (f32xN wide) - 1) / vn (f32xN wide)))%nat /\
    Forall2 (fun p h => sampled left_to_right (nested mad) mad cosine sine (objects sc) i (fst p) (snd p) h) (concat (map lane_pairs ps)) hs /\
    free_share (nao sc * nao sc) hs c.

(** The ray through pixel (x, y) at (u, v): nothing if it meets no object. *)
Definition ray_seen {St} (occlusion : isect -> St -> datum -> St -> Prop) (direction : nat -> nat -> nat -> nat -> point -> Prop)
    (obs : list object) (x y : nat) (uv : nat * nat) (st : St) (c : datum) (st' : St) : Prop :=
  exists d i, direction x y (fst uv) (snd uv) d /\ sees left_to_right rounded_twice obs d i /\
    ((i_hit i = false /\ c = zero /\ st' = st) \/ (i_hit i = true /\ occlusion i st c st')).

(** All rays of a pixel, u first. *)
Definition grid (a b : nat) : list (nat * nat) := list_prod (seq 0 a) (seq 0 b).
Definition pixel_seen {St} (occlusion : isect -> St -> datum -> St -> Prop) (direction : nat -> nat -> nat -> nat -> point -> Prop)
    (obs : list object) (ns : nat) (yx : nat * nat) (st : St) (cs : list datum) (st' : St) : Prop :=
  in_turn (ray_seen occlusion direction obs (snd yx) (fst yx)) (grid ns ns) st cs st'.

(** Adding numbers one after the other, every sum rounded. *)
Inductive added : datum -> list datum -> datum -> Prop :=
| added_nil a : added a [] a
| added_cons a c cs s r : ieee_add 4 a c s -> added s cs r -> added a (c :: cs) r.

(** What becomes of a component of a pixel: the mean of what the rays see is added ([scalar] divides all, [vector]
    scales what it adds). *)
Definition divided (ns : nat) (p : datum) (cs : list datum) (q : datum) : Prop :=
  exists s, added p cs s /\ ieee_div 4 s (whole (ns * ns)) q.
Definition scaled (ns : nat) (p : datum) (cs : list datum) (q : datum) : Prop :=
  exists i ds, ieee_div 4 one (whole ns) i /\
    Forall2 (fun c d => exists e, ieee_mul 4 c i e /\ ieee_mul 4 e i d) cs ds /\ added p ds q.

(** ** N pixels at once *)

(** The rays through N pixels of row y, the first of which is x, at (u, v).  [cs] has a value for every pixel whose ray
    meets an object.  If none does, no random numbers are drawn; otherwise lane k of the packets belongs to pixel
    x + k. *)
Definition packet_seen {St} (wide : bool) (mad : mul_adder) (cosine sine : datum -> datum -> Prop) (sc : scene St)
    (w h ns x y : nat) (uv : nat * nat) (st : St) (cs : list (option datum)) (st' : St) : Prop :=
  exists is_ : list isect, length is_ = vn (f32xN wide) /\ length cs = vn (f32xN wide) /\
    (forall k i, nth_error is_ k = Some i ->
       exists d, view_tiled w h ns (x + k) y (fst uv) (snd uv) d /\ sees (nested mad) mad (objects sc) d i) /\
    ((Forall (fun i => i_hit i = false) is_ /\ Forall (fun c => c = None) cs /\ st' = st) \/
     (Exists (fun i => i_hit i = true) is_ /\ exists ps, draws (sc_rands sc) st ps st' /\ are_packets wide ps /\
        length ps = (nao sc * nao sc)%nat /\
        forall k i, nth_error is_ k = Some i ->
          (i_hit i = false /\ nth_error cs k = Some None) \/
          (i_hit i = true /\ exists hs c, nth_error cs k = Some (Some c) /\
             Forall2 (fun p h => sampled (nested mad) (nested mad) mad cosine sine (objects sc) i (nth k (fst p) 0) (nth k (snd p) 0) h) ps hs /\
             free_share (nao sc * nao sc) hs c))).
(** All rays of the N pixels; packet number j of row y begins at pixel j N. *)
Definition packets_seen {St} (wide : bool) (mad : mul_adder) (cosine sine : datum -> datum -> Prop) (sc : scene St)
    (w h ns : nat) (yj : nat * nat) (st : St) (csl : list (list (option datum))) (st' : St) : Prop :=
  in_turn (packet_seen wide mad cosine sine sc w h ns (snd yj * vn (f32xN wide))%nat (fst yj)) (grid ns ns) st csl st'.
(** What the N pixels see, one after the other. *)
Definition pixels_of (wide : bool) (csl : list (list (option datum))) : list (list (option datum)) :=
  map (fun k => map (fun cs => nth k cs None) csl) (seq 0 (vn (f32xN wide))).
(** A component of a pixel: the values are scaled and added. *)
Fixpoint hits (cs : list (option datum)) : list datum :=
  match cs with
  | [] => []
  | Some c :: cs => c :: hits cs
  | None :: cs => hits cs
  end.
Definition scaled_hits (ns : nat) (p : datum) (cs : list (option datum)) (q : datum) : Prop :=
  exists i ii ds, ieee_div 4 one (whole ns) i /\ ieee_mul 4 i i ii /\
    Forall2 (fun c d => ieee_mul 4 c ii d) (hits cs) ds /\ added p ds q.

(** A pixel whose ray sees nothing is black. *)
Definition or_black (c : option datum) : datum := match c with Some c => c | None => zero end.

(** A schedule of the rows 0 to h - 1: each gets at least k turns. *)
Definition complete (h k : nat) (schedule : list nat) : Prop :=
  Forall (fun y => (y < h)%nat) schedule /\ forall y, (y < h)%nat -> (k <= count_occ Nat.eq_dec schedule y)%nat.

(** ** Images *)

(** The components of pixel number k are at 3 k, 3 k + 1 and 3 k + 2; [css] has what each pixel sees. *)
Definition painted {A} (becomes : datum -> A -> datum -> Prop) (old : list Z) (css : list A) (new : list Z) : Prop :=
  length new = length old /\ Forall is_f32 new /\
  forall k c cs p q, (c < 3)%nat -> nth_error css k = Some cs ->
    nth_error old (3 * k + c) = Some p -> nth_error new (3 * k + c) = Some q -> becomes (f32_datum p) cs (f32_datum q).

(** Scenes whose random numbers never run out: [ok] is kept, and numbers are f32. *)
Definition endless {St} (sc : scene St) (ok : St -> Prop) : Prop :=
  forall st, ok st -> exists v st1, sc_rand sc st = Ok (v, st1) /\ is_f32 v /\ ok st1.
Definition endless_packets {St} (wide : bool) (sc : scene St) (ok : St -> Prop) : Prop :=
  forall st, ok st -> exists a b st1, sc_rands sc st = Ok (a, b, st1) /\
    is_vector (f32xN wide) a /\ is_vector (f32xN wide) b /\ ok st1.

(** The mean of numbers, exactly. *)
Definition mean_of (cs : list datum) (r : datum) : Prop :=
  exists xs, cs = map (Fin false) xs /\ r = Fin false (fold_right Rplus 0%R xs / INR (length xs)).
(** An image of n pixels in which every component is exactly the mean of what the four rays of the pixel see, a
    multiple of 1/256. *)
Definition averages (n : nat) (css : list (list datum)) (new : list Z) : Prop :=
  length css = n /\ length new = (3 * n)%nat /\ Forall is_f32 new /\
  forall k c cs q, (c < 3)%nat -> nth_error css k = Some cs -> nth_error new (3 * k + c) = Some q ->
    length cs = 4%nat /\ mean_of cs (f32_datum q) /\ exists m, (m <= 256)%nat /\ f32_datum q = Fin false (INR m / 256).

(** ** Bytes *)

(** 255.5 x rounded and truncated, and made a byte; a number that isize cannot hold has no byte. *)
Definition shade (x : datum) (byte : Z) : Prop :=
  exists s u, ieee_mul 4 x (Fin false (511 / 2)) (Fin s u) /\ - 2 ^ 63 <= Ztrunc u < 2 ^ 63 /\ byte = Z.max 0 (Z.min 255 (Ztrunc u)).
