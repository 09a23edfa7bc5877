(** Vocabulary of the property statements.  It uses the model's data types
    (vector types, lists of lane patterns, outcomes) and none of its functions. *)
From Coq Require Import ZArith List Bool.
From Verif.Model Require Import Base Tables.
Import ListNotations.
Open Scope Z_scope.

(** Bits in a lane of a vector type. *)
Definition width (t : vty) : Z := 8 * Z.of_nat (vb t).

(** A type with at least one byte per lane and a lane count that fits a u32. *)
Definition vector_type (t : vty) : Prop :=
  (0 < vb t)%nat /\ (0 < vn t)%nat /\ Z.of_nat (vn t) < 2 ^ 32.

Definition signed_type (t : vty) : Prop := vkind t = KInt /\ vector_type t.
Definition unsigned_type (t : vty) : Prop := vkind t = KUint /\ vector_type t.
Definition integer_type (t : vty) : Prop := signed_type t \/ unsigned_type t.
Definition mask_type (t : vty) : Prop := vkind t = KMask /\ vector_type t.

(** [v] is a value of the Rust type [t]: the right number of lanes, each lane a
    bit pattern of the lane's width. *)
Definition is_vector (t : vty) (v : vec) : Prop :=
  length v = vn t /\ Forall (fun p => 0 <= p < 2 ^ width t) v.

(** Lane [i] of [v] holds the pattern [p]. *)
Definition lane (v : vec) (i : nat) (p : Z) : Prop := nth_error v i = Some p.

(** The integer a lane's pattern stands for: two's complement for signed lanes. *)
Definition value (t : vty) (p : Z) : Z :=
  match vkind t with
  | KInt => if p <? 2 ^ (width t - 1) then p else p - 2 ^ width t
  | _ => p
  end.

(** The integers the lane type can represent. *)
Definition min_value (t : vty) : Z :=
  match vkind t with KInt => - 2 ^ (width t - 1) | _ => 0 end.
Definition max_value (t : vty) : Z :=
  match vkind t with KInt => 2 ^ (width t - 1) - 1 | _ => 2 ^ width t - 1 end.
Definition in_range (t : vty) (z : Z) : Prop := min_value t <= z <= max_value t.

(** [r] is [z] wrapped around to the lane type: representable, and equal to [z]
    modulo 2^width. *)
Definition wraps_to (t : vty) (z r : Z) : Prop :=
  in_range t r /\ (2 ^ width t | z - r).

(** A true and a false mask lane. *)
Definition true_lane (t : vty) : Z := 2 ^ width t - 1.
Definition false_lane : Z := 0.
Definition mask_lane (t : vty) (c : bool) : Z := if c then true_lane t else false_lane.

(** Every lane of the mask is exactly all-ones or all-zeros. *)
Definition canonical (t : vty) (m : vec) : Prop :=
  length m = vn t /\ Forall (fun p => p = true_lane t \/ p = false_lane) m.

(** The boolean a canonical mask lane stands for. *)
Definition truth (p : Z) : bool := negb (p =? 0).

(** [r] is a vector of type [t'] whose lane i is related by [R] to lane i of [x]
    (and of [y]). *)
Definition lanewise1 (t' : vty) (x r : vec) (R : Z -> Z -> Prop) : Prop :=
  is_vector t' r /\
  forall i a, lane x i a -> exists c, lane r i c /\ R a c.
Definition lanewise2 (t' : vty) (x y r : vec) (R : Z -> Z -> Z -> Prop) : Prop :=
  is_vector t' r /\
  forall i a b, lane x i a -> lane y i b -> exists c, lane r i c /\ R a b c.

(** The pairs of lanes whose quotient is not a value of the lane type: division
    by zero, and MIN / -1 on signed lanes. *)
Definition bad_division (t : vty) (a b : Z) : Prop :=
  value t b = 0 \/ (vkind t = KInt /\ value t a = min_value t /\ value t b = -1).

(** A shift amount that is negative or not below the lane width. *)
Definition bad_amount (t : vty) (b : Z) : Prop := value t b < 0 \/ width t <= value t b.

(** Bit by bit: [c] is [f] applied to the bits of [a] (and [b]). *)
Definition bitwise1 (t : vty) (f : bool -> bool) (a c : Z) : Prop :=
  forall j, 0 <= j < width t -> Z.testbit c j = f (Z.testbit a j).
Definition bitwise2 (t : vty) (f : bool -> bool -> bool) (a b c : Z) : Prop :=
  forall j, 0 <= j < width t -> Z.testbit c j = f (Z.testbit a j) (Z.testbit b j).

(** [c] is [a] with its [width t] bits rotated by [n] positions. *)
Definition rotated_left (t : vty) (a n c : Z) : Prop :=
  forall j, 0 <= j < width t -> Z.testbit c j = Z.testbit a ((j - n) mod width t).
Definition rotated_right (t : vty) (a n c : Z) : Prop :=
  forall j, 0 <= j < width t -> Z.testbit c j = Z.testbit a ((j + n) mod width t).

(** The mask types of the crate (src/v16.rs .. src/v512.rs), the pointer-sized
    ones excepted. *)
Definition mask_types : list vty :=
  [m8x2; m8x4; m8x8; m8x16; m8x32; m8x64; m16x2; m16x4; m16x8; m16x16; m16x32;
   m32x2; m32x4; m32x8; m32x16; m64x2; m64x4; m64x8; m128x1; m128x2; m128x4].

(** The shape of [t] is one the crate defines a mask for. *)
Definition crate_shape (t : vty) : Prop := In (V KMask (vb t) (vn t)) mask_types.

(** Integer and mask types, whose lanes are totally ordered; and their values
    (mask values are canonical). *)
Definition ordered_type (t : vty) : Prop := integer_type t \/ mask_type t.
Definition valid (t : vty) (v : vec) : Prop :=
  is_vector t v /\ (vkind t = KMask -> canonical t v).

(** Position of a lane in the order of its type; false < true for masks. *)
Definition key (t : vty) (p : Z) : Z :=
  match vkind t with
  | KMask => if truth p then 1 else 0
  | _ => value t p
  end.

(** Lexicographic order: the first lane that differs decides. *)
Definition lex_less (t : vty) (x y : vec) : Prop :=
  exists i a b, lane x i a /\ lane y i b /\ key t a < key t b /\
    forall j p q, (j < i)%nat -> lane x j p -> lane y j q -> p = q.
