(** Byte images: [mem::transmute], unions and pointer copies. *)
From Coq Require Import ZArith List Bool.
From Verif.Model Require Import Base.
Import ListNotations.
Open Scope Z_scope.

(** The [b] bytes of a pattern, least significant first. *)
Fixpoint le_bytes (b : nat) (p : Z) : list Z :=
  match b with
  | O => []
  | S b' => p mod 256 :: le_bytes b' (p / 256)
  end.
Fixpoint le_value (l : list Z) : Z :=
  match l with
  | [] => 0
  | x :: l' => x + 256 * le_value l'
  end.

(** One lane in memory, for either byte order. *)
Definition lane_bytes (be : bool) (b : nat) (p : Z) : list Z :=
  if be then rev (le_bytes b p) else le_bytes b p.
Definition lane_value (be : bool) (l : list Z) : Z :=
  if be then le_value (rev l) else le_value l.

(** A vector in memory: lane 0 at the lowest address, whatever the byte order
    (tests/endianness.rs:30-113). *)
Definition image (be : bool) (b : nat) (v : vec) : list Z :=
  flat_map (lane_bytes be b) v.

(** [n] consecutive groups of [b] bytes. *)
Fixpoint groups (n b : nat) (l : list Z) : list (list Z) :=
  match n with
  | O => []
  | S n' => firstn b l :: groups n' b (skipn b l)
  end.
Definition of_image (be : bool) (b n : nat) (l : list Z) : vec :=
  map (lane_value be) (groups n b l).

(** [mem::transmute] from lanes of [b] bytes to [n'] lanes of [b'] bytes. *)
Definition transmute (be : bool) (b b' n' : nat) (v : vec) : vec :=
  of_image be b' n' (image be b v).

(** Memory: a partial map from addresses to bytes. [None]: not accessible. *)
Definition mem := Z -> option Z.

(** Raw load / store of consecutive bytes; inaccessible bytes are UB. *)
Fixpoint load_bytes (m : mem) (a : Z) (n : nat) : outcome (list Z) :=
  match n with
  | O => Ok []
  | S n' =>
      match m a with
      | None => UB
      | Some x => r <- load_bytes m (a + 1) n' ;; Ok (x :: r)
      end
  end.
Definition set_byte (m : mem) (a x : Z) : mem :=
  fun a' => if a' =? a then Some x else m a'.
Fixpoint store_bytes (m : mem) (a : Z) (l : list Z) : outcome mem :=
  match l with
  | [] => Ok m
  | x :: l' =>
      match m a with
      | None => UB
      | Some _ => store_bytes (set_byte m a x) (a + 1) l'
      end
  end.

(** Typed raw access to one lane ([*p] and [*p = x] for a lane type of [b]
    bytes). *)
Definition load_lane (be : bool) (b : nat) (m : mem) (a : Z) : outcome Z :=
  l <- load_bytes m a b ;; Ok (lane_value be l).
Definition store_lane (be : bool) (b : nat) (m : mem) (a p : Z) : outcome mem :=
  store_bytes m a (lane_bytes be b p).

(** A slice [&[T]]: base address and length. *)
Record slice := { s_ptr : Z; s_len : nat }.

(** [ptr.align_offset(a) == 0] (core): the address is a multiple of [a]. *)
Definition aligned (p a : Z) : bool := p mod a =? 0.
