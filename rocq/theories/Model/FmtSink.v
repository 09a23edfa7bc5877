(** Formatting into a writer that may fail (src/api/fmt/*.rs, src/api/minimal/ptr.rs,
    src/masks.rs).  A writer is a state and [write_str], which gives the new state and whether it
    succeeded; a failed write may also have changed the state. *)
From Coq Require Import ZArith List Bool Ascii String.
From Verif.Model Require Import Base Minimal ScalarMask Fmt.
Import ListNotations.
Open Scope Z_scope.

Section Writer.
  Context {S : Type}.
  Variable write_str : S -> text -> S * bool.

  (** [write!] and the elements' own implementations (core): some strings are written one
      after the other, until one fails. *)
  Fixpoint write_all (l : list text) (s : S) : S * bool :=
    match l with
    | [] => (s, true)
    | p :: l' => let (s', ok) := write_str s p in if ok then write_all l' s' else (s', false)
    end.

  (** [e?; k] for a formatting result [e]: a failure is returned at once. *)
  Definition try_write (e : S * bool) (k : S -> outcome (S * bool)) : outcome (S * bool) :=
    let (s, ok) := e in if ok then k s else Ok (s, false).

  (** The loop over the lanes (src/api/fmt/debug.rs:50-55; the same in lower_hex.rs, upper_hex.rs,
      octal.rs, binary.rs and ptr.rs:220-225).  [lane_writes x] is what the element [x] writes. *)
  Fixpoint fmt_loop {A} (get : nat -> outcome A) (lane_writes : A -> list text) (count i : nat) (s : S)
      (after : S -> outcome (S * bool)) : outcome (S * bool) :=
    match count with
    | O => after s
    | Datatypes.S c =>
        try_write (if Nat.ltb 0 i then write_all [str ", "] s else (s, true)) (fun s =>
        x <- get i ;;
        try_write (write_all (lane_writes x) s) (fun s =>
        fmt_loop get lane_writes c (Datatypes.S i) s after))
    end.

  (** [fmt] (debug.rs:48-57); [prefix] are the strings of the first [write!]. *)
  Definition fmt_lanes_to {A} (prefix : list text) (n : nat) (get : nat -> outcome A) (lane_writes : A -> list text) (s : S)
    : outcome (S * bool) :=
    try_write (write_all (prefix ++ [str "("])%list s) (fun s =>
    fmt_loop get lane_writes n 0 s (fun s => Ok (write_all [str ")"] s))).

  (** Integer and float vectors. *)
  Definition fmt_vec_to (name : text) (t : vty) (lane_writes : Z -> list text) (v : vec) : S -> outcome (S * bool) :=
    fmt_lanes_to [name] (vn t) (fun i => extract t v (Z.of_nat i)) lane_writes.
  (** Pointer vectors (src/api/minimal/ptr.rs:210-228). *)
  Definition fmt_ptr_to (name elem : text) (t : vty) (lane_writes : Z -> list text) (v : vec) : S -> outcome (S * bool) :=
    fmt_lanes_to [name; str "<"; elem; str ">"] (vn t) (fun i => extract t v (Z.of_nat i)) lane_writes.
  (** Mask vectors. *)
  Definition fmt_mask_to (name : text) (t : vty) (lane_writes : bool -> list text) (v : vec) : S -> outcome (S * bool) :=
    fmt_lanes_to [name] (vn t) (fun i => mask_extract t v (Z.of_nat i)) lane_writes.
  (** Debug of a scalar mask (src/masks.rs:105-110). *)
  Definition fmt_smask_to (name : text) (p : Z) (s : S) : S * bool :=
    write_all [name; str "("; fmt_bool (negb (p =? 0)); str ")"] s.
End Writer.
