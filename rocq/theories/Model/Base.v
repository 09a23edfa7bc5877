(** Execution outcomes, lanes and vectors. *)
From Coq Require Import ZArith List Bool.
Import ListNotations.
Open Scope Z_scope.

(** How a call ends.  [Panic]: a failed [assert!] / unwinding panic.  [UB]: a
    violated precondition of a compiler intrinsic, of a raw memory access or of
    [unreachable_unchecked].  LLVM poison is treated as [UB] at the operation
    that creates it (simplification: poison is lazier than that). *)
Inductive outcome (A : Type) : Type :=
| Ok (a : A)
| Panic
| UB.
Arguments Ok {A} a.
Arguments Panic {A}.
Arguments UB {A}.

Definition bind {A B} (x : outcome A) (k : A -> outcome B) : outcome B :=
  match x with
  | Ok a => k a
  | Panic => Panic
  | UB => UB
  end.

Notation "x <- e ;; k" := (bind e (fun x => k))
  (at level 61, e at next level, right associativity).

(** Rust's [assert!(c)]. *)
Definition assert (c : bool) : outcome unit := if c then Ok tt else Panic.

(** [for i in start .. start+count { acc = body(i, acc) }] *)
Fixpoint for_loop {A} (count : nat) (start : nat) (acc : A)
    (body : nat -> A -> outcome A) : outcome A :=
  match count with
  | O => Ok acc
  | S c => acc' <- body start acc ;; for_loop c (S start) acc' body
  end.

Fixpoint map2 {A B C} (f : A -> B -> C) (l : list A) (r : list B) : list C :=
  match l, r with
  | x :: l', y :: r' => f x y :: map2 f l' r'
  | _, _ => []
  end.

(** All lanes must be defined, otherwise the whole operation is [UB]. *)
Fixpoint all_ok {A} (l : list (option A)) : outcome (list A) :=
  match l with
  | [] => Ok []
  | None :: _ => UB
  | Some x :: l' => r <- all_ok l' ;; Ok (x :: r)
  end.

Fixpoint update {A} (l : list A) (i : nat) (x : A) : list A :=
  match l, i with
  | [], _ => []
  | _ :: l', O => x :: l'
  | y :: l', S i' => y :: update l' i' x
  end.

(** Number of bits of a lane of [b] bytes, and the modulus 2^bits. *)
Definition bits (b : nat) : Z := 8 * Z.of_nat b.
Definition modulus (b : nat) : Z := 2 ^ bits b.

(** A vector is the list of its lanes' bit patterns, lane 0 first
    (src/lib.rs: [Simd<A>], src/codegen.rs:11-34). *)
Definition vec := list Z.

(** Patterns of the right size: what a Rust value of the lane type is. *)
Definition pattern (b : nat) (x : Z) : Prop := 0 <= x < modulus b.
Definition wf (b n : nat) (v : vec) : Prop := length v = n /\ Forall (pattern b) v.

(** Two's complement reading of a pattern. *)
Definition sval (b : nat) (x : Z) : Z :=
  if x <? 2 ^ (bits b - 1) then x else x - modulus b.

(** Pattern of a mathematical integer (Rust's wrapping). *)
Definition wrap (b : nat) (x : Z) : Z := x mod modulus b.

(** Lane kinds.  A mask lane is stored as a signed integer lane
    (src/codegen/v*.rs, src/masks.rs:14-20), a pointer as a [usize]. *)
Inductive kind := KInt | KUint | KFloat | KMask | KPtr.

Definition kind_eqb (a b : kind) : bool :=
  match a, b with
  | KInt, KInt | KUint, KUint | KFloat, KFloat | KMask, KMask | KPtr, KPtr => true
  | _, _ => false
  end.

(** Does LLVM treat the lanes as signed integers? *)
Definition is_signed (k : kind) : bool :=
  match k with KInt | KMask => true | _ => false end.

(** Integer reading of a lane of kind [k] ([KInt], [KMask] signed; [KUint],
    [KPtr] unsigned; for [KFloat] the raw pattern). *)
Definition ival (k : kind) (b : nat) (x : Z) : Z :=
  if is_signed k then sval b x else x.

(** All-ones / all-zeros lane. *)
Definition ones (b : nat) : Z := modulus b - 1.
Definition mlane (b : nat) (c : bool) : Z := if c then ones b else 0.

(** A vector type: [kind], bytes per lane, number of lanes. *)
Record vty := V { vkind : kind; vb : nat; vn : nat }.

(** Compilation target: the cfg values that the crate's source tests. *)
Inductive arch :=
| X86 | X86_64 | Arm | Aarch64 | Wasm32 | Powerpc64 | S390x | OtherArch.

Record target := {
  t_arch : arch;
  t_big_endian : bool;
  t_ptr : nat;               (* pointer width in bytes *)
  t_sse : bool; t_sse2 : bool; t_sse41 : bool; t_sse42 : bool;
  t_ssse3 : bool; t_avx : bool; t_avx2 : bool;
  t_neon : bool; t_v7 : bool;
  t_core_arch : bool;        (* feature = "core_arch" or libcore_neon *)
  t_sleef : bool;            (* feature = "sleef-sys" *)
  t_debug : bool             (* debug assertions *)
}.
