(** The random number generators of the ambient occlusion example
    (examples/aobench/src/random.rs). *)
From Coq Require Import ZArith List Bool.
From Verif.Model Require Import Base FloatLane Llvm Tables Minimal Ops.
Import ListNotations.
Open Scope Z_scope.

(** ** The scalar generator *)

(** RngT (random.rs:17): four u32. *)
Definition rng : Type := (Z * Z * Z * Z)%type.

(** [x << n] and [x >> n] on u32, for constants below 32. *)
Definition u32_shl (x n : Z) : Z := wrap 4 (Z.shiftl x n).
Definition u32_shr (x n : Z) : Z := Z.shiftr x n.

(** RngT::from_seed (random.rs:20-29). *)
Definition from_seed (x : Z) : rng :=
  let z0 := x in
  let z1 := Z.lxor x 0xbeeff00d in
  let z2 := Z.lor (u32_shl (Z.land x 0xffff) 16) (u32_shr x 16) in
  let z3 := Z.lor (Z.lor (Z.lor (u32_shl (Z.land x 0xff) 24) (u32_shl (Z.land x 0xff00) 8))
                         (u32_shr (Z.land x 0x00ff0000) 8))
                  (u32_shr (Z.land x 0xff000000) 24) in
  (z0, z1, z2, z3).

(** RngT::gen_u32 (random.rs:31-41): the number and the new state. *)
Definition gen_u32 (r : rng) : Z * rng :=
  let '(r0, r1, r2, r3) := r in
  let b := u32_shr (Z.lxor (u32_shl r0 6) r0) 13 in
  let r0 := Z.lxor (u32_shl (Z.land r0 4294967294) 18) b in
  let b := u32_shr (Z.lxor (u32_shl r1 2) r1) 27 in
  let r1 := Z.lxor (u32_shl (Z.land r1 4294967288) 2) b in
  let b := u32_shr (Z.lxor (u32_shl r2 13) r2) 21 in
  let r2 := Z.lxor (u32_shl (Z.land r2 4294967280) 7) b in
  let b := u32_shr (Z.lxor (u32_shl r3 3) r3) 12 in
  let r3 := Z.lxor (u32_shl (Z.land r3 4294967168) 13) b in
  (Z.lxor (Z.lxor (Z.lxor r0 r1) r2) r3, (r0, r1, r2, r3)).

(** RngT::gen (random.rs:43-48) and RngH::gen (random.rs:57-59).  [f32::from_bits] keeps the
    pattern. *)
Definition gen (r : rng) : Z * rng :=
  let (v, r) := gen_u32 r in
  let v := Z.land v (u32_shl 1 23 - 1) in
  let v := Z.lor 0x3F800000 v in
  (fl_sub 4 v (fl_of_int 4 1), r).

(** The state behind [thread_rng()] (random.rs:62-66). *)
Definition thread_rng : rng := from_seed 1.

(** A user of the generator: [n] calls of [gen] in a row, oldest first, and the state after
    them. *)
Fixpoint gens (n : nat) (r : rng) : list Z * rng :=
  match n with
  | O => ([], r)
  | S n => let (v, r) := gen r in let (l, r) := gens n r in (v :: l, r)
  end.

(** ** The vector generator *)

(** u32xN and f32xN (geometry/mod.rs:23-41): [wide] is the feature [256bit]. *)
Definition u32xN (wide : bool) : vty := if wide then u32x8 else u32x4.
Definition f32xN (wide : bool) : vty := if wide then f32x8 else f32x4.

(** RngT (random.rs:81). *)
Definition vrng : Type := (vec * vec * vec * vec)%type.

Section Vector.
  Variable wide : bool.
  Local Notation u := (u32xN wide).
  Local Notation f := (f32xN wide).

  (** RngT::from_seed (random.rs:84-93). *)
  Definition vfrom_seed (x : vec) : outcome vrng :=
    let z0 := x in
    let z1 := bitxor u x (splat u 0xbeeff00d) in
    a <- shl_scalar u (bitand u x (splat u 0xffff)) 16 ;;
    b <- shr_scalar u x 16 ;;
    let z2 := bitor u a b in
    a <- shl_scalar u (bitand u x (splat u 0xff)) 24 ;;
    b <- shl_scalar u (bitand u x (splat u 0xff00)) 8 ;;
    c <- shr_scalar u (bitand u x (splat u 0x00ff0000)) 8 ;;
    d <- shr_scalar u (bitand u x (splat u 0xff000000)) 24 ;;
    let z3 := bitor u (bitor u (bitor u a b) c) d in
    Ok (z0, z1, z2, z3).

  (** RngT::gen_u32 (random.rs:96-106). *)
  Definition vgen_u32 (r : vrng) : outcome (vec * vrng) :=
    let '(r0, r1, r2, r3) := r in
    s <- shl_scalar u r0 6 ;;
    b <- shr_scalar u (bitxor u s r0) 13 ;;
    s <- shl_scalar u (bitand u r0 (splat u 4294967294)) 18 ;;
    let r0 := bitxor u s b in
    s <- shl_scalar u r1 2 ;;
    b <- shr_scalar u (bitxor u s r1) 27 ;;
    s <- shl_scalar u (bitand u r1 (splat u 4294967288)) 2 ;;
    let r1 := bitxor u s b in
    s <- shl_scalar u r2 13 ;;
    b <- shr_scalar u (bitxor u s r2) 21 ;;
    s <- shl_scalar u (bitand u r2 (splat u 4294967280)) 7 ;;
    let r2 := bitxor u s b in
    s <- shl_scalar u r3 3 ;;
    b <- shr_scalar u (bitxor u s r3) 12 ;;
    s <- shl_scalar u (bitand u r3 (splat u 4294967168)) 13 ;;
    let r3 := bitxor u s b in
    Ok (bitxor u (bitxor u (bitxor u r0 r1) r2) r3, (r0, r1, r2, r3)).

  (** RngT::gen (random.rs:109-115) and RngH::gen (random.rs:125-127).  [transmute] between
      vectors of equally wide lanes keeps the lanes. *)
  Definition vgen (r : vrng) : outcome (vec * vrng) :=
    vr <- vgen_u32 r ;;
    let (v, r) := vr in
    let v := bitand_assign u v (splat u (u32_shl 1 23 - 1)) in
    let v := bitor u (splat u 0x3F800000) v in
    Ok (sub f v (splat f (fl_of_int 4 1)), r).

  (** [<u32xN as IncrV>::incr(0, 1)] (geometry/mod.rs:76-97). *)
  Definition incr01 : vec := map Z.of_nat (seq 0 (vn u)).

  (** The state behind [thread_rng()] (random.rs:130-134). *)
  Definition vthread_rng : outcome vrng := vfrom_seed incr01.

  (** [n] calls of [gen] in a row, oldest first. *)
  Fixpoint vgens (n : nat) (r : vrng) : outcome (list vec * vrng) :=
    match n with
    | O => Ok ([], r)
    | S n =>
        vr <- vgen r ;;
        let (v, r) := vr in
        lr <- vgens n r ;;
        let (l, r) := lr in
        Ok (v :: l, r)
    end.
End Vector.
