(** [shuffle!] (src/api/shuffle.rs, src/codegen/shuffle.rs, src/codegen/llvm.rs:8-70). *)
From Coq Require Import ZArith List Bool.
From Verif.Model Require Import Base Llvm.
Import ListNotations.
Open Scope nat_scope.

(** The lengths of index lists the macro accepts (src/api/shuffle.rs:75-178). *)
Definition shuffle_arity (n : nat) : bool := existsb (Nat.eqb n) [2; 4; 8; 16; 32; 64].

(** The numbers of lanes with an [impl_shuffle!] for the element type
    (src/codegen/shuffle.rs): i8 16-21, u8 23-28, m8 30-35, i16 37-41, u16 43-47, m16
    49-52, i32 54-57, u32 59-62, f32 64-67, m32 69-72, i64 77-79, u64 84-86, f64
    91-93, m64 98-100, isize/usize/msize 102-112, pointers 114-138, i128/u128/m128
    140-150.  [sz]: a pointer-sized element. *)
Definition shuffle_lanes (sz : bool) (k : kind) (b : nat) : list nat :=
  if sz then [2; 4; 8]
  else match b, k with
       | 1, KFloat => []
       | 1, _ => [2; 4; 8; 16; 32; 64]
       | 2, KFloat => []
       | 2, KMask => [2; 4; 8; 16]
       | 2, _ => [2; 4; 8; 16; 32]
       | 4, _ => [2; 4; 8; 16]
       | 8, _ => [2; 4; 8]
       | 16, KFloat => []
       | 16, _ => [1; 2; 4]
       | _, _ => []
       end.

(** [shuffle!(x, y, [i0, i1, ..])] (src/api/shuffle.rs:74-178): the result type and
    the result; [None]: the invocation does not compile. *)
Definition shuffle2 (sz : bool) (t : vty) (x y : vec) (idx : list nat) : option (vty * vec) :=
  let n := length idx in
  if shuffle_arity n && existsb (Nat.eqb n) (shuffle_lanes sz (vkind t) (vb t)) then
    match simd_shuffle x y idx with
    | Some r => Some (V (vkind t) (vb t) n, r)
    | None => None
    end
  else None.

(** [shuffle!(x, [i0, i1, ..])] (179-183). *)
Definition shuffle1 (sz : bool) (t : vty) (x : vec) (idx : list nat) : option (vty * vec) :=
  shuffle2 sz t x x idx.

(** A [shuffle!] used in the crate's own code; the case of an invocation that does
    not compile is mapped to [UB] and shown not to arise. *)
Definition shuffled (r : option (vty * vec)) : outcome vec :=
  match r with Some (_, v) => Ok v | None => UB end.
