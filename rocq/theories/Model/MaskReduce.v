(** Horizontal mask reductions [all], [any], [none]
    (src/api/reductions/mask.rs, src/codegen/reductions/mask.rs and below). *)
From Coq Require Import ZArith List Bool.
From Verif.Model Require Import Base Llvm Bytes Arch.
Import ListNotations.
Open Scope Z_scope.

(** The implementation macros. *)
Inductive mimpl :=
| AsInts (w : nat)          (* transmute to [u(8w); _], compare with MAX / 0 *)
| ToOther (b n : nat)       (* fallback_to_other_impl! *)
| RecurseHalf               (* recurse_half! *)
| Movemask (w : nat) (full : Z) (* movemask on w-byte lanes, compared as i32 with full / 0 *)
| TestCZ                    (* avx testc / testz *)
| Intrinsic                 (* simd_reduce_all / simd_reduce_any *)
| MinMaxV128                (* aarch64 128-bit vminv / vmaxv *)
| MinMaxV64                 (* aarch64 64-bit, duplicated *)
| PMin.                     (* arm v7 pairwise min / max *)

(** codegen/reductions/mask/fallback_impl.rs:22-210 (macro fallback_impl!):
    m8x2 25-40, m8x4 42-57, m16x2 58-60, m8x8 62-77, m16x4 78-80, m32x2 81-83,
    m8x16 86-101, m16x8 102-104, m32x4 105-107, m64x2 108-110, m128x1 111-113,
    m8x32 115-132, m16x16 133-135, m32x8 136-138, m64x4 139-141, m128x2 142-144,
    m8x64 146-163, m16x32 164-166, m32x16 167-169, m64x8 170-172, m128x4 173-175.
    The msize arms are in [msize_other]. *)
Definition fallback_impl (b n : nat) : option mimpl :=
  match b, n with
  | 1, 2 => Some (AsInts 2)
  | 1, 4 => Some (AsInts 4)
  | 2, 2 => Some (ToOther 1 4)
  | 1, 8 => Some (AsInts 8)
  | 2, 4 => Some (ToOther 1 8)
  | 4, 2 => Some (ToOther 2 4)
  | 1, 16 => Some (AsInts 16)
  | 2, 8 => Some (ToOther 1 16)
  | 4, 4 => Some (ToOther 2 8)
  | 8, 2 => Some (ToOther 4 4)
  | 16, 1 => Some (ToOther 8 2)
  | 1, 32 => Some (AsInts 16)
  | 2, 16 => Some (ToOther 1 32)
  | 4, 8 => Some (ToOther 2 16)
  | 8, 4 => Some (ToOther 4 8)
  | 16, 2 => Some (ToOther 8 4)
  | 1, 64 => Some (AsInts 16)
  | 2, 32 => Some (ToOther 1 64)
  | 4, 16 => Some (ToOther 2 32)
  | 8, 8 => Some (ToOther 4 16)
  | 16, 4 => Some (ToOther 8 8)
  | _, _ => None
  end%nat.

(** codegen/reductions/mask/x86.rs: m8x8, m16x4, m32x2 20-24; m8x16 / m16x8 27-37,
    m32x4 40-50, m64x2 53-65, m8x32 / m16x16 68-82, m32x8 85-97, m64x4 100-112,
    m128x1 / m128x2 115-132, dispatch 134-216.  The compared constants are those of
    x86/sse.rs:19, x86/sse2.rs:19 and 52, x86/avx.rs:47 and 79, x86/avx2.rs:19. *)
Definition x86_impl (t : target) (b n : nat) : option mimpl :=
  match b, n with
  | 1, 16 | 2, 8 => if t_sse2 t then Some (Movemask 1 65535) else fallback_impl b n
  | 4, 4 => if t_sse t then Some (Movemask 4 15) else fallback_impl b n
  | 8, 2 => if t_sse2 t then Some (Movemask 8 3)
            else if t_sse t then Some (Movemask 4 15) else fallback_impl b n
  | 1, 32 | 2, 16 => if t_avx2 t then Some (Movemask 1 (-1))
                     else if t_avx t then Some TestCZ
                     else if t_sse2 t then Some RecurseHalf
                     else fallback_impl b n
  | 4, 8 => if t_avx t then Some (Movemask 4 255)
            else if t_sse t then Some RecurseHalf else fallback_impl b n
  | 8, 4 => if t_avx t then Some (Movemask 8 15)
            else if t_sse t then Some RecurseHalf else fallback_impl b n
  | 16, 1 | 16, 2 => Some Intrinsic
  | _, _ => fallback_impl b n
  end%nat.

(** codegen/reductions/mask/aarch64.rs:56-81: the listed types; the others use
    the fallback. *)
Definition aarch64_impl (b n : nat) : option mimpl :=
  match b, n with
  | 1, 16 | 2, 8 | 4, 4 => Some MinMaxV128
  | 1, 8 | 2, 4 | 4, 2 => Some MinMaxV64
  | _, _ => fallback_impl b n
  end%nat.

(** codegen/reductions/mask/arm.rs:41-56. *)
Definition arm_impl (b n : nat) : option mimpl :=
  match b, n with
  | 1, 16 | 2, 8 | 4, 4 => Some PMin
  | _, _ => fallback_impl b n
  end%nat.

(** codegen/reductions/mask.rs:21-37: the cfg_if choosing the module. *)
Definition mask_impl (t : target) (b n : nat) : option mimpl :=
  match t_arch t with
  | X86 | X86_64 => x86_impl t b n
  | Arm => if t_v7 t && t_neon t && t_core_arch t then arm_impl b n
           else fallback_impl b n
  | Aarch64 => if t_neon t then aarch64_impl b n else fallback_impl b n
  | _ => fallback_impl b n
  end.

(** [halves] of a union { halves: (H, H), vec: V } where H has half the lanes. *)
Definition union_halves (be : bool) (b n : nat) (v : vec) : vec * vec :=
  let im := image be b v in
  let h := (n / 2)%nat in
  (of_image be b h (firstn (b * h) im), of_image be b h (skipn (b * h) im)).

(** [fuel] bounds the chain of calls from one mask type's method to another's;
    the calls are finite in the source (types get narrower or smaller) and
    [mask_fuel] is enough for every type.  Running out of it, or asking for a type
    without implementation, is reported as [UB]; the theorems show neither
    happens. *)
Fixpoint run_all (fuel : nat) (t : target) (b n : nat) (v : vec) : outcome bool :=
  let be := t_big_endian t in
  match fuel with
  | O => UB
  | S fuel' =>
      match mask_impl t b n with
      | None => UB
      | Some (AsInts w) =>        (* fallback_impl.rs:28-31, 119-123, 150-154 *)
          Ok (forallb (fun i => i =? ones w) (transmute be b w (b * n / w) v))
      | Some (ToOther b' n') =>   (* fallback_impl.rs:7-10 *)
          run_all fuel' t b' n' (transmute be b b' n' v)
      | Some RecurseHalf =>       (* fallback_impl.rs:216-223 *)
          let h := union_halves be b n v in
          x <- run_all fuel' t b (n / 2) (fst h) ;;
          if x then run_all fuel' t b (n / 2) (snd h) else Ok false
      | Some (Movemask w full) => (* x86/sse.rs:19 etc. *)
          Ok (sval 4 (movemask w (transmute be b w (b * n / w) v)) =? full)
      | Some TestCZ =>            (* x86/avx.rs:11-17 *)
          let tr x := transmute be b 32 1 x in
          Ok (negb (testc 32 (tr v) (tr (repeat (ones b) n)) =? 0))
      | Some Intrinsic =>         (* x86.rs:119-122 *)
          simd_reduce_all b v
      | Some MinMaxV128 =>        (* aarch64.rs:9-12 *)
          Ok (negb (vminv (transmute be b b n v) =? 0))
      | Some MinMaxV64 =>         (* aarch64.rs:31-39 *)
          let im := image be b v in
          run_all fuel' t b (2 * n) (of_image be b (2 * n) (im ++ im))
      | Some PMin =>              (* arm.rs:11-20 *)
          let h := union_halves be b n v in
          run_all fuel' t b (n / 2) (vpmin (fst h) (snd h))
      end
  end.

Fixpoint run_any (fuel : nat) (t : target) (b n : nat) (v : vec) : outcome bool :=
  let be := t_big_endian t in
  match fuel with
  | O => UB
  | S fuel' =>
      match mask_impl t b n with
      | None => UB
      | Some (AsInts w) =>        (* fallback_impl.rs:35-38, 127-131, 158-162 *)
          Ok (negb (forallb (fun i => i =? 0) (transmute be b w (b * n / w) v)))
      | Some (ToOther b' n') =>   (* fallback_impl.rs:14-17 *)
          run_any fuel' t b' n' (transmute be b b' n' v)
      | Some RecurseHalf =>       (* fallback_impl.rs:227-234 *)
          let h := union_halves be b n v in
          x <- run_any fuel' t b (n / 2) (fst h) ;;
          if x then Ok true else run_any fuel' t b (n / 2) (snd h)
      | Some (Movemask w _) =>    (* x86/sse.rs:31 etc. *)
          Ok (negb (sval 4 (movemask w (transmute be b w (b * n / w) v)) =? 0))
      | Some TestCZ =>            (* x86/avx.rs:22-28 *)
          let tr x := transmute be b 32 1 x in
          Ok (testz (tr v) (tr v) =? 0)
      | Some Intrinsic =>         (* x86.rs:126-129 *)
          simd_reduce_any b v
      | Some MinMaxV128 =>        (* aarch64.rs:17-20 *)
          Ok (negb (vmaxv (transmute be b b n v) =? 0))
      | Some MinMaxV64 =>         (* aarch64.rs:44-50 *)
          let im := image be b v in
          run_any fuel' t b (2 * n) (of_image be b (2 * n) (im ++ im))
      | Some PMin =>              (* arm.rs:25-35 *)
          let h := union_halves be b n v in
          run_any fuel' t b (n / 2) (vpmax (fst h) (snd h))
      end
  end.

Definition mask_fuel : nat := 8.

(** [m.all()], [m.any()], [m.none()] on m8x2 .. m128x4
    (src/api/reductions/mask.rs:8-20). *)
Definition all (t : target) (ty : vty) (v : vec) : outcome bool :=
  run_all mask_fuel t (vb ty) (vn ty) v.
Definition any (t : target) (ty : vty) (v : vec) : outcome bool :=
  run_any mask_fuel t (vb ty) (vn ty) v.
Definition none (t : target) (ty : vty) (v : vec) : outcome bool :=
  x <- any t ty v ;; Ok (negb x).

(** The msizexN methods: fallback_to_other_impl! on m64xN / m32xN by pointer width
    (fallback_impl.rs:177-209, x86.rs:178-210); any other width is a compile-time
    error. *)
Definition msize_other (t : target) (n : nat) : option vty :=
  if Nat.eqb (t_ptr t) 8 then Some (V KMask 8 n)
  else if Nat.eqb (t_ptr t) 4 then Some (V KMask 4 n)
  else None.
Definition msize_all (t : target) (n : nat) (v : vec) : option (outcome bool) :=
  match msize_other t n with
  | Some ty => Some (all t ty (transmute (t_big_endian t) (t_ptr t) (vb ty) n v))
  | None => None
  end.
Definition msize_any (t : target) (n : nat) (v : vec) : option (outcome bool) :=
  match msize_other t n with
  | Some ty => Some (any t ty (transmute (t_big_endian t) (t_ptr t) (vb ty) n v))
  | None => None
  end.
