(** [shuffle1_dyn] (src/api/shuffle1_dyn.rs, src/codegen/shuffle1_dyn.rs). *)
From Coq Require Import ZArith List Bool.
From Verif.Model Require Import Base Llvm Bytes Tables Arch Minimal Ops Cmp Cast Shuffle.
Import ListNotations.
Open Scope Z_scope.

(** impl_fallback! (11-25).  [indices.extract(i) as usize] keeps the low pointer
    width of the index. *)
Definition dyn_fallback (tg : target) (t : vty) (self indices : vec) : outcome vec :=
  for_loop (lanes t) 0 (splat t 0) (fun i result =>
    k <- extract t indices (Z.of_nat i) ;;
    x <- extract t self (wrap (t_ptr tg) k) ;;
    replace t result (Z.of_nat i) x).

Definition is_x86 (tg : target) : bool :=
  match t_arch tg with X86 | X86_64 => true | _ => false end.
Definition is_aarch64 (tg : target) : bool :=
  match t_arch tg with Aarch64 => true | _ => false end.

(** u8x8 (28-63). *)
Definition dyn_u8x8 (tg : target) (self indices : vec) : outcome vec :=
  if is_aarch64 tg && t_neon tg && t_core_arch tg then Ok (vtbl self indices)
  else dyn_fallback tg u8x8 self indices.

(** u8x16 (64-141); the branch for the architecture "doesnotexist" is left out. *)
Definition dyn_u8x16 (tg : target) (self indices : vec) : outcome vec :=
  if is_x86 tg && t_ssse3 tg then Ok (pshufb self indices)
  else if is_aarch64 tg && t_neon tg && t_core_arch tg then Ok (vtbl self indices)
  else dyn_fallback tg u8x16 self indices.

(** u16x8 (142-157). *)
Definition dyn_u16x8 (tg : target) (self indices : vec) : outcome vec :=
  let be := t_big_endian tg in
  i1 <- cast PlainCast u16x8 u8x8 (mul_vs u16x8 indices 2) ;;
  i2 <- shuffled (shuffle1 false u8x8 i1 [0; 0; 1; 1; 2; 2; 3; 3; 4; 4; 5; 5; 6; 6; 7; 7]%nat) ;;
  let i3 := add u8x16 i2 [0; 1; 0; 1; 0; 1; 0; 1; 0; 1; 0; 1; 0; 1; 0; 1] in
  r <- dyn_u8x16 tg (transmute be 2 1 16 self) i3 ;;
  Ok (transmute be 1 2 8 r).

(** u32x4 (158-205). *)
Definition dyn_u32x4 (tg : target) (self indices : vec) : outcome vec :=
  let be := t_big_endian tg in
  if is_x86 tg && t_avx tg then Ok (permutevar_ps self indices)
  else
    i1 <- cast PlainCast u32x4 u8x4 (mul_vs u32x4 indices 4) ;;
    i2 <- shuffled (shuffle1 false u8x4 i1 [0; 0; 0; 0; 1; 1; 1; 1; 2; 2; 2; 2; 3; 3; 3; 3]%nat) ;;
    let i3 := add u8x16 i2 [0; 1; 2; 3; 0; 1; 2; 3; 0; 1; 2; 3; 0; 1; 2; 3] in
    r <- dyn_u8x16 tg (transmute be 4 1 16 self) i3 ;;
    Ok (transmute be 1 4 4 r).

(** u64x2 (206-254). *)
Definition dyn_u64x2 (tg : target) (self indices : vec) : outcome vec :=
  let be := t_big_endian tg in
  if is_x86 tg && t_avx tg then
    i1 <- shl_scalar u64x2 indices 1 ;;
    Ok (permutevar_pd self i1)
  else
    i1 <- cast PlainCast u64x2 u8x2 (mul_vs u64x2 indices 8) ;;
    i2 <- shuffled (shuffle1 false u8x2 i1 [0; 0; 0; 0; 0; 0; 0; 0; 1; 1; 1; 1; 1; 1; 1; 1]%nat) ;;
    let i3 := add u8x16 i2 [0; 1; 2; 3; 4; 5; 6; 7; 0; 1; 2; 3; 4; 5; 6; 7] in
    r <- dyn_u8x16 tg (transmute be 8 1 16 self) i3 ;;
    Ok (transmute be 1 8 2 r).

(** u128x1 (255-263). *)
Definition dyn_u128x1 (self indices : vec) : outcome vec := Ok self.

(** The unsigned types (264-303); every other one uses the fallback.  [sz]: one of
    usizex2, usizex4, usizex8. *)
Definition dyn_unsigned (tg : target) (sz : bool) (b n : nat) (self indices : vec) : outcome vec :=
  if sz then dyn_fallback tg (V KUint b n) self indices
  else match b, n with
       | 1, 8 => dyn_u8x8 tg self indices
       | 1, 16 => dyn_u8x16 tg self indices
       | 2, 8 => dyn_u16x8 tg self indices
       | 4, 4 => dyn_u32x4 tg self indices
       | 8, 2 => dyn_u64x2 tg self indices
       | 16, 1 => dyn_u128x1 self indices
       | _, _ => dyn_fallback tg (V KUint b n) self indices
       end%nat.

(** [v.shuffle1_dyn(indices)] (src/api/shuffle1_dyn.rs:8-13): the other types are
    transmuted to the unsigned type of their shape (impl_shuffle1_dyn_non_u!
    306-381, impl_shuffle1_dyn_ptr! 384-404). *)
Definition shuffle1_dyn (tg : target) (sz : bool) (t : vty) (self indices : vec) : outcome vec :=
  match vkind t with
  | KUint => dyn_unsigned tg sz (vb t) (vn t) self indices
  | _ =>
      let be := t_big_endian tg in
      r <- dyn_unsigned tg sz (vb t) (vn t) (transmute be (vb t) (vb t) (vn t) self) indices ;;
      Ok (transmute be (vb t) (vb t) (vn t) r)
  end.
