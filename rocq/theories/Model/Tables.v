(** The crate's tables of types and conversions, transcribed from the macro
    invocations of src/v*.rs, src/api/cast/v*.rs and src/api/into_bits/v*.rs.
    [pb] is the pointer width in bytes (src/codegen/pointer_sized_int.rs:5-28). *)
From Coq Require Import ZArith List Bool String.
From Verif.Model Require Import Base.
Import ListNotations.
Open Scope string_scope.
Open Scope nat_scope.

(** src/v16.rs:5-8 *)
Definition i8x2 := V KInt 1 2.
(** src/v16.rs:9-12 *)
Definition u8x2 := V KUint 1 2.
(** src/v16.rs:13-16 *)
Definition m8x2 := V KMask 1 2.
(** src/v32.rs:5-8 *)
Definition i8x4 := V KInt 1 4.
(** src/v32.rs:9-12 *)
Definition u8x4 := V KUint 1 4.
(** src/v32.rs:13-16 *)
Definition m8x4 := V KMask 1 4.
(** src/v32.rs:18-21 *)
Definition i16x2 := V KInt 2 2.
(** src/v32.rs:22-25 *)
Definition u16x2 := V KUint 2 2.
(** src/v32.rs:26-29 *)
Definition m16x2 := V KMask 2 2.
(** src/v64.rs:6-9 *)
Definition i8x8 := V KInt 1 8.
(** src/v64.rs:10-13 *)
Definition u8x8 := V KUint 1 8.
(** src/v64.rs:14-17 *)
Definition m8x8 := V KMask 1 8.
(** src/v64.rs:19-22 *)
Definition i16x4 := V KInt 2 4.
(** src/v64.rs:23-26 *)
Definition u16x4 := V KUint 2 4.
(** src/v64.rs:27-30 *)
Definition m16x4 := V KMask 2 4.
(** src/v64.rs:32-35 *)
Definition i32x2 := V KInt 4 2.
(** src/v64.rs:36-39 *)
Definition u32x2 := V KUint 4 2.
(** src/v64.rs:40-43 *)
Definition m32x2 := V KMask 4 2.
(** src/v64.rs:44-47 *)
Definition f32x2 := V KFloat 4 2.
(** src/v128.rs:6-10 *)
Definition i8x16 := V KInt 1 16.
(** src/v128.rs:11-15 *)
Definition u8x16 := V KUint 1 16.
(** src/v128.rs:16-20 *)
Definition m8x16 := V KMask 1 16.
(** src/v128.rs:22-25 *)
Definition i16x8 := V KInt 2 8.
(** src/v128.rs:26-29 *)
Definition u16x8 := V KUint 2 8.
(** src/v128.rs:30-33 *)
Definition m16x8 := V KMask 2 8.
(** src/v128.rs:35-38 *)
Definition i32x4 := V KInt 4 4.
(** src/v128.rs:39-42 *)
Definition u32x4 := V KUint 4 4.
(** src/v128.rs:43-46 *)
Definition f32x4 := V KFloat 4 4.
(** src/v128.rs:47-50 *)
Definition m32x4 := V KMask 4 4.
(** src/v128.rs:52-55 *)
Definition i64x2 := V KInt 8 2.
(** src/v128.rs:56-59 *)
Definition u64x2 := V KUint 8 2.
(** src/v128.rs:60-63 *)
Definition f64x2 := V KFloat 8 2.
(** src/v128.rs:64-67 *)
Definition m64x2 := V KMask 8 2.
(** src/v128.rs:69-72 *)
Definition i128x1 := V KInt 16 1.
(** src/v128.rs:73-76 *)
Definition u128x1 := V KUint 16 1.
(** src/v128.rs:77-80 *)
Definition m128x1 := V KMask 16 1.
(** src/v256.rs:6-11 *)
Definition i8x32 := V KInt 1 32.
(** src/v256.rs:12-17 *)
Definition u8x32 := V KUint 1 32.
(** src/v256.rs:18-23 *)
Definition m8x32 := V KMask 1 32.
(** src/v256.rs:25-29 *)
Definition i16x16 := V KInt 2 16.
(** src/v256.rs:30-34 *)
Definition u16x16 := V KUint 2 16.
(** src/v256.rs:35-39 *)
Definition m16x16 := V KMask 2 16.
(** src/v256.rs:41-44 *)
Definition i32x8 := V KInt 4 8.
(** src/v256.rs:45-48 *)
Definition u32x8 := V KUint 4 8.
(** src/v256.rs:49-52 *)
Definition f32x8 := V KFloat 4 8.
(** src/v256.rs:53-56 *)
Definition m32x8 := V KMask 4 8.
(** src/v256.rs:58-61 *)
Definition i64x4 := V KInt 8 4.
(** src/v256.rs:62-65 *)
Definition u64x4 := V KUint 8 4.
(** src/v256.rs:66-69 *)
Definition f64x4 := V KFloat 8 4.
(** src/v256.rs:70-73 *)
Definition m64x4 := V KMask 8 4.
(** src/v256.rs:75-78 *)
Definition i128x2 := V KInt 16 2.
(** src/v256.rs:79-82 *)
Definition u128x2 := V KUint 16 2.
(** src/v256.rs:83-86 *)
Definition m128x2 := V KMask 16 2.
(** src/v512.rs:6-13 *)
Definition i8x64 := V KInt 1 64.
(** src/v512.rs:14-21 *)
Definition u8x64 := V KUint 1 64.
(** src/v512.rs:22-29 *)
Definition m8x64 := V KMask 1 64.
(** src/v512.rs:31-36 *)
Definition i16x32 := V KInt 2 32.
(** src/v512.rs:37-42 *)
Definition u16x32 := V KUint 2 32.
(** src/v512.rs:43-48 *)
Definition m16x32 := V KMask 2 32.
(** src/v512.rs:50-54 *)
Definition i32x16 := V KInt 4 16.
(** src/v512.rs:55-59 *)
Definition u32x16 := V KUint 4 16.
(** src/v512.rs:60-64 *)
Definition f32x16 := V KFloat 4 16.
(** src/v512.rs:65-69 *)
Definition m32x16 := V KMask 4 16.
(** src/v512.rs:71-74 *)
Definition i64x8 := V KInt 8 8.
(** src/v512.rs:75-78 *)
Definition u64x8 := V KUint 8 8.
(** src/v512.rs:79-82 *)
Definition f64x8 := V KFloat 8 8.
(** src/v512.rs:83-86 *)
Definition m64x8 := V KMask 8 8.
(** src/v512.rs:88-91 *)
Definition i128x4 := V KInt 16 4.
(** src/v512.rs:92-95 *)
Definition u128x4 := V KUint 16 4.
(** src/v512.rs:96-99 *)
Definition m128x4 := V KMask 16 4.
(** src/vSize.rs:6-10 *)
Definition isizex2 (pb : nat) := V KInt pb 2.
(** src/vSize.rs:12-16 *)
Definition usizex2 (pb : nat) := V KUint pb 2.
(** src/vSize.rs:17-21 *)
Definition msizex2 (pb : nat) := V KMask pb 2.
(** src/vSize.rs:23-27 *)
Definition isizex4 (pb : nat) := V KInt pb 4.
(** src/vSize.rs:28-32 *)
Definition usizex4 (pb : nat) := V KUint pb 4.
(** src/vSize.rs:33-37 *)
Definition msizex4 (pb : nat) := V KMask pb 4.
(** src/vSize.rs:39-43 *)
Definition isizex8 (pb : nat) := V KInt pb 8.
(** src/vSize.rs:44-48 *)
Definition usizex8 (pb : nat) := V KUint pb 8.
(** src/vSize.rs:49-53 *)
Definition msizex8 (pb : nat) := V KMask pb 8.

(** One [impl_i!]/[impl_u!]/[impl_f!]/[impl_m!] invocation: the name, the type,
    the mask type that comparisons return (for masks: the type itself), the
    number of arguments of [new], the stored lane kind and size ([isize_] etc.),
    the bytes of the bitmask integer (0: no bitmask method) and the source types
    of its [From] implementations (src/api.rs:42-280). *)
Record decl := {
  d_name : string;
  d_ty : vty;
  d_mask : vty;
  d_new_args : nat;
  d_stored : kind * nat;
  d_bitmask : nat;
  d_from : list vty
}.

Definition decls (pb : nat) : list decl := [
  (* src/v16.rs:5-8 *)
  {| d_name := "i8x2"; d_ty := i8x2; d_mask := m8x2; d_new_args := 2; d_stored := (KInt, 1); d_bitmask := 1;
     d_from := [] |};
  (* src/v16.rs:9-12 *)
  {| d_name := "u8x2"; d_ty := u8x2; d_mask := m8x2; d_new_args := 2; d_stored := (KUint, 1); d_bitmask := 1;
     d_from := [] |};
  (* src/v16.rs:13-16 *)
  {| d_name := "m8x2"; d_ty := m8x2; d_mask := m8x2; d_new_args := 2; d_stored := (KInt, 1); d_bitmask := 1;
     d_from := [m16x2; m32x2; m64x2; m128x2] |};
  (* src/v32.rs:5-8 *)
  {| d_name := "i8x4"; d_ty := i8x4; d_mask := m8x4; d_new_args := 4; d_stored := (KInt, 1); d_bitmask := 1;
     d_from := [] |};
  (* src/v32.rs:9-12 *)
  {| d_name := "u8x4"; d_ty := u8x4; d_mask := m8x4; d_new_args := 4; d_stored := (KUint, 1); d_bitmask := 1;
     d_from := [] |};
  (* src/v32.rs:13-16 *)
  {| d_name := "m8x4"; d_ty := m8x4; d_mask := m8x4; d_new_args := 4; d_stored := (KInt, 1); d_bitmask := 1;
     d_from := [m16x4; m32x4; m64x4] |};
  (* src/v32.rs:18-21 *)
  {| d_name := "i16x2"; d_ty := i16x2; d_mask := m16x2; d_new_args := 2; d_stored := (KInt, 2); d_bitmask := 1;
     d_from := [i8x2; u8x2] |};
  (* src/v32.rs:22-25 *)
  {| d_name := "u16x2"; d_ty := u16x2; d_mask := m16x2; d_new_args := 2; d_stored := (KUint, 2); d_bitmask := 1;
     d_from := [u8x2] |};
  (* src/v32.rs:26-29 *)
  {| d_name := "m16x2"; d_ty := m16x2; d_mask := m16x2; d_new_args := 2; d_stored := (KInt, 2); d_bitmask := 1;
     d_from := [m8x2; m32x2; m64x2; m128x2] |};
  (* src/v64.rs:6-9 *)
  {| d_name := "i8x8"; d_ty := i8x8; d_mask := m8x8; d_new_args := 8; d_stored := (KInt, 1); d_bitmask := 1;
     d_from := [] |};
  (* src/v64.rs:10-13 *)
  {| d_name := "u8x8"; d_ty := u8x8; d_mask := m8x8; d_new_args := 8; d_stored := (KUint, 1); d_bitmask := 1;
     d_from := [] |};
  (* src/v64.rs:14-17 *)
  {| d_name := "m8x8"; d_ty := m8x8; d_mask := m8x8; d_new_args := 8; d_stored := (KInt, 1); d_bitmask := 1;
     d_from := [m16x8; m32x8] |};
  (* src/v64.rs:19-22 *)
  {| d_name := "i16x4"; d_ty := i16x4; d_mask := m16x4; d_new_args := 4; d_stored := (KInt, 2); d_bitmask := 1;
     d_from := [i8x4; u8x4] |};
  (* src/v64.rs:23-26 *)
  {| d_name := "u16x4"; d_ty := u16x4; d_mask := m16x4; d_new_args := 4; d_stored := (KUint, 2); d_bitmask := 1;
     d_from := [u8x4] |};
  (* src/v64.rs:27-30 *)
  {| d_name := "m16x4"; d_ty := m16x4; d_mask := m16x4; d_new_args := 4; d_stored := (KInt, 2); d_bitmask := 1;
     d_from := [m8x4; m32x4; m64x4] |};
  (* src/v64.rs:32-35 *)
  {| d_name := "i32x2"; d_ty := i32x2; d_mask := m32x2; d_new_args := 2; d_stored := (KInt, 4); d_bitmask := 1;
     d_from := [i8x2; u8x2; i16x2; u16x2] |};
  (* src/v64.rs:36-39 *)
  {| d_name := "u32x2"; d_ty := u32x2; d_mask := m32x2; d_new_args := 2; d_stored := (KUint, 4); d_bitmask := 1;
     d_from := [u8x2; u16x2] |};
  (* src/v64.rs:40-43 *)
  {| d_name := "m32x2"; d_ty := m32x2; d_mask := m32x2; d_new_args := 2; d_stored := (KInt, 4); d_bitmask := 1;
     d_from := [m8x2; m16x2; m64x2; m128x2] |};
  (* src/v64.rs:44-47 *)
  {| d_name := "f32x2"; d_ty := f32x2; d_mask := m32x2; d_new_args := 2; d_stored := (KFloat, 4); d_bitmask := 0;
     d_from := [i8x2; u8x2; i16x2; u16x2] |};
  (* src/v128.rs:6-10 *)
  {| d_name := "i8x16"; d_ty := i8x16; d_mask := m8x16; d_new_args := 16; d_stored := (KInt, 1); d_bitmask := 2;
     d_from := [] |};
  (* src/v128.rs:11-15 *)
  {| d_name := "u8x16"; d_ty := u8x16; d_mask := m8x16; d_new_args := 16; d_stored := (KUint, 1); d_bitmask := 2;
     d_from := [] |};
  (* src/v128.rs:16-20 *)
  {| d_name := "m8x16"; d_ty := m8x16; d_mask := m8x16; d_new_args := 16; d_stored := (KInt, 1); d_bitmask := 2;
     d_from := [m16x16] |};
  (* src/v128.rs:22-25 *)
  {| d_name := "i16x8"; d_ty := i16x8; d_mask := m16x8; d_new_args := 8; d_stored := (KInt, 2); d_bitmask := 1;
     d_from := [i8x8; u8x8] |};
  (* src/v128.rs:26-29 *)
  {| d_name := "u16x8"; d_ty := u16x8; d_mask := m16x8; d_new_args := 8; d_stored := (KUint, 2); d_bitmask := 1;
     d_from := [u8x8] |};
  (* src/v128.rs:30-33 *)
  {| d_name := "m16x8"; d_ty := m16x8; d_mask := m16x8; d_new_args := 8; d_stored := (KInt, 2); d_bitmask := 1;
     d_from := [m8x8; m32x8] |};
  (* src/v128.rs:35-38 *)
  {| d_name := "i32x4"; d_ty := i32x4; d_mask := m32x4; d_new_args := 4; d_stored := (KInt, 4); d_bitmask := 1;
     d_from := [i8x4; u8x4; i16x4; u16x4] |};
  (* src/v128.rs:39-42 *)
  {| d_name := "u32x4"; d_ty := u32x4; d_mask := m32x4; d_new_args := 4; d_stored := (KUint, 4); d_bitmask := 1;
     d_from := [u8x4; u16x4] |};
  (* src/v128.rs:43-46 *)
  {| d_name := "f32x4"; d_ty := f32x4; d_mask := m32x4; d_new_args := 4; d_stored := (KFloat, 4); d_bitmask := 0;
     d_from := [i8x4; u8x4; i16x4; u16x4] |};
  (* src/v128.rs:47-50 *)
  {| d_name := "m32x4"; d_ty := m32x4; d_mask := m32x4; d_new_args := 4; d_stored := (KInt, 4); d_bitmask := 1;
     d_from := [m8x4; m16x4; m64x4] |};
  (* src/v128.rs:52-55 *)
  {| d_name := "i64x2"; d_ty := i64x2; d_mask := m64x2; d_new_args := 2; d_stored := (KInt, 8); d_bitmask := 1;
     d_from := [i8x2; u8x2; i16x2; u16x2; i32x2; u32x2] |};
  (* src/v128.rs:56-59 *)
  {| d_name := "u64x2"; d_ty := u64x2; d_mask := m64x2; d_new_args := 2; d_stored := (KUint, 8); d_bitmask := 1;
     d_from := [u8x2; u16x2; u32x2] |};
  (* src/v128.rs:60-63 *)
  {| d_name := "f64x2"; d_ty := f64x2; d_mask := m64x2; d_new_args := 2; d_stored := (KFloat, 8); d_bitmask := 0;
     d_from := [i8x2; u8x2; i16x2; u16x2; i32x2; u32x2; f32x2] |};
  (* src/v128.rs:64-67 *)
  {| d_name := "m64x2"; d_ty := m64x2; d_mask := m64x2; d_new_args := 2; d_stored := (KInt, 8); d_bitmask := 1;
     d_from := [m8x2; m16x2; m32x2; m128x2] |};
  (* src/v128.rs:69-72 *)
  {| d_name := "i128x1"; d_ty := i128x1; d_mask := m128x1; d_new_args := 1; d_stored := (KInt, 16); d_bitmask := 1;
     d_from := [] |};
  (* src/v128.rs:73-76 *)
  {| d_name := "u128x1"; d_ty := u128x1; d_mask := m128x1; d_new_args := 1; d_stored := (KUint, 16); d_bitmask := 1;
     d_from := [] |};
  (* src/v128.rs:77-80 *)
  {| d_name := "m128x1"; d_ty := m128x1; d_mask := m128x1; d_new_args := 1; d_stored := (KInt, 16); d_bitmask := 1;
     d_from := [] |};
  (* src/v256.rs:6-11 *)
  {| d_name := "i8x32"; d_ty := i8x32; d_mask := m8x32; d_new_args := 32; d_stored := (KInt, 1); d_bitmask := 4;
     d_from := [] |};
  (* src/v256.rs:12-17 *)
  {| d_name := "u8x32"; d_ty := u8x32; d_mask := m8x32; d_new_args := 32; d_stored := (KUint, 1); d_bitmask := 4;
     d_from := [] |};
  (* src/v256.rs:18-23 *)
  {| d_name := "m8x32"; d_ty := m8x32; d_mask := m8x32; d_new_args := 32; d_stored := (KInt, 1); d_bitmask := 4;
     d_from := [] |};
  (* src/v256.rs:25-29 *)
  {| d_name := "i16x16"; d_ty := i16x16; d_mask := m16x16; d_new_args := 16; d_stored := (KInt, 2); d_bitmask := 2;
     d_from := [i8x16; u8x16] |};
  (* src/v256.rs:30-34 *)
  {| d_name := "u16x16"; d_ty := u16x16; d_mask := m16x16; d_new_args := 16; d_stored := (KUint, 2); d_bitmask := 2;
     d_from := [u8x16] |};
  (* src/v256.rs:35-39 *)
  {| d_name := "m16x16"; d_ty := m16x16; d_mask := m16x16; d_new_args := 16; d_stored := (KInt, 2); d_bitmask := 2;
     d_from := [m8x16] |};
  (* src/v256.rs:41-44 *)
  {| d_name := "i32x8"; d_ty := i32x8; d_mask := m32x8; d_new_args := 8; d_stored := (KInt, 4); d_bitmask := 1;
     d_from := [i8x8; u8x8; i16x8; u16x8] |};
  (* src/v256.rs:45-48 *)
  {| d_name := "u32x8"; d_ty := u32x8; d_mask := m32x8; d_new_args := 8; d_stored := (KUint, 4); d_bitmask := 1;
     d_from := [u8x8; u16x8] |};
  (* src/v256.rs:49-52 *)
  {| d_name := "f32x8"; d_ty := f32x8; d_mask := m32x8; d_new_args := 8; d_stored := (KFloat, 4); d_bitmask := 0;
     d_from := [i8x8; u8x8; i16x8; u16x8] |};
  (* src/v256.rs:53-56 *)
  {| d_name := "m32x8"; d_ty := m32x8; d_mask := m32x8; d_new_args := 8; d_stored := (KInt, 4); d_bitmask := 1;
     d_from := [m8x8; m16x8] |};
  (* src/v256.rs:58-61 *)
  {| d_name := "i64x4"; d_ty := i64x4; d_mask := m64x4; d_new_args := 4; d_stored := (KInt, 8); d_bitmask := 1;
     d_from := [i8x4; u8x4; i16x4; u16x4; i32x4; u32x4] |};
  (* src/v256.rs:62-65 *)
  {| d_name := "u64x4"; d_ty := u64x4; d_mask := m64x4; d_new_args := 4; d_stored := (KUint, 8); d_bitmask := 1;
     d_from := [u8x4; u16x4; u32x4] |};
  (* src/v256.rs:66-69 *)
  {| d_name := "f64x4"; d_ty := f64x4; d_mask := m64x4; d_new_args := 4; d_stored := (KFloat, 8); d_bitmask := 0;
     d_from := [i8x4; u8x4; i16x4; u16x4; i32x4; u32x4; f32x4] |};
  (* src/v256.rs:70-73 *)
  {| d_name := "m64x4"; d_ty := m64x4; d_mask := m64x4; d_new_args := 4; d_stored := (KInt, 8); d_bitmask := 1;
     d_from := [m8x4; m16x4; m32x4] |};
  (* src/v256.rs:75-78 *)
  {| d_name := "i128x2"; d_ty := i128x2; d_mask := m128x2; d_new_args := 2; d_stored := (KInt, 16); d_bitmask := 1;
     d_from := [i8x2; u8x2; i16x2; u16x2; i32x2; u32x2; i64x2; u64x2] |};
  (* src/v256.rs:79-82 *)
  {| d_name := "u128x2"; d_ty := u128x2; d_mask := m128x2; d_new_args := 2; d_stored := (KUint, 16); d_bitmask := 1;
     d_from := [u8x2; u16x2; u32x2; u64x2] |};
  (* src/v256.rs:83-86 *)
  {| d_name := "m128x2"; d_ty := m128x2; d_mask := m128x2; d_new_args := 2; d_stored := (KInt, 16); d_bitmask := 1;
     d_from := [m8x2; m16x2; m32x2; m64x2] |};
  (* src/v512.rs:6-13 *)
  {| d_name := "i8x64"; d_ty := i8x64; d_mask := m8x64; d_new_args := 64; d_stored := (KInt, 1); d_bitmask := 8;
     d_from := [] |};
  (* src/v512.rs:14-21 *)
  {| d_name := "u8x64"; d_ty := u8x64; d_mask := m8x64; d_new_args := 64; d_stored := (KUint, 1); d_bitmask := 8;
     d_from := [] |};
  (* src/v512.rs:22-29 *)
  {| d_name := "m8x64"; d_ty := m8x64; d_mask := m8x64; d_new_args := 64; d_stored := (KInt, 1); d_bitmask := 8;
     d_from := [] |};
  (* src/v512.rs:31-36 *)
  {| d_name := "i16x32"; d_ty := i16x32; d_mask := m16x32; d_new_args := 32; d_stored := (KInt, 2); d_bitmask := 4;
     d_from := [i8x32; u8x32] |};
  (* src/v512.rs:37-42 *)
  {| d_name := "u16x32"; d_ty := u16x32; d_mask := m16x32; d_new_args := 32; d_stored := (KUint, 2); d_bitmask := 4;
     d_from := [u8x32] |};
  (* src/v512.rs:43-48 *)
  {| d_name := "m16x32"; d_ty := m16x32; d_mask := m16x32; d_new_args := 32; d_stored := (KInt, 2); d_bitmask := 4;
     d_from := [m8x32] |};
  (* src/v512.rs:50-54 *)
  {| d_name := "i32x16"; d_ty := i32x16; d_mask := m32x16; d_new_args := 16; d_stored := (KInt, 4); d_bitmask := 2;
     d_from := [i8x16; u8x16; i16x16; u16x16] |};
  (* src/v512.rs:55-59 *)
  {| d_name := "u32x16"; d_ty := u32x16; d_mask := m32x16; d_new_args := 16; d_stored := (KUint, 4); d_bitmask := 2;
     d_from := [u8x16; u16x16] |};
  (* src/v512.rs:60-64 *)
  {| d_name := "f32x16"; d_ty := f32x16; d_mask := m32x16; d_new_args := 16; d_stored := (KFloat, 4); d_bitmask := 0;
     d_from := [i8x16; u8x16; i16x16; u16x16] |};
  (* src/v512.rs:65-69 *)
  {| d_name := "m32x16"; d_ty := m32x16; d_mask := m32x16; d_new_args := 16; d_stored := (KInt, 4); d_bitmask := 2;
     d_from := [m8x16; m16x16] |};
  (* src/v512.rs:71-74 *)
  {| d_name := "i64x8"; d_ty := i64x8; d_mask := m64x8; d_new_args := 8; d_stored := (KInt, 8); d_bitmask := 1;
     d_from := [i8x8; u8x8; i16x8; u16x8; i32x8; u32x8] |};
  (* src/v512.rs:75-78 *)
  {| d_name := "u64x8"; d_ty := u64x8; d_mask := m64x8; d_new_args := 8; d_stored := (KUint, 8); d_bitmask := 1;
     d_from := [u8x8; u16x8; u32x8] |};
  (* src/v512.rs:79-82 *)
  {| d_name := "f64x8"; d_ty := f64x8; d_mask := m64x8; d_new_args := 8; d_stored := (KFloat, 8); d_bitmask := 0;
     d_from := [i8x8; u8x8; i16x8; u16x8; i32x8; u32x8; f32x8] |};
  (* src/v512.rs:83-86 *)
  {| d_name := "m64x8"; d_ty := m64x8; d_mask := m64x8; d_new_args := 8; d_stored := (KInt, 8); d_bitmask := 1;
     d_from := [m8x8; m16x8; m32x8] |};
  (* src/v512.rs:88-91 *)
  {| d_name := "i128x4"; d_ty := i128x4; d_mask := m128x4; d_new_args := 4; d_stored := (KInt, 16); d_bitmask := 1;
     d_from := [i8x4; u8x4; i16x4; u16x4; i32x4; u32x4; i64x4; u64x4] |};
  (* src/v512.rs:92-95 *)
  {| d_name := "u128x4"; d_ty := u128x4; d_mask := m128x4; d_new_args := 4; d_stored := (KUint, 16); d_bitmask := 1;
     d_from := [u8x4; u16x4; u32x4; u64x4] |};
  (* src/v512.rs:96-99 *)
  {| d_name := "m128x4"; d_ty := m128x4; d_mask := m128x4; d_new_args := 4; d_stored := (KInt, 16); d_bitmask := 1;
     d_from := [m8x4; m16x4; m32x4; m64x4] |};
  (* src/vSize.rs:6-10 *)
  {| d_name := "isizex2"; d_ty := (isizex2 pb); d_mask := (msizex2 pb); d_new_args := 2; d_stored := (KInt, pb); d_bitmask := 1;
     d_from := [] |};
  (* src/vSize.rs:12-16 *)
  {| d_name := "usizex2"; d_ty := (usizex2 pb); d_mask := (msizex2 pb); d_new_args := 2; d_stored := (KUint, pb); d_bitmask := 1;
     d_from := [] |};
  (* src/vSize.rs:17-21 *)
  {| d_name := "msizex2"; d_ty := (msizex2 pb); d_mask := (msizex2 pb); d_new_args := 2; d_stored := (KInt, pb); d_bitmask := 1;
     d_from := [] |};
  (* src/vSize.rs:23-27 *)
  {| d_name := "isizex4"; d_ty := (isizex4 pb); d_mask := (msizex4 pb); d_new_args := 4; d_stored := (KInt, pb); d_bitmask := 1;
     d_from := [] |};
  (* src/vSize.rs:28-32 *)
  {| d_name := "usizex4"; d_ty := (usizex4 pb); d_mask := (msizex4 pb); d_new_args := 4; d_stored := (KUint, pb); d_bitmask := 1;
     d_from := [] |};
  (* src/vSize.rs:33-37 *)
  {| d_name := "msizex4"; d_ty := (msizex4 pb); d_mask := (msizex4 pb); d_new_args := 4; d_stored := (KInt, pb); d_bitmask := 1;
     d_from := [] |};
  (* src/vSize.rs:39-43 *)
  {| d_name := "isizex8"; d_ty := (isizex8 pb); d_mask := (msizex8 pb); d_new_args := 8; d_stored := (KInt, pb); d_bitmask := 1;
     d_from := [] |};
  (* src/vSize.rs:44-48 *)
  {| d_name := "usizex8"; d_ty := (usizex8 pb); d_mask := (msizex8 pb); d_new_args := 8; d_stored := (KUint, pb); d_bitmask := 1;
     d_from := [] |};
  (* src/vSize.rs:49-53 *)
  {| d_name := "msizex8"; d_ty := (msizex8 pb); d_mask := (msizex8 pb); d_new_args := 8; d_stored := (KInt, pb); d_bitmask := 1;
     d_from := [] |}
].

(** [impl_from_cast!(t: sources)] uses the plain [simd_cast],
    [impl_from_cast_mask!(t: sources)] compares with zero and selects
    (src/api/cast/macros.rs:3-46). *)
Inductive cast_impl := PlainCast | MaskCast.
Record cast_entry := { c_impl : cast_impl; c_to : vty; c_from : list vty }.

Definition cast_table (pb : nat) : list cast_entry := [
  (* src/api/cast/v16.rs:6-26 *)
  {| c_impl := PlainCast; c_to := i8x2; c_from := [u8x2; m8x2; i16x2; u16x2; m16x2; i32x2; u32x2; f32x2; m32x2; i64x2; u64x2; f64x2; m64x2; i128x2; u128x2; m128x2; (isizex2 pb); (usizex2 pb); (msizex2 pb)] |};
  (* src/api/cast/v16.rs:27-47 *)
  {| c_impl := PlainCast; c_to := u8x2; c_from := [i8x2; m8x2; i16x2; u16x2; m16x2; i32x2; u32x2; f32x2; m32x2; i64x2; u64x2; f64x2; m64x2; i128x2; u128x2; m128x2; (isizex2 pb); (usizex2 pb); (msizex2 pb)] |};
  (* src/api/cast/v16.rs:48-68 *)
  {| c_impl := MaskCast; c_to := m8x2; c_from := [i8x2; u8x2; i16x2; u16x2; m16x2; i32x2; u32x2; f32x2; m32x2; i64x2; u64x2; f64x2; m64x2; i128x2; u128x2; m128x2; (isizex2 pb); (usizex2 pb); (msizex2 pb)] |};
  (* src/api/cast/v32.rs:6-26 *)
  {| c_impl := PlainCast; c_to := i8x4; c_from := [u8x4; m8x4; i16x4; u16x4; m16x4; i32x4; u32x4; f32x4; m32x4; i64x4; u64x4; f64x4; m64x4; i128x4; u128x4; m128x4; (isizex4 pb); (usizex4 pb); (msizex4 pb)] |};
  (* src/api/cast/v32.rs:27-47 *)
  {| c_impl := PlainCast; c_to := u8x4; c_from := [i8x4; m8x4; i16x4; u16x4; m16x4; i32x4; u32x4; f32x4; m32x4; i64x4; u64x4; f64x4; m64x4; i128x4; u128x4; m128x4; (isizex4 pb); (usizex4 pb); (msizex4 pb)] |};
  (* src/api/cast/v32.rs:48-68 *)
  {| c_impl := MaskCast; c_to := m8x4; c_from := [i8x4; u8x4; i16x4; u16x4; m16x4; i32x4; u32x4; f32x4; m32x4; i64x4; u64x4; f64x4; m64x4; i128x4; u128x4; m128x4; (isizex4 pb); (usizex4 pb); (msizex4 pb)] |};
  (* src/api/cast/v32.rs:70-90 *)
  {| c_impl := PlainCast; c_to := i16x2; c_from := [i8x2; u8x2; m8x2; u16x2; m16x2; i32x2; u32x2; f32x2; m32x2; i64x2; u64x2; f64x2; m64x2; i128x2; u128x2; m128x2; (isizex2 pb); (usizex2 pb); (msizex2 pb)] |};
  (* src/api/cast/v32.rs:91-111 *)
  {| c_impl := PlainCast; c_to := u16x2; c_from := [i8x2; u8x2; m8x2; i16x2; m16x2; i32x2; u32x2; f32x2; m32x2; i64x2; u64x2; f64x2; m64x2; i128x2; u128x2; m128x2; (isizex2 pb); (usizex2 pb); (msizex2 pb)] |};
  (* src/api/cast/v32.rs:112-132 *)
  {| c_impl := MaskCast; c_to := m16x2; c_from := [i8x2; u8x2; m8x2; i16x2; u16x2; i32x2; u32x2; f32x2; m32x2; i64x2; u64x2; f64x2; m64x2; i128x2; u128x2; m128x2; (isizex2 pb); (usizex2 pb); (msizex2 pb)] |};
  (* src/api/cast/v64.rs:6-23 *)
  {| c_impl := PlainCast; c_to := i8x8; c_from := [u8x8; m8x8; i16x8; u16x8; m16x8; i32x8; u32x8; f32x8; m32x8; i64x8; u64x8; f64x8; m64x8; (isizex8 pb); (usizex8 pb); (msizex8 pb)] |};
  (* src/api/cast/v64.rs:24-41 *)
  {| c_impl := PlainCast; c_to := u8x8; c_from := [i8x8; m8x8; i16x8; u16x8; m16x8; i32x8; u32x8; f32x8; m32x8; i64x8; u64x8; f64x8; m64x8; (isizex8 pb); (usizex8 pb); (msizex8 pb)] |};
  (* src/api/cast/v64.rs:42-59 *)
  {| c_impl := MaskCast; c_to := m8x8; c_from := [i8x8; u8x8; i16x8; u16x8; m16x8; i32x8; u32x8; f32x8; m32x8; i64x8; u64x8; f64x8; m64x8; (isizex8 pb); (usizex8 pb); (msizex8 pb)] |};
  (* src/api/cast/v64.rs:61-81 *)
  {| c_impl := PlainCast; c_to := i16x4; c_from := [i8x4; u8x4; m8x4; u16x4; m16x4; i32x4; u32x4; f32x4; m32x4; i64x4; u64x4; f64x4; m64x4; i128x4; u128x4; m128x4; (isizex4 pb); (usizex4 pb); (msizex4 pb)] |};
  (* src/api/cast/v64.rs:82-102 *)
  {| c_impl := PlainCast; c_to := u16x4; c_from := [i8x4; u8x4; m8x4; i16x4; m16x4; i32x4; u32x4; f32x4; m32x4; i64x4; u64x4; f64x4; m64x4; i128x4; u128x4; m128x4; (isizex4 pb); (usizex4 pb); (msizex4 pb)] |};
  (* src/api/cast/v64.rs:103-123 *)
  {| c_impl := MaskCast; c_to := m16x4; c_from := [i8x4; u8x4; m8x4; i16x4; u16x4; i32x4; u32x4; f32x4; m32x4; i64x4; u64x4; f64x4; m64x4; i128x4; u128x4; m128x4; (isizex4 pb); (usizex4 pb); (msizex4 pb)] |};
  (* src/api/cast/v64.rs:125-145 *)
  {| c_impl := PlainCast; c_to := i32x2; c_from := [i8x2; u8x2; m8x2; i16x2; u16x2; m16x2; u32x2; f32x2; m32x2; i64x2; u64x2; f64x2; m64x2; i128x2; u128x2; m128x2; (isizex2 pb); (usizex2 pb); (msizex2 pb)] |};
  (* src/api/cast/v64.rs:146-166 *)
  {| c_impl := PlainCast; c_to := u32x2; c_from := [i8x2; u8x2; m8x2; i16x2; u16x2; m16x2; i32x2; f32x2; m32x2; i64x2; u64x2; f64x2; m64x2; i128x2; u128x2; m128x2; (isizex2 pb); (usizex2 pb); (msizex2 pb)] |};
  (* src/api/cast/v64.rs:167-187 *)
  {| c_impl := PlainCast; c_to := f32x2; c_from := [i8x2; u8x2; m8x2; i16x2; u16x2; m16x2; i32x2; u32x2; m32x2; i64x2; u64x2; f64x2; m64x2; i128x2; u128x2; m128x2; (isizex2 pb); (usizex2 pb); (msizex2 pb)] |};
  (* src/api/cast/v64.rs:188-208 *)
  {| c_impl := MaskCast; c_to := m32x2; c_from := [i8x2; u8x2; m8x2; i16x2; u16x2; m16x2; i32x2; u32x2; f32x2; i64x2; u64x2; f64x2; m64x2; i128x2; u128x2; m128x2; (isizex2 pb); (usizex2 pb); (msizex2 pb)] |};
  (* src/api/cast/v128.rs:6-6 *)
  {| c_impl := PlainCast; c_to := i8x16; c_from := [u8x16; m8x16; i16x16; u16x16; m16x16; i32x16; u32x16; f32x16; m32x16] |};
  (* src/api/cast/v128.rs:7-7 *)
  {| c_impl := PlainCast; c_to := u8x16; c_from := [i8x16; m8x16; i16x16; u16x16; m16x16; i32x16; u32x16; f32x16; m32x16] |};
  (* src/api/cast/v128.rs:8-8 *)
  {| c_impl := MaskCast; c_to := m8x16; c_from := [i8x16; u8x16; i16x16; u16x16; m16x16; i32x16; u32x16; f32x16; m32x16] |};
  (* src/api/cast/v128.rs:10-27 *)
  {| c_impl := PlainCast; c_to := i16x8; c_from := [i8x8; u8x8; m8x8; u16x8; m16x8; i32x8; u32x8; f32x8; m32x8; i64x8; u64x8; f64x8; m64x8; (isizex8 pb); (usizex8 pb); (msizex8 pb)] |};
  (* src/api/cast/v128.rs:28-45 *)
  {| c_impl := PlainCast; c_to := u16x8; c_from := [i8x8; u8x8; m8x8; i16x8; m16x8; i32x8; u32x8; f32x8; m32x8; i64x8; u64x8; f64x8; m64x8; (isizex8 pb); (usizex8 pb); (msizex8 pb)] |};
  (* src/api/cast/v128.rs:46-63 *)
  {| c_impl := MaskCast; c_to := m16x8; c_from := [i8x8; u8x8; m8x8; i16x8; u16x8; i32x8; u32x8; f32x8; m32x8; i64x8; u64x8; f64x8; m64x8; (isizex8 pb); (usizex8 pb); (msizex8 pb)] |};
  (* src/api/cast/v128.rs:65-85 *)
  {| c_impl := PlainCast; c_to := i32x4; c_from := [i8x4; u8x4; m8x4; i16x4; u16x4; m16x4; u32x4; f32x4; m32x4; i64x4; u64x4; f64x4; m64x4; i128x4; u128x4; m128x4; (isizex4 pb); (usizex4 pb); (msizex4 pb)] |};
  (* src/api/cast/v128.rs:86-106 *)
  {| c_impl := PlainCast; c_to := u32x4; c_from := [i8x4; u8x4; m8x4; i16x4; u16x4; m16x4; i32x4; f32x4; m32x4; i64x4; u64x4; f64x4; m64x4; i128x4; u128x4; m128x4; (isizex4 pb); (usizex4 pb); (msizex4 pb)] |};
  (* src/api/cast/v128.rs:107-127 *)
  {| c_impl := PlainCast; c_to := f32x4; c_from := [i8x4; u8x4; m8x4; i16x4; u16x4; m16x4; i32x4; u32x4; m32x4; i64x4; u64x4; f64x4; m64x4; i128x4; u128x4; m128x4; (isizex4 pb); (usizex4 pb); (msizex4 pb)] |};
  (* src/api/cast/v128.rs:128-148 *)
  {| c_impl := MaskCast; c_to := m32x4; c_from := [i8x4; u8x4; m8x4; i16x4; u16x4; m16x4; i32x4; u32x4; f32x4; i64x4; u64x4; f64x4; m64x4; i128x4; u128x4; m128x4; (isizex4 pb); (usizex4 pb); (msizex4 pb)] |};
  (* src/api/cast/v128.rs:150-170 *)
  {| c_impl := PlainCast; c_to := i64x2; c_from := [i8x2; u8x2; m8x2; i16x2; u16x2; m16x2; i32x2; u32x2; f32x2; m32x2; u64x2; f64x2; m64x2; i128x2; u128x2; m128x2; (isizex2 pb); (usizex2 pb); (msizex2 pb)] |};
  (* src/api/cast/v128.rs:171-191 *)
  {| c_impl := PlainCast; c_to := u64x2; c_from := [i8x2; u8x2; m8x2; i16x2; u16x2; m16x2; i32x2; u32x2; f32x2; m32x2; i64x2; f64x2; m64x2; i128x2; u128x2; m128x2; (isizex2 pb); (usizex2 pb); (msizex2 pb)] |};
  (* src/api/cast/v128.rs:192-212 *)
  {| c_impl := PlainCast; c_to := f64x2; c_from := [i8x2; u8x2; m8x2; i16x2; u16x2; m16x2; i32x2; u32x2; f32x2; m32x2; i64x2; u64x2; m64x2; i128x2; u128x2; m128x2; (isizex2 pb); (usizex2 pb); (msizex2 pb)] |};
  (* src/api/cast/v128.rs:213-233 *)
  {| c_impl := MaskCast; c_to := m64x2; c_from := [i8x2; u8x2; m8x2; i16x2; u16x2; m16x2; i32x2; u32x2; f32x2; m32x2; i64x2; u64x2; f64x2; i128x2; u128x2; m128x2; (isizex2 pb); (usizex2 pb); (msizex2 pb)] |};
  (* src/api/cast/v128.rs:235-255 *)
  {| c_impl := PlainCast; c_to := (isizex2 pb); c_from := [i8x2; u8x2; m8x2; i16x2; u16x2; m16x2; i32x2; u32x2; f32x2; m32x2; i64x2; u64x2; f64x2; m64x2; i128x2; u128x2; m128x2; (usizex2 pb); (msizex2 pb)] |};
  (* src/api/cast/v128.rs:256-276 *)
  {| c_impl := PlainCast; c_to := (usizex2 pb); c_from := [i8x2; u8x2; m8x2; i16x2; u16x2; m16x2; i32x2; u32x2; f32x2; m32x2; i64x2; u64x2; f64x2; m64x2; i128x2; u128x2; m128x2; (isizex2 pb); (msizex2 pb)] |};
  (* src/api/cast/v128.rs:277-297 *)
  {| c_impl := MaskCast; c_to := (msizex2 pb); c_from := [i8x2; u8x2; m8x2; i16x2; u16x2; m16x2; i32x2; u32x2; f32x2; m32x2; i64x2; u64x2; f64x2; m64x2; i128x2; u128x2; m128x2; (isizex2 pb); (usizex2 pb)] |};
  (* src/api/cast/v128.rs:300-300 *)
  {| c_impl := PlainCast; c_to := i128x1; c_from := [u128x1; m128x1] |};
  (* src/api/cast/v128.rs:301-301 *)
  {| c_impl := PlainCast; c_to := u128x1; c_from := [i128x1; m128x1] |};
  (* src/api/cast/v128.rs:302-302 *)
  {| c_impl := PlainCast; c_to := m128x1; c_from := [i128x1; u128x1] |};
  (* src/api/cast/v256.rs:6-6 *)
  {| c_impl := PlainCast; c_to := i8x32; c_from := [u8x32; m8x32; i16x32; u16x32; m16x32] |};
  (* src/api/cast/v256.rs:7-7 *)
  {| c_impl := PlainCast; c_to := u8x32; c_from := [i8x32; m8x32; i16x32; u16x32; m16x32] |};
  (* src/api/cast/v256.rs:8-8 *)
  {| c_impl := MaskCast; c_to := m8x32; c_from := [i8x32; u8x32; i16x32; u16x32; m16x32] |};
  (* src/api/cast/v256.rs:10-10 *)
  {| c_impl := PlainCast; c_to := i16x16; c_from := [i8x16; u8x16; m8x16; u16x16; m16x16; i32x16; u32x16; f32x16; m32x16] |};
  (* src/api/cast/v256.rs:11-11 *)
  {| c_impl := PlainCast; c_to := u16x16; c_from := [i8x16; u8x16; m8x16; i16x16; m16x16; i32x16; u32x16; f32x16; m32x16] |};
  (* src/api/cast/v256.rs:12-12 *)
  {| c_impl := MaskCast; c_to := m16x16; c_from := [i8x16; u8x16; m8x16; i16x16; u16x16; i32x16; u32x16; f32x16; m32x16] |};
  (* src/api/cast/v256.rs:14-31 *)
  {| c_impl := PlainCast; c_to := i32x8; c_from := [i8x8; u8x8; m8x8; i16x8; u16x8; m16x8; u32x8; f32x8; m32x8; i64x8; u64x8; f64x8; m64x8; (isizex8 pb); (usizex8 pb); (msizex8 pb)] |};
  (* src/api/cast/v256.rs:32-49 *)
  {| c_impl := PlainCast; c_to := u32x8; c_from := [i8x8; u8x8; m8x8; i16x8; u16x8; m16x8; i32x8; f32x8; m32x8; i64x8; u64x8; f64x8; m64x8; (isizex8 pb); (usizex8 pb); (msizex8 pb)] |};
  (* src/api/cast/v256.rs:50-67 *)
  {| c_impl := PlainCast; c_to := f32x8; c_from := [i8x8; u8x8; m8x8; i16x8; u16x8; m16x8; i32x8; u32x8; m32x8; i64x8; u64x8; f64x8; m64x8; (isizex8 pb); (usizex8 pb); (msizex8 pb)] |};
  (* src/api/cast/v256.rs:68-85 *)
  {| c_impl := MaskCast; c_to := m32x8; c_from := [i8x8; u8x8; m8x8; i16x8; u16x8; m16x8; i32x8; u32x8; f32x8; i64x8; u64x8; f64x8; m64x8; (isizex8 pb); (usizex8 pb); (msizex8 pb)] |};
  (* src/api/cast/v256.rs:87-107 *)
  {| c_impl := PlainCast; c_to := i64x4; c_from := [i8x4; u8x4; m8x4; i16x4; u16x4; m16x4; i32x4; u32x4; f32x4; m32x4; u64x4; f64x4; m64x4; i128x4; u128x4; m128x4; (isizex4 pb); (usizex4 pb); (msizex4 pb)] |};
  (* src/api/cast/v256.rs:108-128 *)
  {| c_impl := PlainCast; c_to := u64x4; c_from := [i8x4; u8x4; m8x4; i16x4; u16x4; m16x4; i32x4; u32x4; f32x4; m32x4; i64x4; f64x4; m64x4; i128x4; u128x4; m128x4; (isizex4 pb); (usizex4 pb); (msizex4 pb)] |};
  (* src/api/cast/v256.rs:129-149 *)
  {| c_impl := PlainCast; c_to := f64x4; c_from := [i8x4; u8x4; m8x4; i16x4; u16x4; m16x4; i32x4; u32x4; f32x4; m32x4; i64x4; u64x4; m64x4; i128x4; u128x4; m128x4; (isizex4 pb); (usizex4 pb); (msizex4 pb)] |};
  (* src/api/cast/v256.rs:150-170 *)
  {| c_impl := MaskCast; c_to := m64x4; c_from := [i8x4; u8x4; m8x4; i16x4; u16x4; m16x4; i32x4; u32x4; f32x4; m32x4; i64x4; u64x4; f64x4; i128x4; u128x4; m128x4; (isizex4 pb); (usizex4 pb); (msizex4 pb)] |};
  (* src/api/cast/v256.rs:172-192 *)
  {| c_impl := PlainCast; c_to := i128x2; c_from := [i8x2; u8x2; m8x2; i16x2; u16x2; m16x2; i32x2; u32x2; f32x2; m32x2; i64x2; u64x2; f64x2; m64x2; u128x2; m128x2; (isizex2 pb); (usizex2 pb); (msizex2 pb)] |};
  (* src/api/cast/v256.rs:193-213 *)
  {| c_impl := PlainCast; c_to := u128x2; c_from := [i8x2; u8x2; m8x2; i16x2; u16x2; m16x2; i32x2; u32x2; f32x2; m32x2; i64x2; u64x2; f64x2; m64x2; i128x2; m128x2; (isizex2 pb); (usizex2 pb); (msizex2 pb)] |};
  (* src/api/cast/v256.rs:214-234 *)
  {| c_impl := MaskCast; c_to := m128x2; c_from := [i8x2; u8x2; m8x2; i16x2; u16x2; m16x2; i32x2; u32x2; f32x2; m32x2; i64x2; u64x2; m64x2; f64x2; i128x2; u128x2; (isizex2 pb); (usizex2 pb); (msizex2 pb)] |};
  (* src/api/cast/v256.rs:236-256 *)
  {| c_impl := PlainCast; c_to := (isizex4 pb); c_from := [i8x4; u8x4; m8x4; i16x4; u16x4; m16x4; i32x4; u32x4; f32x4; m32x4; i64x4; u64x4; f64x4; m64x4; i128x4; u128x4; m128x4; (usizex4 pb); (msizex4 pb)] |};
  (* src/api/cast/v256.rs:257-277 *)
  {| c_impl := PlainCast; c_to := (usizex4 pb); c_from := [i8x4; u8x4; m8x4; i16x4; u16x4; m16x4; i32x4; u32x4; f32x4; m32x4; i64x4; u64x4; f64x4; m64x4; i128x4; u128x4; m128x4; (isizex4 pb); (msizex4 pb)] |};
  (* src/api/cast/v256.rs:278-298 *)
  {| c_impl := MaskCast; c_to := (msizex4 pb); c_from := [i8x4; u8x4; m8x4; i16x4; u16x4; m16x4; i32x4; u32x4; f32x4; m32x4; i64x4; u64x4; f64x4; m64x4; i128x4; u128x4; m128x4; (isizex4 pb); (usizex4 pb)] |};
  (* src/api/cast/v512.rs:6-6 *)
  {| c_impl := PlainCast; c_to := i8x64; c_from := [u8x64; m8x64] |};
  (* src/api/cast/v512.rs:7-7 *)
  {| c_impl := PlainCast; c_to := u8x64; c_from := [i8x64; m8x64] |};
  (* src/api/cast/v512.rs:8-8 *)
  {| c_impl := MaskCast; c_to := m8x64; c_from := [i8x64; u8x64] |};
  (* src/api/cast/v512.rs:10-10 *)
  {| c_impl := PlainCast; c_to := i16x32; c_from := [i8x32; u8x32; m8x32; u16x32; m16x32] |};
  (* src/api/cast/v512.rs:11-11 *)
  {| c_impl := PlainCast; c_to := u16x32; c_from := [i8x32; u8x32; m8x32; i16x32; m16x32] |};
  (* src/api/cast/v512.rs:12-12 *)
  {| c_impl := MaskCast; c_to := m16x32; c_from := [i8x32; u8x32; m8x32; i16x32; u16x32] |};
  (* src/api/cast/v512.rs:14-14 *)
  {| c_impl := PlainCast; c_to := i32x16; c_from := [i8x16; u8x16; m8x16; i16x16; u16x16; m16x16; u32x16; f32x16; m32x16] |};
  (* src/api/cast/v512.rs:15-15 *)
  {| c_impl := PlainCast; c_to := u32x16; c_from := [i8x16; u8x16; m8x16; i16x16; u16x16; m16x16; i32x16; f32x16; m32x16] |};
  (* src/api/cast/v512.rs:16-16 *)
  {| c_impl := PlainCast; c_to := f32x16; c_from := [i8x16; u8x16; m8x16; i16x16; u16x16; m16x16; i32x16; u32x16; m32x16] |};
  (* src/api/cast/v512.rs:17-17 *)
  {| c_impl := MaskCast; c_to := m32x16; c_from := [i8x16; u8x16; m8x16; i16x16; u16x16; m16x16; i32x16; u32x16; f32x16] |};
  (* src/api/cast/v512.rs:19-36 *)
  {| c_impl := PlainCast; c_to := i64x8; c_from := [i8x8; u8x8; m8x8; i16x8; u16x8; m16x8; i32x8; u32x8; f32x8; m32x8; u64x8; f64x8; m64x8; (isizex8 pb); (usizex8 pb); (msizex8 pb)] |};
  (* src/api/cast/v512.rs:37-54 *)
  {| c_impl := PlainCast; c_to := u64x8; c_from := [i8x8; u8x8; m8x8; i16x8; u16x8; m16x8; i32x8; u32x8; f32x8; m32x8; i64x8; f64x8; m64x8; (isizex8 pb); (usizex8 pb); (msizex8 pb)] |};
  (* src/api/cast/v512.rs:55-72 *)
  {| c_impl := PlainCast; c_to := f64x8; c_from := [i8x8; u8x8; m8x8; i16x8; u16x8; m16x8; i32x8; u32x8; f32x8; m32x8; i64x8; u64x8; m64x8; (isizex8 pb); (usizex8 pb); (msizex8 pb)] |};
  (* src/api/cast/v512.rs:73-90 *)
  {| c_impl := MaskCast; c_to := m64x8; c_from := [i8x8; u8x8; m8x8; i16x8; u16x8; m16x8; i32x8; u32x8; f32x8; m32x8; i64x8; u64x8; f64x8; (isizex8 pb); (usizex8 pb); (msizex8 pb)] |};
  (* src/api/cast/v512.rs:92-112 *)
  {| c_impl := PlainCast; c_to := i128x4; c_from := [i8x4; u8x4; m8x4; i16x4; u16x4; m16x4; i32x4; u32x4; f32x4; m32x4; i64x4; u64x4; f64x4; m64x4; u128x4; m128x4; (isizex4 pb); (usizex4 pb); (msizex4 pb)] |};
  (* src/api/cast/v512.rs:113-133 *)
  {| c_impl := PlainCast; c_to := u128x4; c_from := [i8x4; u8x4; m8x4; i16x4; u16x4; m16x4; i32x4; u32x4; f32x4; m32x4; i64x4; u64x4; f64x4; m64x4; i128x4; m128x4; (isizex4 pb); (usizex4 pb); (msizex4 pb)] |};
  (* src/api/cast/v512.rs:134-154 *)
  {| c_impl := MaskCast; c_to := m128x4; c_from := [i8x4; u8x4; m8x4; i16x4; u16x4; m16x4; i32x4; u32x4; f32x4; m32x4; i64x4; u64x4; m64x4; f64x4; i128x4; u128x4; (isizex4 pb); (usizex4 pb); (msizex4 pb)] |};
  (* src/api/cast/v512.rs:156-173 *)
  {| c_impl := PlainCast; c_to := (isizex8 pb); c_from := [i8x8; u8x8; m8x8; i16x8; u16x8; m16x8; i32x8; u32x8; f32x8; m32x8; i64x8; u64x8; f64x8; m64x8; (usizex8 pb); (msizex8 pb)] |};
  (* src/api/cast/v512.rs:174-191 *)
  {| c_impl := PlainCast; c_to := (usizex8 pb); c_from := [i8x8; u8x8; m8x8; i16x8; u16x8; m16x8; i32x8; u32x8; f32x8; m32x8; i64x8; u64x8; f64x8; m64x8; (isizex8 pb); (msizex8 pb)] |};
  (* src/api/cast/v512.rs:192-209 *)
  {| c_impl := MaskCast; c_to := (msizex8 pb); c_from := [i8x8; u8x8; m8x8; i16x8; u16x8; m16x8; i32x8; u32x8; f32x8; m32x8; i64x8; u64x8; f64x8; m64x8; (isizex8 pb); (usizex8 pb)] |}
].

(** [impl_from_bits!(t: sources)] (src/api/into_bits/macros.rs:3-10). *)
Record bits_entry := { b_to : vty; b_from : list vty }.

Definition bits_table (pb : nat) : list bits_entry := [
  (* src/api/into_bits/v16.rs:7-7 *)
  {| b_to := i8x2; b_from := [u8x2; m8x2] |};
  (* src/api/into_bits/v16.rs:8-8 *)
  {| b_to := u8x2; b_from := [i8x2; m8x2] |};
  (* src/api/into_bits/v32.rs:7-7 *)
  {| b_to := i8x4; b_from := [u8x4; m8x4; i16x2; u16x2; m16x2] |};
  (* src/api/into_bits/v32.rs:8-8 *)
  {| b_to := u8x4; b_from := [i8x4; m8x4; i16x2; u16x2; m16x2] |};
  (* src/api/into_bits/v32.rs:9-9 *)
  {| b_to := m8x4; b_from := [m16x2] |};
  (* src/api/into_bits/v32.rs:11-11 *)
  {| b_to := i16x2; b_from := [i8x4; u8x4; m8x4; u16x2; m16x2] |};
  (* src/api/into_bits/v32.rs:12-12 *)
  {| b_to := u16x2; b_from := [i8x4; u8x4; m8x4; i16x2; m16x2] |};
  (* src/api/into_bits/v64.rs:7-7 *)
  {| b_to := i8x8; b_from := [u8x8; m8x8; i16x4; u16x4; m16x4; i32x2; u32x2; f32x2; m32x2] |};
  (* src/api/into_bits/v64.rs:8-8 *)
  {| b_to := u8x8; b_from := [i8x8; m8x8; i16x4; u16x4; m16x4; i32x2; u32x2; f32x2; m32x2] |};
  (* src/api/into_bits/v64.rs:9-9 *)
  {| b_to := m8x8; b_from := [m16x4; m32x2] |};
  (* src/api/into_bits/v64.rs:11-11 *)
  {| b_to := i16x4; b_from := [i8x8; u8x8; m8x8; u16x4; m16x4; i32x2; u32x2; f32x2; m32x2] |};
  (* src/api/into_bits/v64.rs:12-12 *)
  {| b_to := u16x4; b_from := [i8x8; u8x8; m8x8; i16x4; m16x4; i32x2; u32x2; f32x2; m32x2] |};
  (* src/api/into_bits/v64.rs:13-13 *)
  {| b_to := m16x4; b_from := [m32x2] |};
  (* src/api/into_bits/v64.rs:15-15 *)
  {| b_to := i32x2; b_from := [i8x8; u8x8; m8x8; i16x4; u16x4; m16x4; u32x2; f32x2; m32x2] |};
  (* src/api/into_bits/v64.rs:16-16 *)
  {| b_to := u32x2; b_from := [i8x8; u8x8; m8x8; i16x4; u16x4; m16x4; i32x2; f32x2; m32x2] |};
  (* src/api/into_bits/v64.rs:17-17 *)
  {| b_to := f32x2; b_from := [i8x8; u8x8; m8x8; i16x4; u16x4; m16x4; i32x2; u32x2; m32x2] |};
  (* src/api/into_bits/v128.rs:7-24 *)
  {| b_to := i8x16; b_from := [u8x16; m8x16; i16x8; u16x8; m16x8; i32x4; u32x4; f32x4; m32x4; i64x2; u64x2; f64x2; m64x2; i128x1; u128x1; m128x1] |};
  (* src/api/into_bits/v128.rs:25-42 *)
  {| b_to := u8x16; b_from := [i8x16; m8x16; i16x8; u16x8; m16x8; i32x4; u32x4; f32x4; m32x4; i64x2; u64x2; f64x2; m64x2; i128x1; u128x1; m128x1] |};
  (* src/api/into_bits/v128.rs:43-43 *)
  {| b_to := m8x16; b_from := [m16x8; m32x4; m64x2; m128x1] |};
  (* src/api/into_bits/v128.rs:45-62 *)
  {| b_to := i16x8; b_from := [i8x16; u8x16; m8x16; u16x8; m16x8; i32x4; u32x4; f32x4; m32x4; i64x2; u64x2; f64x2; m64x2; i128x1; u128x1; m128x1] |};
  (* src/api/into_bits/v128.rs:63-80 *)
  {| b_to := u16x8; b_from := [i8x16; u8x16; m8x16; i16x8; m16x8; i32x4; u32x4; f32x4; m32x4; i64x2; u64x2; f64x2; m64x2; i128x1; u128x1; m128x1] |};
  (* src/api/into_bits/v128.rs:81-81 *)
  {| b_to := m16x8; b_from := [m32x4; m64x2; m128x1] |};
  (* src/api/into_bits/v128.rs:83-100 *)
  {| b_to := i32x4; b_from := [i8x16; u8x16; m8x16; i16x8; u16x8; m16x8; u32x4; f32x4; m32x4; i64x2; u64x2; f64x2; m64x2; i128x1; u128x1; m128x1] |};
  (* src/api/into_bits/v128.rs:101-118 *)
  {| b_to := u32x4; b_from := [i8x16; u8x16; m8x16; i16x8; u16x8; m16x8; i32x4; f32x4; m32x4; i64x2; u64x2; f64x2; m64x2; i128x1; u128x1; m128x1] |};
  (* src/api/into_bits/v128.rs:119-136 *)
  {| b_to := f32x4; b_from := [i8x16; u8x16; m8x16; i16x8; u16x8; m16x8; i32x4; u32x4; m32x4; i64x2; u64x2; f64x2; m64x2; i128x1; u128x1; m128x1] |};
  (* src/api/into_bits/v128.rs:137-137 *)
  {| b_to := m32x4; b_from := [m64x2; m128x1] |};
  (* src/api/into_bits/v128.rs:139-156 *)
  {| b_to := i64x2; b_from := [i8x16; u8x16; m8x16; i16x8; u16x8; m16x8; i32x4; u32x4; f32x4; m32x4; u64x2; f64x2; m64x2; i128x1; u128x1; m128x1] |};
  (* src/api/into_bits/v128.rs:157-174 *)
  {| b_to := u64x2; b_from := [i8x16; u8x16; m8x16; i16x8; u16x8; m16x8; i32x4; u32x4; f32x4; m32x4; i64x2; f64x2; m64x2; i128x1; u128x1; m128x1] |};
  (* src/api/into_bits/v128.rs:175-192 *)
  {| b_to := f64x2; b_from := [i8x16; u8x16; m8x16; i16x8; u16x8; m16x8; i32x4; u32x4; f32x4; m32x4; i64x2; u64x2; m64x2; i128x1; u128x1; m128x1] |};
  (* src/api/into_bits/v128.rs:193-193 *)
  {| b_to := m64x2; b_from := [m128x1] |};
  (* src/api/into_bits/v128.rs:195-212 *)
  {| b_to := i128x1; b_from := [i8x16; u8x16; m8x16; i16x8; u16x8; m16x8; i32x4; u32x4; f32x4; m32x4; i64x2; u64x2; f64x2; m64x2; u128x1; m128x1] |};
  (* src/api/into_bits/v128.rs:213-230 *)
  {| b_to := u128x1; b_from := [i8x16; u8x16; m8x16; i16x8; u16x8; m16x8; i32x4; u32x4; f32x4; m32x4; i64x2; u64x2; f64x2; m64x2; i128x1; m128x1] |};
  (* src/api/into_bits/v256.rs:7-24 *)
  {| b_to := i8x32; b_from := [u8x32; m8x32; i16x16; u16x16; m16x16; i32x8; u32x8; f32x8; m32x8; i64x4; u64x4; f64x4; m64x4; i128x2; u128x2; m128x2] |};
  (* src/api/into_bits/v256.rs:25-42 *)
  {| b_to := u8x32; b_from := [i8x32; m8x32; i16x16; u16x16; m16x16; i32x8; u32x8; f32x8; m32x8; i64x4; u64x4; f64x4; m64x4; i128x2; u128x2; m128x2] |};
  (* src/api/into_bits/v256.rs:43-43 *)
  {| b_to := m8x32; b_from := [m16x16; m32x8; m64x4; m128x2] |};
  (* src/api/into_bits/v256.rs:45-62 *)
  {| b_to := i16x16; b_from := [i8x32; u8x32; m8x32; u16x16; m16x16; i32x8; u32x8; f32x8; m32x8; i64x4; u64x4; f64x4; m64x4; i128x2; u128x2; m128x2] |};
  (* src/api/into_bits/v256.rs:63-80 *)
  {| b_to := u16x16; b_from := [i8x32; u8x32; m8x32; i16x16; m16x16; i32x8; u32x8; f32x8; m32x8; i64x4; u64x4; f64x4; m64x4; i128x2; u128x2; m128x2] |};
  (* src/api/into_bits/v256.rs:81-81 *)
  {| b_to := m16x16; b_from := [m32x8; m64x4; m128x2] |};
  (* src/api/into_bits/v256.rs:83-100 *)
  {| b_to := i32x8; b_from := [i8x32; u8x32; m8x32; i16x16; u16x16; m16x16; u32x8; f32x8; m32x8; i64x4; u64x4; f64x4; m64x4; i128x2; u128x2; m128x2] |};
  (* src/api/into_bits/v256.rs:101-118 *)
  {| b_to := u32x8; b_from := [i8x32; u8x32; m8x32; i16x16; u16x16; m16x16; i32x8; f32x8; m32x8; i64x4; u64x4; f64x4; m64x4; i128x2; u128x2; m128x2] |};
  (* src/api/into_bits/v256.rs:119-136 *)
  {| b_to := f32x8; b_from := [i8x32; u8x32; m8x32; i16x16; u16x16; m16x16; i32x8; u32x8; m32x8; i64x4; u64x4; f64x4; m64x4; i128x2; u128x2; m128x2] |};
  (* src/api/into_bits/v256.rs:137-137 *)
  {| b_to := m32x8; b_from := [m64x4; m128x2] |};
  (* src/api/into_bits/v256.rs:139-156 *)
  {| b_to := i64x4; b_from := [i8x32; u8x32; m8x32; i16x16; u16x16; m16x16; i32x8; u32x8; f32x8; m32x8; u64x4; f64x4; m64x4; i128x2; u128x2; m128x2] |};
  (* src/api/into_bits/v256.rs:157-174 *)
  {| b_to := u64x4; b_from := [i8x32; u8x32; m8x32; i16x16; u16x16; m16x16; i32x8; u32x8; f32x8; m32x8; i64x4; f64x4; m64x4; i128x2; u128x2; m128x2] |};
  (* src/api/into_bits/v256.rs:175-192 *)
  {| b_to := f64x4; b_from := [i8x32; u8x32; m8x32; i16x16; u16x16; m16x16; i32x8; u32x8; f32x8; m32x8; i64x4; u64x4; m64x4; i128x2; u128x2; m128x2] |};
  (* src/api/into_bits/v256.rs:193-193 *)
  {| b_to := m64x4; b_from := [m128x2] |};
  (* src/api/into_bits/v256.rs:195-212 *)
  {| b_to := i128x2; b_from := [i8x32; u8x32; m8x32; i16x16; u16x16; m16x16; i32x8; u32x8; f32x8; m32x8; i64x4; u64x4; f64x4; m64x4; u128x2; m128x2] |};
  (* src/api/into_bits/v256.rs:213-230 *)
  {| b_to := u128x2; b_from := [i8x32; u8x32; m8x32; i16x16; u16x16; m16x16; i32x8; u32x8; f32x8; m32x8; i64x4; u64x4; f64x4; m64x4; i128x2; m128x2] |};
  (* src/api/into_bits/v512.rs:7-24 *)
  {| b_to := i8x64; b_from := [u8x64; m8x64; i16x32; u16x32; m16x32; i32x16; u32x16; f32x16; m32x16; i64x8; u64x8; f64x8; m64x8; i128x4; u128x4; m128x4] |};
  (* src/api/into_bits/v512.rs:25-42 *)
  {| b_to := u8x64; b_from := [i8x64; m8x64; i16x32; u16x32; m16x32; i32x16; u32x16; f32x16; m32x16; i64x8; u64x8; f64x8; m64x8; i128x4; u128x4; m128x4] |};
  (* src/api/into_bits/v512.rs:43-43 *)
  {| b_to := m8x64; b_from := [m16x32; m32x16; m64x8; m128x4] |};
  (* src/api/into_bits/v512.rs:45-62 *)
  {| b_to := i16x32; b_from := [i8x64; u8x64; m8x64; u16x32; m16x32; i32x16; u32x16; f32x16; m32x16; i64x8; u64x8; f64x8; m64x8; i128x4; u128x4; m128x4] |};
  (* src/api/into_bits/v512.rs:63-80 *)
  {| b_to := u16x32; b_from := [i8x64; u8x64; m8x64; i16x32; m16x32; i32x16; u32x16; f32x16; m32x16; i64x8; u64x8; f64x8; m64x8; i128x4; u128x4; m128x4] |};
  (* src/api/into_bits/v512.rs:81-81 *)
  {| b_to := m16x32; b_from := [m32x16; m64x8; m128x4] |};
  (* src/api/into_bits/v512.rs:83-100 *)
  {| b_to := i32x16; b_from := [i8x64; u8x64; m8x64; i16x32; u16x32; m16x32; u32x16; f32x16; m32x16; i64x8; u64x8; f64x8; m64x8; i128x4; u128x4; m128x4] |};
  (* src/api/into_bits/v512.rs:101-118 *)
  {| b_to := u32x16; b_from := [i8x64; u8x64; m8x64; i16x32; u16x32; m16x32; i32x16; f32x16; m32x16; i64x8; u64x8; f64x8; m64x8; i128x4; u128x4; m128x4] |};
  (* src/api/into_bits/v512.rs:119-136 *)
  {| b_to := f32x16; b_from := [i8x64; u8x64; m8x64; i16x32; u16x32; m16x32; i32x16; u32x16; m32x16; i64x8; u64x8; f64x8; m64x8; i128x4; u128x4; m128x4] |};
  (* src/api/into_bits/v512.rs:137-137 *)
  {| b_to := m32x16; b_from := [m64x8; m128x4] |};
  (* src/api/into_bits/v512.rs:139-156 *)
  {| b_to := i64x8; b_from := [i8x64; u8x64; m8x64; i16x32; u16x32; m16x32; i32x16; u32x16; f32x16; m32x16; u64x8; f64x8; m64x8; i128x4; u128x4; m128x4] |};
  (* src/api/into_bits/v512.rs:157-174 *)
  {| b_to := u64x8; b_from := [i8x64; u8x64; m8x64; i16x32; u16x32; m16x32; i32x16; u32x16; f32x16; m32x16; i64x8; f64x8; m64x8; i128x4; u128x4; m128x4] |};
  (* src/api/into_bits/v512.rs:175-192 *)
  {| b_to := f64x8; b_from := [i8x64; u8x64; m8x64; i16x32; u16x32; m16x32; i32x16; u32x16; f32x16; m32x16; i64x8; u64x8; m64x8; i128x4; u128x4; m128x4] |};
  (* src/api/into_bits/v512.rs:193-193 *)
  {| b_to := m64x8; b_from := [m128x4] |};
  (* src/api/into_bits/v512.rs:195-212 *)
  {| b_to := i128x4; b_from := [i8x64; u8x64; m8x64; i16x32; u16x32; m16x32; i32x16; u32x16; f32x16; m32x16; i64x8; u64x8; f64x8; m64x8; u128x4; m128x4] |};
  (* src/api/into_bits/v512.rs:213-230 *)
  {| b_to := u128x4; b_from := [i8x64; u8x64; m8x64; i16x32; u16x32; m16x32; i32x16; u32x16; f32x16; m32x16; i64x8; u64x8; f64x8; m64x8; i128x4; m128x4] |}
].
