(** Conversions between the portable vector types and the vendors' (SIMD intrinsics')
    types: src/api/into_bits/arch_specific.rs, transcribed. *)
From Coq Require Import ZArith List Bool String.
From Verif.Model Require Import Base Bytes Tables Cast.
Import ListNotations.
Open Scope string_scope.
Open Scope nat_scope.

(** A vendor type: name, size in bytes, and for AltiVec's boolean vectors the size of an
    element, whose values the vendor defines to be all zeros or all ones. *)
Record vendor := VT { w_name : string; w_size : nat; w_bool : option nat }.

(** The architectures named in the file.  The conversions of [Arm] need its NEON features,
    those of [PowerPC] need AltiVec (lines 38-45, 51-58); without them the table is empty. *)
Inductive vendor_arch := VX86 | VX86_64 | VArm | VAarch64 | VPowerPC | VPowerPC64.

(** One [impl_arch!]: the vendor types of an architecture, the portable types they can be
    made from (impl_from_bits!, line 75) and the portable types they can be turned into
    (impl_into_bits!, line 76). *)
Record vendor_block := { k_vendors : vendor_arch -> list vendor; k_from : list vty; k_into : list vty }.

(** arch_specific.rs:86-129 *)
Definition block1 : vendor_block := {|
  k_vendors := fun a => match a with
    | VArm => [VT "int8x8_t" 8 None; VT "uint8x8_t" 8 None; VT "poly8x8_t" 8 None;
        VT "int16x4_t" 8 None; VT "uint16x4_t" 8 None; VT "poly16x4_t" 8 None;
        VT "int32x2_t" 8 None; VT "uint32x2_t" 8 None; VT "float32x2_t" 8 None;
        VT "int64x1_t" 8 None; VT "uint64x1_t" 8 None]
    | VAarch64 => [VT "int8x8_t" 8 None; VT "uint8x8_t" 8 None; VT "poly8x8_t" 8 None;
        VT "int16x4_t" 8 None; VT "uint16x4_t" 8 None; VT "poly16x4_t" 8 None;
        VT "int32x2_t" 8 None; VT "uint32x2_t" 8 None; VT "float32x2_t" 8 None;
        VT "int64x1_t" 8 None; VT "uint64x1_t" 8 None; VT "float64x1_t" 8 None]
    | _ => []
    end;
  k_from := [i8x8; u8x8; m8x8; i16x4; u16x4; m16x4; i32x2; u32x2; f32x2; m32x2];
  k_into := [i8x8; u8x8; i16x4; u16x4; i32x2; u32x2; f32x2]
|}.

(** arch_specific.rs:142-220 *)
Definition block2 : vendor_block := {|
  k_vendors := fun a => match a with
    | VX86 => [VT "__m128" 16 None; VT "__m128i" 16 None; VT "__m128d" 16 None]
    | VX86_64 => [VT "__m128" 16 None; VT "__m128i" 16 None; VT "__m128d" 16 None]
    | VArm => [VT "int8x16_t" 16 None; VT "uint8x16_t" 16 None; VT "poly8x16_t" 16 None;
        VT "int16x8_t" 16 None; VT "uint16x8_t" 16 None; VT "poly16x8_t" 16 None;
        VT "int32x4_t" 16 None; VT "uint32x4_t" 16 None; VT "float32x4_t" 16 None;
        VT "int64x2_t" 16 None; VT "uint64x2_t" 16 None]
    | VAarch64 => [VT "int8x16_t" 16 None; VT "uint8x16_t" 16 None; VT "poly8x16_t" 16 None;
        VT "int16x8_t" 16 None; VT "uint16x8_t" 16 None; VT "poly16x8_t" 16 None;
        VT "int32x4_t" 16 None; VT "uint32x4_t" 16 None; VT "float32x4_t" 16 None;
        VT "int64x2_t" 16 None; VT "uint64x2_t" 16 None; VT "float64x2_t" 16 None]
    | VPowerPC => [VT "vector_signed_char" 16 None; VT "vector_unsigned_char" 16 None;
        VT "vector_signed_short" 16 None; VT "vector_unsigned_short" 16 None;
        VT "vector_signed_int" 16 None; VT "vector_unsigned_int" 16 None;
        VT "vector_float" 16 None]
    | VPowerPC64 => [VT "vector_signed_char" 16 None; VT "vector_unsigned_char" 16 None;
        VT "vector_signed_short" 16 None; VT "vector_unsigned_short" 16 None;
        VT "vector_signed_int" 16 None; VT "vector_unsigned_int" 16 None;
        VT "vector_float" 16 None; VT "vector_signed_long" 16 None;
        VT "vector_unsigned_long" 16 None; VT "vector_double" 16 None]
    end;
  k_from := [i8x16; u8x16; m8x16; i16x8; u16x8; m16x8; i32x4; u32x4; f32x4; m32x4; i64x2; u64x2;
     f64x2; m64x2; i128x1; u128x1; m128x1];
  k_into := [i8x16; u8x16; i16x8; u16x8; i32x4; u32x4; f32x4; i64x2; u64x2; f64x2; i128x1; u128x1]
|}.

(** arch_specific.rs:222-242 *)
Definition block3 : vendor_block := {|
  k_vendors := fun a => match a with
    | VPowerPC => [VT "vector_bool_char" 16 (Some 1)]
    | VPowerPC64 => [VT "vector_bool_char" 16 (Some 1)]
    | _ => []
    end;
  k_from := [m8x16; m16x8; m32x4; m64x2; m128x1];
  k_into := [i8x16; u8x16; i16x8; u16x8; i32x4; u32x4; f32x4; i64x2; u64x2; f64x2; i128x1; u128x1;
     m8x16]
|}.

(** arch_specific.rs:244-264 *)
Definition block4 : vendor_block := {|
  k_vendors := fun a => match a with
    | VPowerPC => [VT "vector_bool_short" 16 (Some 2)]
    | VPowerPC64 => [VT "vector_bool_short" 16 (Some 2)]
    | _ => []
    end;
  k_from := [m16x8; m32x4; m64x2; m128x1];
  k_into := [i8x16; u8x16; i16x8; u16x8; i32x4; u32x4; f32x4; i64x2; u64x2; f64x2; i128x1; u128x1;
     m8x16; m16x8]
|}.

(** arch_specific.rs:266-286 *)
Definition block5 : vendor_block := {|
  k_vendors := fun a => match a with
    | VPowerPC => [VT "vector_bool_int" 16 (Some 4)]
    | VPowerPC64 => [VT "vector_bool_int" 16 (Some 4)]
    | _ => []
    end;
  k_from := [m32x4; m64x2; m128x1];
  k_into := [i8x16; u8x16; i16x8; u16x8; i32x4; u32x4; f32x4; i64x2; u64x2; f64x2; i128x1; u128x1;
     m8x16; m16x8; m32x4]
|}.

(** arch_specific.rs:288-307 *)
Definition block6 : vendor_block := {|
  k_vendors := fun a => match a with
    | VPowerPC64 => [VT "vector_bool_long" 16 (Some 8)]
    | _ => []
    end;
  k_from := [m64x2; m128x1];
  k_into := [i8x16; u8x16; i16x8; u16x8; i32x4; u32x4; f32x4; i64x2; u64x2; f64x2; i128x1; u128x1;
     m8x16; m16x8; m32x4; m64x2]
|}.

(** arch_specific.rs:312-342 *)
Definition block7 : vendor_block := {|
  k_vendors := fun a => match a with
    | VX86 => [VT "__m256" 32 None; VT "__m256i" 32 None; VT "__m256d" 32 None]
    | VX86_64 => [VT "__m256" 32 None; VT "__m256i" 32 None; VT "__m256d" 32 None]
    | _ => []
    end;
  k_from := [i8x32; u8x32; m8x32; i16x16; u16x16; m16x16; i32x8; u32x8; f32x8; m32x8; i64x4; u64x4;
     f64x4; m64x4; i128x2; u128x2; m128x2];
  k_into := [i8x32; u8x32; i16x16; u16x16; i32x8; u32x8; f32x8; i64x4; u64x4; f64x4; i128x2; u128x2]
|}.

Definition vendor_blocks : list vendor_block := [block1; block2; block3; block4; block5; block6; block7].

(** A type with [FromBits]: portable or vendor.  The value of a vendor type is the list of
    its bytes in memory. *)
Inductive bits_type := Portable (t : vty) | Vendor (w : vendor).

(** The implementations [FromBits<x> for y], as pairs (x, y): those between portable types
    (Tables.bits_table) and those with vendor types. *)
Definition portable_conversions (pb : nat) : list (bits_type * bits_type) :=
  flat_map (fun e => map (fun s => (Portable s, Portable (b_to e))) (b_from e)) (bits_table pb).
Definition vendor_conversions (a : vendor_arch) : list (bits_type * bits_type) :=
  flat_map (fun k =>
    flat_map (fun w =>
      (map (fun s => (Portable s, Vendor w)) (k_from k) ++
       map (fun t => (Vendor w, Portable t)) (k_into k))%list) (k_vendors k a)) vendor_blocks.
Definition conversions (pb : nat) (a : vendor_arch) : list (bits_type * bits_type) :=
  (portable_conversions pb ++ vendor_conversions a)%list.

(** [from_bits] is [mem::transmute] (src/api/into_bits/macros.rs:7-9).  (No pair has two
    vendor types.) *)
Definition convert_bits (be : bool) (x y : bits_type) (v : list Z) : list Z :=
  match x, y with
  | Portable s, Portable t => from_bits be s t v
  | Portable s, Vendor _ => image be (vb s) v
  | Vendor _, Portable t => of_image be (vb t) (vn t) v
  | Vendor _, Vendor _ => v
  end.
