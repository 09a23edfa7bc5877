(** [swap_bytes] and the endian conversions (src/codegen/swap_bytes.rs,
    src/api/swap_bytes.rs). *)
From Coq Require Import ZArith List Bool.
From Verif.Model Require Import Base Llvm Bytes Tables Shuffle.
Import ListNotations.
Open Scope Z_scope.

(** The index lists of the macro's arms (18, 31, 46-48, 63-66, 81-86, 101-110). *)
Definition swap_idx2 : list nat := [1; 0]%nat.
Definition swap_idx4 : list nat := [3; 2; 1; 0]%nat.
Definition swap_idx8 : list nat := [7; 6; 5; 4; 3; 2; 1; 0]%nat.
Definition swap_idx16 : list nat :=
  [15; 14; 13; 12; 11; 10; 9; 8; 7; 6; 5; 4; 3; 2; 1; 0]%nat.
Definition swap_idx32 : list nat :=
  [31; 30; 29; 28; 27; 26; 25; 24; 23; 22; 21; 20; 19; 18; 17; 16;
   15; 14; 13; 12; 11; 10; 9; 8; 7; 6; 5; 4; 3; 2; 1; 0]%nat.
Definition swap_idx64 : list nat :=
  [63; 62; 61; 60; 59; 58; 57; 56; 55; 54; 53; 52; 51; 50; 49; 48;
   47; 46; 45; 44; 43; 42; 41; 40; 39; 38; 37; 36; 35; 34; 33; 32;
   31; 30; 29; 28; 27; 26; 25; 24; 23; 22; 21; 20; 19; 18; 17; 16;
   15; 14; 13; 12; 11; 10; 9; 8; 7; 6; 5; 4; 3; 2; 1; 0]%nat.

(** The arms of [impl_swap_bytes!] (13-116). *)
Inductive swap_arm := V16 | V32 | V64 | V128 | V256 | V512.

Definition swap_view (a : swap_arm) : vty * list nat :=
  match a with
  | V16 => (u8x2, swap_idx2)
  | V32 => (u8x4, swap_idx4)
  | V64 => (u8x8, swap_idx8)
  | V128 => (u8x16, swap_idx16)
  | V256 => (u8x32, swap_idx32)
  | V512 => (u8x64, swap_idx64)
  end.

(** v16 (13-22) shuffles the lanes of [self]; the other arms (23-116) transmute to
    bytes, shuffle and transmute back. *)
Definition swap_with (be sz : bool) (a : swap_arm) (t : vty) (self : vec) : outcome vec :=
  match a with
  | V16 => shuffled (shuffle1 sz t self swap_idx2)
  | _ =>
      let (bt, idx) := swap_view a in
      r <- shuffled (shuffle1 false bt (transmute be (vb t) 1 (vn bt) self) idx) ;;
      Ok (transmute be 1 (vb t) (vn t) r)
  end.

(** The types of each arm (119-127); [None]: no implementation. *)
Definition swap_arm_of (b n : nat) : option swap_arm :=
  match b, n with
  | 1, 2 => Some V16
  | 1, 4 | 2, 2 => Some V32
  | 1, 8 | 2, 4 | 4, 2 => Some V64
  | 1, 16 | 2, 8 | 4, 4 | 8, 2 | 16, 1 => Some V128
  | 1, 32 | 2, 16 | 4, 8 | 8, 4 | 16, 2 => Some V256
  | 1, 64 | 2, 32 | 4, 16 | 8, 8 | 16, 4 => Some V512
  | _, _ => None
  end%nat.

(** The pointer-sized types (129-149), by pointer width in bytes. *)
Definition swap_arm_size (pb n : nat) : option swap_arm :=
  match pb, n with
  | 1, 2 => Some V16 | 1, 4 => Some V32 | 1, 8 => Some V64
  | 2, 2 => Some V32 | 2, 4 => Some V64 | 2, 8 => Some V128
  | 4, 2 => Some V64 | 4, 4 => Some V128 | 4, 8 => Some V256
  | 8, 2 => Some V128 | 8, 4 => Some V256 | 8, 8 => Some V512
  | _, _ => None
  end%nat.

(** [v.swap_bytes()] (src/api/swap_bytes.rs:8-10). *)
Definition swap_bytes (be sz : bool) (t : vty) (self : vec) : outcome vec :=
  match (if sz then swap_arm_size else swap_arm_of) (vb t) (vn t) with
  | Some a => swap_with be sz a t self
  | None => UB
  end.

(** to_le 17-26, to_be 33-42, from_le 49-58, from_be 65-74; [be]: the target is
    big-endian. *)
Definition to_le (be sz : bool) (t : vty) (self : vec) : outcome vec :=
  if negb be then Ok self else swap_bytes be sz t self.
Definition to_be (be sz : bool) (t : vty) (self : vec) : outcome vec :=
  if be then Ok self else swap_bytes be sz t self.
Definition from_le (be sz : bool) (t : vty) (x : vec) : outcome vec :=
  if negb be then Ok x else swap_bytes be sz t x.
Definition from_be (be sz : bool) (t : vty) (x : vec) : outcome vec :=
  if be then Ok x else swap_bytes be sz t x.
