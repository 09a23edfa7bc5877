(** Vocabulary for the conversions with vendor types. *)
From Coq Require Import ZArith List Bool.
From Verif.Model Require Import Base Bytes Tables Vendor.
From Verif.Spec Require Import Spec Memory.
Import ListNotations.
Open Scope Z_scope.

(** Size in bytes. *)
Definition size_in_bytes (x : bits_type) : nat :=
  match x with Portable t => (vb t * vn t)%nat | Vendor w => w_size w end.

(** [v] is a value of the type: a vector, or that many bytes. *)
Definition is_value (x : bits_type) (v : list Z) : Prop :=
  match x with
  | Portable t => is_vector t v
  | Vendor w => length v = w_size w /\ Forall (fun a => 0 <= a < 256) v
  end.

(** Byte [k] of the value, in address order, is [a]. *)
Definition has_byte (be : bool) (x : bits_type) (v : list Z) (k : nat) (a : Z) : Prop :=
  match x with
  | Portable t => vector_byte be t v k a
  | Vendor _ => nth_error v k = Some a
  end.

(** A boolean type's value keeps its promise: the lanes of a mask, and the elements of a
    vendor's boolean vector, are all zeros or all ones. *)
Definition keeps_promise (x : bits_type) (v : list Z) : Prop :=
  match x with
  | Portable t => vkind t = KMask -> canonical t v
  | Vendor w => forall k, w_bool w = Some k ->
      exists cs : list bool, v = flat_map (fun c : bool => repeat (if c then 255 else 0) k) cs
  end.

(** The values a program can get by starting with any values (mask and boolean types: any
    that keep the promise) and converting them with from_bits / into_bits as often as it
    likes, on one target. *)
Inductive converted (be : bool) (pb : nat) (a : vendor_arch) : bits_type -> list Z -> Prop :=
| start x v : is_value x v -> keeps_promise x v -> converted be pb a x v
| step x y v : converted be pb a x v -> In (x, y) (conversions pb a) ->
    converted be pb a y (convert_bits be x y v).
