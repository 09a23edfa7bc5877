(** C54: bitwise conversions between portable and vendor types. *)
From Coq Require Import ZArith List Bool String Lia.
From Verif.Model Require Import Base Tables Bytes Cast Vendor.
From Verif.Spec Require Import Spec Memory VendorSpec.
From Verif.Proofs Require Import Lib VendorP.
From Verif.Props Require Import Tac.
Import ListNotations.
Open Scope Z_scope.

(** C54: a conversion keeps the size and every byte in memory, and can be undone where the opposite conversion exists. *)
Theorem C54_lossless : forall be pb a x y v,
  (pb = 1 \/ pb = 2 \/ pb = 4 \/ pb = 8)%nat ->
  In (x, y) (conversions pb a) -> is_value x v ->
  size_in_bytes x = size_in_bytes y /\
  is_value y (convert_bits be x y v) /\
  (forall k b, has_byte be y (convert_bits be x y v) k b <-> has_byte be x v k b) /\
  (In (y, x) (conversions pb a) -> convert_bits be y x (convert_bits be x y v) = v).
Proof. exact vendor_lossless. Qed.
Print Assumptions C54_lossless.

(** C54: different values stay different. *)
Theorem C54_injective : forall be pb a x y v w,
  (pb = 1 \/ pb = 2 \/ pb = 4 \/ pb = 8)%nat ->
  In (x, y) (conversions pb a) -> is_value x v -> is_value x w ->
  convert_bits be x y v = convert_bits be x y w -> v = w.
Proof. exact vendor_injective. Qed.
Print Assumptions C54_injective.

(** C54: no sequence of conversions, through portable and vendor types, makes a mask with a lane that is neither all zeros nor all ones. *)
Theorem C54_masks : forall be pb a x v,
  (pb = 1 \/ pb = 2 \/ pb = 4 \/ pb = 8)%nat ->
  converted be pb a x v -> is_value x v /\ keeps_promise x v.
Proof. exact vendor_masks. Qed.
Print Assumptions C54_masks.

(** C54: only a mask or a vendor's boolean vector, with elements at least as wide, can be turned into a mask. *)
Theorem C54_into_mask : forall pb a x t,
  (pb = 1 \/ pb = 2 \/ pb = 4 \/ pb = 8)%nat ->
  In (x, Portable t) (conversions pb a) -> vkind t = KMask ->
  match x with
  | Portable s => vkind s = KMask /\ (vb t <= vb s)%nat
  | Vendor w => exists k, w_bool w = Some k /\ (vb t <= k)%nat
  end.
Proof. exact vendor_into_mask. Qed.
Print Assumptions C54_into_mask.

Example C54_example :
  let w := VT "vector_bool_int" 16 (Some 4%nat) in
  let m := [2 ^ 64 - 1; 0] in
  In (Portable m64x2, Vendor w) (conversions 8 VPowerPC64) /\
  In (Vendor w, Portable m16x8) (conversions 8 VPowerPC64) /\
  In (Portable f32x4, Vendor (VT "__m128i" 16 None)) (conversions 8 VX86_64) /\
  is_value (Portable m64x2) m /\ keeps_promise (Portable m64x2) m /\
  converted true 8 VPowerPC64 (Portable m16x8) [65535; 65535; 65535; 65535; 0; 0; 0; 0].
Proof.
  cbv zeta.
  assert (A : In (Portable m64x2, Vendor (VT "vector_bool_int" 16 (Some 4%nat))) (conversions 8 VPowerPC64)).
  { apply in_or_app. right. apply nth_error_In with 327%nat. vm_compute. reflexivity. }
  assert (B : In (Vendor (VT "vector_bool_int" 16 (Some 4%nat)), Portable m16x8) (conversions 8 VPowerPC64)).
  { apply in_or_app. right. apply nth_error_In with 342%nat. vm_compute. reflexivity. }
  assert (V : is_value (Portable m64x2) [2 ^ 64 - 1; 0]) by isv.
  assert (K : keeps_promise (Portable m64x2) [2 ^ 64 - 1; 0]) by (intros _; canon).
  split; [exact A|]. split; [exact B|].
  split; [apply in_or_app; right; apply nth_error_In with 37%nat; vm_compute; reflexivity|].
  split; [exact V|]. split; [exact K|].
  exact (step _ _ _ _ _ _ (step _ _ _ _ _ _ (start true 8 VPowerPC64 _ _ V K) A) B).
Qed.
