(** C20, C32 - C35: casts and conversions. *)
From Coq Require Import ZArith List Bool Lia.
From Verif.Model Require Import Base Tables Bytes Minimal MaskReduce Cmp Cast.
From Verif.Spec Require Import Spec Memory Conv.
From Verif.Proofs Require Import Lib CastP VendorP.
From Verif.Props Require Import Tac Targets.
Import ListNotations.
Open Scope Z_scope.

(** C32: every cast of the crate between integer and mask vectors: integers wrap, a mask becomes all-ones / zero, an integer becomes the mask lane "not zero" (m128x1 excepted, see C20). *)
Theorem C32_casts : forall pb e src x,
  In e (cast_table pb) -> In src (c_from e) ->
  (integer_type src -> integer_type (c_to e) -> is_vector src x ->
     exists r, cast (c_impl e) src (c_to e) x = Ok r /\
       lanewise1 (c_to e) x r (fun a c =>
         wraps_to (c_to e) (value src a) (value (c_to e) c) /\
         (in_range (c_to e) (value src a) -> value (c_to e) c = value src a))) /\
  (mask_type src -> integer_type (c_to e) -> canonical src x ->
     exists r, cast (c_impl e) src (c_to e) x = Ok r /\
       lanewise1 (c_to e) x r (fun a c => c = mask_lane (c_to e) (truth a))) /\
  (integer_type src -> mask_type (c_to e) -> c_to e <> m128x1 -> is_vector src x ->
     exists r, cast (c_impl e) src (c_to e) x = Ok r /\ canonical (c_to e) r /\
       lanewise1 (c_to e) x r (fun a c => c = mask_lane (c_to e) (negb (value src a =? 0)))) /\
  (mask_type src -> mask_type (c_to e) -> canonical src x ->
     exists r, cast (c_impl e) src (c_to e) x = Ok r /\ canonical (c_to e) r /\
       lanewise1 (c_to e) x r (fun a c => c = mask_lane (c_to e) (truth a))).
Proof. exact casts. Qed.
Print Assumptions C32_casts.

(** C32: a true lane is -1 as a signed and the largest value as an unsigned integer. *)
Theorem C32_mask_values : forall t,
  integer_type t ->
  value t (mask_lane t false) = 0 /\
  (vkind t = KInt -> value t (mask_lane t true) = -1) /\
  (vkind t = KUint -> value t (mask_lane t true) = max_value t).
Proof. exact mask_lane_values. Qed.
Print Assumptions C32_mask_values.

(** C32: casts keep the number of lanes; integer-to-mask casts are tests against zero with one exception. *)
Theorem C32_shape : forall pb e src,
  In e (cast_table pb) -> In src (c_from e) ->
  vn src = vn (c_to e) /\
  (vkind (c_to e) <> KMask -> c_impl e = PlainCast) /\
  (vkind (c_to e) = KMask -> c_to e = m128x1 \/ c_impl e = MaskCast).
Proof. exact cast_table_shape. Qed.
Print Assumptions C32_shape.

Example C32_example : exists e1 e2,
  In e1 (cast_table 8) /\ In i16x2 (c_from e1) /\ c_to e1 = u8x2 /\ integer_type i16x2 /\
  is_vector i16x2 [65535; 300] /\ cast (c_impl e1) i16x2 u8x2 [65535; 300] = Ok [255; 44] /\
  In e2 (cast_table 8) /\ In i16x2 (c_from e2) /\ c_to e2 = m8x2 /\ mask_type m8x2 /\
  cast (c_impl e2) i16x2 m8x2 [2; 0] = Ok [255; 0].
Proof.
  destruct (find (fun e => vty_eqb (c_to e) u8x2) (cast_table 8)) as [e1|] eqn:E1; [|vm_compute in E1; discriminate].
  destruct (find (fun e => vty_eqb (c_to e) m8x2) (cast_table 8)) as [e2|] eqn:E2; [|vm_compute in E2; discriminate].
  exists e1, e2. pose proof (find_some _ _ E1) as [I1 _]. pose proof (find_some _ _ E2) as [I2 _].
  vm_compute in E1. injection E1 as <-. vm_compute in E2. injection E2 as <-.
  split; [exact I1|]. split; [cbn; tauto|]. split; [reflexivity|]. split; [ity|]. split; [isv|].
  split; [vm_compute; reflexivity|]. split; [exact I2|]. split; [cbn; tauto|]. split; [reflexivity|].
  split; [ty|]. vm_compute; reflexivity.
Qed.

(** C20: a cast to m128x1 copies the bits: the result is a proper mask exactly for 0 and all-ones. *)
Theorem C20_m128x1 : forall pb e src x,
  In e (cast_table pb) -> c_to e = m128x1 -> In src (c_from e) -> is_vector src x ->
  exists p, x = [p] /\ cast (c_impl e) src m128x1 x = Ok [p] /\
    (canonical m128x1 [p] <-> p = 0 \/ p = 2 ^ 128 - 1).
Proof. exact m128x1_cast. Qed.
Print Assumptions C20_m128x1.

(** C20: so a cast can produce a mask whose lane is neither true nor false: it and
    its complement both extract as true, and select is undefined. *)
Theorem C20_canonical_refuted : exists e src x m,
  In e (cast_table 8) /\ c_to e = m128x1 /\ In src (c_from e) /\ integer_type src /\ is_vector src x /\
  cast (c_impl e) src m128x1 x = Ok m /\ ~ canonical m128x1 m /\
  mask_extract m128x1 m 0 = Ok true /\ mask_extract m128x1 (Ops.mask_not m128x1 m) 0 = Ok true /\
  select m128x1 m [5] [6] = UB.
Proof.
  destruct (find (fun e => vty_eqb (c_to e) m128x1) (cast_table 8)) as [e1|] eqn:E1; [|vm_compute in E1; discriminate].
  exists e1, i128x1, [1], [1]. pose proof (find_some _ _ E1) as [I1 _].
  vm_compute in E1. injection E1 as <-.
  split; [exact I1|]. split; [reflexivity|]. split; [cbn; tauto|]. split; [ity|]. split; [isv|].
  split; [vm_compute; reflexivity|]. split; [|repeat split; vm_compute; reflexivity].
  intros [_ F]. inversion F as [|? ? [H|H] _]; vm_compute in H; discriminate.
Qed.
Print Assumptions C20_canonical_refuted.

(** C33: From between integer vectors keeps every lane's value. *)
Theorem C33_integers : forall pb d src x,
  In d (decls pb) -> In src (d_from d) ->
  integer_type src -> integer_type (d_ty d) -> is_vector src x ->
  exists r, from_vector src (d_ty d) x = Ok r /\
    lanewise1 (d_ty d) x r (fun a c => value (d_ty d) c = value src a).
Proof. exact from_integers. Qed.
Print Assumptions C33_integers.

(** C33: From between masks keeps every lane's truth value. *)
Theorem C33_masks : forall pb d src x,
  In d (decls pb) -> In src (d_from d) ->
  mask_type src -> canonical src x ->
  mask_type (d_ty d) /\
  exists r, from_vector src (d_ty d) x = Ok r /\ canonical (d_ty d) r /\
    lanewise1 (d_ty d) x r (fun a c => c = mask_lane (d_ty d) (truth a)).
Proof. exact from_masks. Qed.
Print Assumptions C33_masks.

Example C33_example : exists d,
  In d (decls 8) /\ In i8x4 (d_from d) /\ d_ty d = i32x4 /\ integer_type i8x4 /\ integer_type i32x4 /\
  is_vector i8x4 [255; 1; 128; 0] /\
  from_vector i8x4 i32x4 [255; 1; 128; 0] = Ok [4294967295; 1; 4294967168; 0].
Proof.
  destruct (find (fun d => vty_eqb (d_ty d) i32x4) (decls 8)) as [d|] eqn:E; [|vm_compute in E; discriminate].
  exists d. pose proof (find_some _ _ E) as [I _]. vm_compute in E. injection E as <-.
  split; [exact I|]. split; [cbn; tauto|]. split; [reflexivity|]. split; [ity|]. split; [ity|].
  split; [isv|]. vm_compute; reflexivity.
Qed.

(** C34: vectors and arrays convert into each other without change, element i being lane i. *)
Theorem C34_arrays : forall be t,
  (forall a, length a = vn t -> Forall (fun p => 0 <= p < 2 ^ width t) a ->
     is_vector t (from_array be t a) /\
     (forall i p, lane (from_array be t a) i p <-> nth_error a i = Some p) /\
     into_array be t (from_array be t a) = a) /\
  (forall v, is_vector t v ->
     (forall i p, nth_error (into_array be t v) i = Some p <-> lane v i p) /\
     from_array be t (into_array be t v) = v).
Proof. exact array_round_trip. Qed.
Print Assumptions C34_arrays.

Example C34_example :
  is_vector u16x4 [1; 65535; 3; 4] /\ from_array true u16x4 [1; 65535; 3; 4] = [1; 65535; 3; 4] /\
  into_array false u16x4 [1; 65535; 3; 4] = [1; 65535; 3; 4].
Proof. split; [isv|]. split; vm_compute; reflexivity. Qed.

(** C35: into_bits keeps the size and every byte in memory and can be undone. *)
Theorem C35_bits : forall be pb e src x,
  (pb = 1 \/ pb = 2 \/ pb = 4 \/ pb = 8)%nat ->
  In e (bits_table pb) -> In src (b_from e) -> is_vector src x ->
  width src * Z.of_nat (vn src) = width (b_to e) * Z.of_nat (vn (b_to e)) /\
  is_vector (b_to e) (into_bits be src (b_to e) x) /\
  (forall k a, vector_byte be (b_to e) (into_bits be src (b_to e) x) k a <-> vector_byte be src x k a) /\
  into_bits be (b_to e) src (into_bits be src (b_to e) x) = x.
Proof. exact bits_bytes. Qed.
Print Assumptions C35_bits.

(** C35: into_bits yields a mask only from a mask with lanes at least as wide, and each wide lane becomes several narrow ones of the same truth value. *)
Theorem C35_masks : forall be pb e src x,
  (pb = 1 \/ pb = 2 \/ pb = 4 \/ pb = 8)%nat ->
  In e (bits_table pb) -> In src (b_from e) -> vkind (b_to e) = KMask ->
  vkind src = KMask /\
  (canonical src x ->
   canonical (b_to e) (into_bits be src (b_to e) x) /\
   exists r, vn (b_to e) = (vn src * r)%nat /\ vb src = (vb (b_to e) * r)%nat /\
     forall i p k, lane x i p -> (k < r)%nat ->
       lane (into_bits be src (b_to e) x) (i * r + k) (mask_lane (b_to e) (truth p))).
Proof. exact bits_masks. Qed.
Print Assumptions C35_masks.

Example C35_example : exists e,
  In e (bits_table 8) /\ In u16x4 (b_from e) /\ b_to e = u8x8 /\ is_vector u16x4 [258; 772; 0; 65535] /\
  into_bits false u16x4 u8x8 [258; 772; 0; 65535] = [2; 1; 4; 3; 0; 0; 255; 255] /\
  into_bits true u16x4 u8x8 [258; 772; 0; 65535] = [1; 2; 3; 4; 0; 0; 255; 255].
Proof.
  destruct (find (fun d => vty_eqb (b_to d) u8x8) (bits_table 8)) as [d|] eqn:E; [|vm_compute in E; discriminate].
  exists d. pose proof (find_some _ _ E) as [I _]. vm_compute in E. injection E as <-.
  split; [exact I|]. split; [cbn; tauto|]. split; [reflexivity|].
  split; [isv|]. split; vm_compute; reflexivity.
Qed.
