(** C14 - C18, C21: comparisons, order, select, mask reductions. *)
From Coq Require Import ZArith List Bool Lia.
From Verif.Model Require Import Base ScalarMask Tables Minimal MaskReduce Ops Cmp.
From Verif.Spec Require Import Spec.
From Verif.Proofs Require Import Lib MaskReduceP CmpP LawsP ExtraP.
From Verif.Props Require Import Tac Targets.
Import ListNotations.
Open Scope Z_scope.

(** C14: each lane of min/max is the smaller/larger of the two lanes. *)
Theorem C14_min_max : forall t x y,
  integer_type t -> is_vector t x -> is_vector t y ->
  (exists r, vmin t x y = Ok r /\
     lanewise2 t x y r (fun a b c => value t c = Z.min (value t a) (value t b))) /\
  (exists r, vmax t x y = Ok r /\
     lanewise2 t x y r (fun a b c => value t c = Z.max (value t a) (value t b))).
Proof. exact integer_min_max. Qed.
Print Assumptions C14_min_max.

(** C14: min and max are idempotent, commutative, associative and absorb each other. *)
Theorem C14_laws : forall t x y z,
  integer_type t -> is_vector t x -> is_vector t y -> is_vector t z ->
  vmin t x x = Ok x /\ vmax t x x = Ok x /\
  vmin t x y = vmin t y x /\ vmax t x y = vmax t y x /\
  (exists xy yz, vmin t x y = Ok xy /\ vmin t y z = Ok yz /\ vmin t xy z = vmin t x yz) /\
  (exists xy yz, vmax t x y = Ok xy /\ vmax t y z = Ok yz /\ vmax t xy z = vmax t x yz) /\
  (exists m, vmax t x y = Ok m /\ vmin t x m = Ok x) /\
  (exists m, vmin t x y = Ok m /\ vmax t x m = Ok x).
Proof. exact min_max_laws. Qed.
Print Assumptions C14_laws.

Example C14_example :
  integer_type i8x4 /\ is_vector i8x4 [255; 3; 128; 7] /\ is_vector i8x4 [1; 2; 127; 7] /\
  vmin i8x4 [255; 3; 128; 7] [1; 2; 127; 7] = Ok [255; 2; 128; 7] /\
  vmax u8x4 [255; 3; 128; 7] [1; 2; 127; 7] = Ok [255; 3; 128; 7].
Proof. split; [ity|]. split; [isv|]. split; [isv|]. split; vm_compute; reflexivity. Qed.

(** C15: comparisons return canonical masks whose lanes are the lane-wise relation. *)
Theorem C15_comparisons : forall t x y,
  ordered_type t -> valid t x -> valid t y ->
  let ok (m : vec) (R : Z -> Z -> bool) :=
    canonical (mask_of t) m /\
    forall i a b, lane x i a -> lane y i b ->
      lane m i (mask_lane (mask_of t) (R (key t a) (key t b))) in
  ok (veq t x y) Z.eqb /\ ok (vne t x y) (fun a b => negb (a =? b)) /\
  ok (vlt t x y) Z.ltb /\ ok (vle t x y) Z.leb /\
  ok (vgt t x y) Z.gtb /\ ok (vge t x y) Z.geb.
Proof. exact vertical_comparisons. Qed.
Print Assumptions C15_comparisons.

(** C15: lt/ge, gt/le and eq/ne are complementary. *)
Theorem C15_complementary : forall t x y,
  ordered_type t -> valid t x -> valid t y ->
  mask_not (mask_of t) (vlt t x y) = vge t x y /\
  mask_not (mask_of t) (vgt t x y) = vle t x y /\
  mask_not (mask_of t) (veq t x y) = vne t x y.
Proof. exact comparisons_complementary. Qed.
Print Assumptions C15_complementary.

(** C15: the same order on single mask elements. *)
Theorem C15_mask_elements : forall b (c d : bool),
  (0 < b)%nat ->
  let e := smask_new b in
  smask_test b (e c) = c /\
  smask_eq b (e c) (e d) = Bool.eqb c d /\ smask_ne b (e c) (e d) = negb (Bool.eqb c d) /\
  smask_lt b (e c) (e d) = (negb c && d) /\ smask_le b (e c) (e d) = (negb c || d) /\
  smask_gt b (e c) (e d) = (c && negb d) /\ smask_ge b (e c) (e d) = (c || negb d) /\
  smask_cmp b (e c) (e d) = Ok (match c, d with false, true => Lt | true, false => Gt | _, _ => Eq end) /\
  smask_default b = e false.
Proof. exact mask_elements. Qed.
Print Assumptions C15_mask_elements.

Example C15_example :
  ordered_type i8x2 /\ valid i8x2 [255; 3] /\ valid i8x2 [1; 3] /\
  vlt i8x2 [255; 3] [1; 3] = [255; 0] /\ vle i8x2 [255; 3] [1; 3] = [255; 255] /\
  ordered_type m8x2 /\ valid m8x2 [0; 255] /\ valid m8x2 [255; 255] /\
  vlt m8x2 [0; 255] [255; 255] = [255; 0].
Proof.
  split; [left; ity|]. split; [split; [isv|discriminate]|]. split; [split; [isv|discriminate]|].
  do 2 (split; [vm_compute; reflexivity|]).
  split; [right; ty|]. split; [split; [isv|intros _; canon]|]. split; [split; [isv|intros _; canon]|].
  vm_compute; reflexivity.
Qed.

(** C16: == is true exactly on equal vectors and != exactly on different ones, on every target, and so they are for the wrapper returned by lex_ord. *)
Theorem C16_equality : forall tg t x y,
  ordered_type t -> crate_shape t -> valid t x -> valid t y ->
  (exists r, op_eq tg t x y = Ok r /\ lex_eq tg t x y = Ok r /\ (r = true <-> x = y)) /\
  (exists r, op_ne tg t x y = Ok r /\ lex_ne tg t x y = Ok r /\ (r = true <-> x <> y)).
Proof. exact equality_operators_full. Qed.
Print Assumptions C16_equality.

(** C16: the same for isizexN, usizexN and msizexN, whose reductions have implementations of their own. *)
Theorem C16_pointer_sized : forall tg k n x y,
  t_ptr tg = 4%nat \/ t_ptr tg = 8%nat -> n = 2%nat \/ n = 4%nat \/ n = 8%nat ->
  k = KInt \/ k = KUint \/ k = KMask ->
  let t := V k (t_ptr tg) n in
  valid t x -> valid t y ->
  (exists r, size_op_eq tg k n x y = Some (Ok r) /\ (r = true <-> x = y)) /\
  (exists r, size_op_ne tg k n x y = Some (Ok r) /\ (r = true <-> x <> y)).
Proof. exact pointer_sized_equality. Qed.
Print Assumptions C16_pointer_sized.

Example C16_example :
  ordered_type i32x4 /\ crate_shape i32x4 /\ valid i32x4 [1; 2; 3; 4] /\ valid i32x4 [1; 2; 3; 5] /\
  op_eq x86_64_avx2 i32x4 [1; 2; 3; 4] [1; 2; 3; 4] = Ok true /\
  op_eq x86_64_avx2 i32x4 [1; 2; 3; 4] [1; 2; 3; 5] = Ok false /\
  op_ne x86_64_avx2 i32x4 [1; 2; 3; 4] [1; 2; 3; 5] = Ok true /\
  size_op_eq x86_64_avx2 KInt 2 [1; 2] [1; 2] = Some (Ok true) /\
  size_op_ne x86_64_avx2 KUint 4 [1; 2; 3; 4] [1; 2; 3; 4] = Some (Ok false).
Proof.
  split; [left; ity|]. split; [vm_compute; tauto|].
  split; [split; [isv|discriminate]|]. split; [split; [isv|discriminate]|].
  repeat split; vm_compute; reflexivity.
Qed.

(** C17: all comparison methods of the wrapper agree with the lexicographic order; cmp never reaches its unreachable branch. *)
Theorem C17_order : forall tg t x y,
  ordered_type t -> crate_shape t -> valid t x -> valid t y ->
  (exists c, lex_partial_cmp tg t x y = Ok (Some c) /\ lex_cmp tg t x y = Ok c /\
     (c = Eq <-> x = y) /\ (c = Lt <-> lex_less t x y) /\ (c = Gt <-> lex_less t y x)) /\
  (exists r, lex_lt t x y = Ok r /\ (r = true <-> lex_less t x y)) /\
  (exists r, lex_gt t x y = Ok r /\ (r = true <-> lex_less t y x)) /\
  (exists r, lex_le tg t x y = Ok r /\ (r = true <-> lex_less t x y \/ x = y)) /\
  (exists r, lex_ge tg t x y = Ok r /\ (r = true <-> lex_less t y x \/ x = y)).
Proof. exact lexicographic_order. Qed.
Print Assumptions C17_order.

(** C17: the order is transitive. *)
Theorem C17_transitive : forall t x y z,
  ordered_type t -> valid t x -> valid t y -> valid t z ->
  lex_less t x y -> lex_less t y z -> lex_less t x z.
Proof. exact lex_less_trans. Qed.
Print Assumptions C17_transitive.

(** C17: and irreflexive. *)
Theorem C17_irreflexive : forall t x,
  ~ lex_less t x x.
Proof. exact lex_less_irrefl. Qed.
Print Assumptions C17_irreflexive.

Example C17_example :
  lex_cmp x86_64_avx2 i32x4 [1; 2; 3; 4] [1; 4294967295; 9; 9] = Ok Gt /\
  lex_cmp x86_64_avx2 u32x4 [1; 2; 3; 4] [1; 4294967295; 9; 9] = Ok Lt /\
  lex_less u32x4 [1; 2; 3; 4] [1; 4294967295; 9; 9].
Proof.
  split; [vm_compute; reflexivity|]. split; [vm_compute; reflexivity|].
  exists 1%nat, 2, 4294967295. split; [reflexivity|]. split; [reflexivity|]. split; [vm_compute; reflexivity|].
  intros [|j] p q H P Q; [|lia]. unfold lane in *; cbn in P, Q; congruence.
Qed.

(** C18: select takes lane i of the first operand where the mask lane is true, of the second where it is false. *)
Theorem C18_select : forall tm t m x y,
  mask_type tm -> vector_type t -> vn tm = vn t -> canonical tm m -> is_vector t x -> is_vector t y ->
  exists r, select tm m x y = Ok r /\ is_vector t r /\
    forall i c a b, lane m i (mask_lane tm c) -> lane x i a -> lane y i b ->
      lane r i (if c then a else b).
Proof. exact select_picks. Qed.
Print Assumptions C18_select.

(** C18: selecting with the complement swaps the arms. *)
Theorem C18_select_not : forall tm t m x y,
  mask_type tm -> vector_type t -> vn tm = vn t -> canonical tm m -> is_vector t x -> is_vector t y ->
  select tm (mask_not tm m) x y = select tm m y x.
Proof. exact select_not. Qed.
Print Assumptions C18_select_not.

Example C18_example :
  mask_type m8x4 /\ vector_type i32x4 /\ canonical m8x4 [255; 0; 0; 255] /\
  is_vector i32x4 [1; 2; 3; 4] /\ is_vector i32x4 [5; 6; 7; 8] /\
  select m8x4 [255; 0; 0; 255] [1; 2; 3; 4] [5; 6; 7; 8] = Ok [1; 6; 7; 4].
Proof.
  split; [ty|]. split; [ty|]. split; [canon|]. split; [isv|]. split; [isv|]. vm_compute; reflexivity.
Qed.

(** C21: all/any/none on every target and every mask type. *)
Theorem C21_reductions : forall tg t m,
  In t mask_types -> canonical t m ->
  (exists r, all tg t m = Ok r /\ (r = true <-> forall i p, lane m i p -> truth p = true)) /\
  (exists r, any tg t m = Ok r /\ (r = true <-> exists i p, lane m i p /\ truth p = true)) /\
  (exists r, none tg t m = Ok r /\ (r = true <-> ~ exists i p, lane m i p /\ truth p = true)).
Proof. exact mask_reductions. Qed.
Print Assumptions C21_reductions.

(** C21: the same for the pointer-sized masks. *)
Theorem C21_msize : forall tg n m,
  t_ptr tg = 4%nat \/ t_ptr tg = 8%nat -> n = 2%nat \/ n = 4%nat \/ n = 8%nat ->
  canonical (V KMask (t_ptr tg) n) m ->
  (exists r, msize_all tg n m = Some (Ok r) /\ (r = true <-> forall i p, lane m i p -> truth p = true)) /\
  (exists r, msize_any tg n m = Some (Ok r) /\ (r = true <-> exists i p, lane m i p /\ truth p = true)).
Proof. exact msize_reductions. Qed.
Print Assumptions C21_msize.

Example C21_example :
  In m16x8 mask_types /\ canonical m16x8 [65535; 0; 65535; 65535; 65535; 65535; 65535; 65535] /\
  all x86_64_avx2 m16x8 [65535; 0; 65535; 65535; 65535; 65535; 65535; 65535] = Ok false /\
  any x86_64_avx2 m16x8 [65535; 0; 65535; 65535; 65535; 65535; 65535; 65535] = Ok true /\
  none x86_64_avx2 m16x8 (repeat 0 8) = Ok true.
Proof.
  split; [vm_compute; tauto|]. split; [canon|]. repeat split; vm_compute; reflexivity.
Qed.
