(** C61: the matrix inverse example. *)
From Coq Require Import ZArith List Bool Lia Reals Lra.
From Flocq Require Import Core.
From Verif.Model Require Import Base FloatLane Tables ExMatrix.
From Verif.Spec Require Import Spec Floats Examples Matrices.
From Verif.Proofs Require Import Lib FloatVecP ExactP ExMatrixP.
From Verif.Props Require Import Tac Targets.
Import ListNotations.
Open Scope Z_scope.

(** C61: for 2^e times an integer matrix with entries up to 20, both versions report "not
    invertible" exactly when the determinant is zero. *)
Theorem C61_singular : forall e m M, -12 <= e <= 12 -> is_4x4 M -> scaled e m M -> entries_below 20 M ->
  (scalar_inv4x4 m = None <-> det 4 M = 0) /\
  forall tg, exists o, simd_inv4x4 tg m = Ok o /\ (o = None <-> det 4 M = 0).
Proof. exact singular. Qed.
Print Assumptions C61_singular.

(** C61: otherwise both return the inverse, to within 2^-22 (scalar) and 2^-21 (vector) of
    each entry. *)
Theorem C61_close : forall e m M, -12 <= e <= 12 -> is_4x4 M -> scaled e m M -> entries_below 20 M ->
  det 4 M <> 0 ->
  (exists r, scalar_inv4x4 m = Some r /\ inverse_within (bpow radix2 (-22)) e M r) /\
  forall tg, exists r, simd_inv4x4 tg m = Ok (Some r) /\ inverse_within (bpow radix2 (-21)) e M r.
Proof. exact close. Qed.
Print Assumptions C61_close.

(** C61: a determinant that is a power of two, of either sign, gives the exact inverse. *)
Theorem C61_exact : forall e m M, -12 <= e <= 12 -> is_4x4 M -> scaled e m M -> entries_below 20 M ->
  forall k, 0 <= k -> Z.abs (det 4 M) = 2 ^ k ->
  (exists r, scalar_inv4x4 m = Some r /\ inverse_within 0 e M r) /\
  forall tg, exists r, simd_inv4x4 tg m = Ok (Some r) /\ inverse_within 0 e M r.
Proof. exact exact_power. Qed.
Print Assumptions C61_exact.

(** C61: what the specification calls the inverse is one: M times the adjugate is the
    determinant times the identity. *)
Theorem C61_inverse : forall M i j, is_4x4 M -> (i < 4)%nat -> (j < 4)%nat ->
  fold_right Z.add 0 (map (fun k => at2 M i k * adjugate M k j) (seq 0 4)) = if Nat.eqb i j then det 4 M else 0.
Proof. exact adjugate_inverse. Qed.
Print Assumptions C61_inverse.

(** C61: the vector version never panics. *)
Theorem C61_no_panic : forall tg m, is_4x4 m -> exists o, simd_inv4x4 tg m = Ok o.
Proof. exact simd_total. Qed.
Print Assumptions C61_no_panic.

(** C61: for arbitrary floats the two versions do not agree on which matrices have an inverse. *)
Definition tenths : matrix :=
  [[1036831949; 1045220557; 1050253722; 1045220557]; [0; 0; 1045220557; 1036831949];
   [0; 1036831949; 1045220557; 1045220557]; [1045220557; 1050253722; 0; 0]].
Theorem C61_any_matrix_refuted :
  ~ (forall tg m, is_4x4 m -> Forall (Forall (fun p => 0 <= p < 2 ^ 32)) m ->
       (simd_inv4x4 tg m = Ok None <-> scalar_inv4x4 m = None)).
Proof.
  intros H. destruct (H x86_64_avx2 tenths) as [A _].
  - split; [reflexivity|]. repeat constructor.
  - repeat (constructor; [repeat (constructor; [lia|]); constructor|]). constructor.
  - assert (X : scalar_inv4x4 tenths = None) by (apply A; vm_compute; reflexivity).
    vm_compute in X. discriminate X.
Qed.
Print Assumptions C61_any_matrix_refuted.

(** The matrices of the crate's test: one has determinant -4, the other is singular. *)
Definition m_inv : matrix :=
  [[1065353216; 1065353216; 1065353216; 0]; [0; 1077936128; 1065353216; 1073741824];
   [1073741824; 1077936128; 1065353216; 0]; [1065353216; 0; 1073741824; 1065353216]].
Definition M_inv : list (list Z) := [[1; 1; 1; 0]; [0; 3; 1; 2]; [2; 3; 1; 0]; [1; 0; 2; 1]].
Lemma small_units p z : (p =? fl_of_int 4 z) && (Z.abs z <? 2 ^ 24) && (0 <=? p) && (p <? 2 ^ 32) = true -> units 4 0 p z.
Proof.
  intros H. apply andb_prop in H as [H D]. apply andb_prop in H as [H C]. apply andb_prop in H as [H B].
  apply Z.eqb_eq in H. apply Z.ltb_lt in B, D. apply Z.leb_le in C. split; [split; assumption|].
  exists (z <? 0). rewrite H, (of_small_int 4 fs4 z B). cbn [bpow]. now rewrite Rmult_1_r.
Qed.
Example C61_example :
  is_4x4 M_inv /\ scaled 0 m_inv M_inv /\ entries_below 20 M_inv /\ det 4 M_inv = -4 /\
  map (fun i => map (adjugate M_inv i) (seq 0 4)) (seq 0 4) =
    [[12; 2; -6; -4]; [-4; -1; 1; 2]; [-12; -1; 5; 2]; [12; 0; -4; -4]] /\
  scalar_inv4x4 m_inv = Some
    [[3225419776; 3204448256; 1069547520; 1065353216]; [1065353216; 1048576000; 3196059648; 3204448256];
     [1077936128; 1048576000; 3214934016; 3204448256]; [3225419776; 2147483648; 1065353216; 1065353216]] /\
  simd_inv4x4 aarch64_neon m_inv = Ok (Some
    [[3225419776; 3204448256; 1069547520; 1065353216]; [1065353216; 1048576000; 3196059648; 3204448256];
     [1077936128; 1048576000; 3214934016; 3204448256]; [3225419776; 2147483648; 1065353216; 1065353216]]) /\
  simd_inv4x4 x86_64_avx2
    [[1065353216; 1073741824; 1077936128; 1082130432]; [1094713344; 1093664768; 1092616192; 1091567616];
     [1084227584; 1086324736; 1088421888; 1090519040]; [1098907648; 1097859072; 1096810496; 1095761920]] = Ok None /\
  det 4 [[1; 2; 3; 4]; [12; 11; 10; 9]; [5; 6; 7; 8]; [16; 15; 14; 13]] = 0.
Proof.
  split; [split; [reflexivity|repeat constructor]|].
  split; [repeat (constructor; [repeat (constructor; [apply small_units; vm_compute; reflexivity|]); constructor|]); constructor|].
  split; [repeat (constructor; [repeat (constructor; [vm_compute; discriminate|]); constructor|]); constructor|].
  split; [vm_compute; reflexivity|]. split; [vm_compute; reflexivity|]. split; [vm_compute; reflexivity|].
  split; [vm_compute; reflexivity|]. split; vm_compute; reflexivity.
Qed.
