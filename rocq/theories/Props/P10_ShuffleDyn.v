(** C24, C25: shuffle1_dyn. *)
From Coq Require Import ZArith List Bool Lia.
From Verif.Model Require Import Base Tables ShuffleDyn.
From Verif.Spec Require Import Spec Conv.
From Verif.Proofs Require Import Lib ShuffleDynP.
From Verif.Props Require Import Tac Targets.
Import ListNotations.
Open Scope Z_scope.

(** C24: with all indices below lanes(), lane k of the result is lane ix[k], on every target. *)
Theorem C24_in_range : forall tg sz t v ix,
  (0 < t_ptr tg)%nat -> vector_type t -> (vn t <= 64)%nat ->
  is_vector t v -> is_vector (V KUint (vb t) (vn t)) ix ->
  (forall k i, lane ix k i -> i < Z.of_nat (vn t)) ->
  exists r, shuffle1_dyn tg sz t v ix = Ok r /\ is_vector t r /\
    forall k i p, lane ix k i -> lane v (Z.to_nat i) p -> lane r k p.
Proof. exact shuffle1_dyn_in_range. Qed.
Print Assumptions C24_in_range.

Example C24_example :
  is_vector i16x8 [10; 11; 12; 13; 14; 15; 16; 17] /\
  is_vector (V KUint (vb i16x8) (vn i16x8)) [7; 0; 6; 1; 5; 5; 5; 2] /\
  shuffle1_dyn x86_64_ssse3 false i16x8 [10; 11; 12; 13; 14; 15; 16; 17] [7; 0; 6; 1; 5; 5; 5; 2]
    = Ok [17; 10; 16; 11; 15; 15; 15; 12] /\
  shuffle1_dyn s390x false i16x8 [10; 11; 12; 13; 14; 15; 16; 17] [7; 0; 6; 1; 5; 5; 5; 2]
    = Ok [17; 10; 16; 11; 15; 15; 15; 12].
Proof. split; [isv|]. split; [isv|]. split; vm_compute; reflexivity. Qed.

(** C25: with all indices below lanes() the target does not matter. *)
Theorem C25_targets_agree : forall tg tg' sz t v ix,
  (0 < t_ptr tg)%nat -> (0 < t_ptr tg')%nat -> vector_type t -> (vn t <= 64)%nat ->
  is_vector t v -> is_vector (V KUint (vb t) (vn t)) ix ->
  (forall k i, lane ix k i -> i < Z.of_nat (vn t)) ->
  shuffle1_dyn tg sz t v ix = shuffle1_dyn tg' sz t v ix.
Proof. exact shuffle1_dyn_targets_agree. Qed.
Print Assumptions C25_targets_agree.

(** C25: for arbitrary indices the call panics, or returns lanes that are 0 or lanes of the operand; it is never undefined. *)
Theorem C25_any_index : forall tg sz t v ix,
  (0 < t_ptr tg)%nat -> vector_type t ->
  is_vector t v -> is_vector (V KUint (vb t) (vn t)) ix ->
  shuffle1_dyn tg sz t v ix = Panic \/
  exists r, shuffle1_dyn tg sz t v ix = Ok r /\ is_vector t r /\
    forall k p, lane r k p -> p = 0 \/ exists j, lane v j p.
Proof. exact shuffle1_dyn_any_index. Qed.
Print Assumptions C25_any_index.

(** C25: shapes without a dedicated implementation: an index (as usize) of lanes() or more panics. *)
Theorem C25_fallback : forall tg sz t v ix,
  (0 < t_ptr tg)%nat -> vector_type t -> sz = true \/ dedicated t = false ->
  is_vector t v -> is_vector (V KUint (vb t) (vn t)) ix ->
  ((exists k i, lane ix k i /\ Z.of_nat (vn t) <= i mod 2 ^ (8 * Z.of_nat (t_ptr tg))) ->
     shuffle1_dyn tg sz t v ix = Panic) /\
  ((forall k i, lane ix k i -> i mod 2 ^ (8 * Z.of_nat (t_ptr tg)) < Z.of_nat (vn t)) ->
     exists r, shuffle1_dyn tg sz t v ix = Ok r /\ is_vector t r /\
       forall k i p, lane ix k i -> lane v (Z.to_nat (i mod 2 ^ (8 * Z.of_nat (t_ptr tg)))) p -> lane r k p).
Proof. exact shuffle1_dyn_fallback. Qed.
Print Assumptions C25_fallback.

(** C25: out of range, the same call panics, gives a lane, or gives 0, depending on the target. *)
Theorem C25_out_of_range_refuted : exists t v ix,
  vector_type t /\ is_vector t v /\ is_vector (V KUint (vb t) (vn t)) ix /\
  (exists r, shuffle1_dyn x86_64_ssse3 false t v ix = Ok r /\ lane r 0 7) /\
  shuffle1_dyn x86_64_base false t v ix = Panic /\
  (exists r, shuffle1_dyn aarch64_neon false t v ix = Ok r /\ lane r 0 0).
Proof.
  exists u8x16, (7 :: repeat 1 15), (16 :: repeat 0 15).
  split; [ty|]. split; [isv|]. split; [isv|].
  split; [eexists; split; [vm_compute; reflexivity|reflexivity]|].
  split; [vm_compute; reflexivity|].
  eexists; split; [vm_compute; reflexivity|reflexivity].
Qed.
Print Assumptions C25_out_of_range_refuted.

(** C25: nor is an out-of-range index always caught on the targets that check: u16x8
    scales it to bytes modulo 256. *)
Theorem C25_checked_refuted : exists t v ix r,
  vector_type t /\ is_vector t v /\ is_vector (V KUint (vb t) (vn t)) ix /\
  lane ix 0 128 /\ shuffle1_dyn x86_64_base false t v ix = Ok r.
Proof.
  exists u16x8, (7 :: repeat 1 7), (128 :: repeat 0 7).
  eexists. split; [ty|]. split; [isv|]. split; [isv|].
  split; [reflexivity|]. vm_compute; reflexivity.
Qed.
Print Assumptions C25_checked_refuted.

Example C25_example :
  vector_type u32x2 /\ dedicated u32x2 = false /\ is_vector u32x2 [5; 6] /\ is_vector u32x2 [1; 2] /\
  shuffle1_dyn x86_64_avx2 false u32x2 [5; 6] [1; 2] = Panic /\
  shuffle1_dyn x86_64_avx2 false u32x2 [5; 6] [1; 1] = Ok [6; 6].
Proof. split; [ty|]. split; [reflexivity|]. split; [isv|]. split; [isv|]. split; vm_compute; reflexivity. Qed.
