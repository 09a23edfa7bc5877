(** C23: shuffle! with constant indices. *)
From Coq Require Import ZArith List Bool Lia.
From Verif.Model Require Import Base Tables Shuffle.
From Verif.Spec Require Import Spec Conv.
From Verif.Proofs Require Import Lib ShuffleP.
From Verif.Props Require Import Tac Targets.
Import ListNotations.
Open Scope Z_scope.

(** C23: lane k of the result is lane idx[k] of the concatenation; an index beyond it does not compile. *)
Theorem C23_two_vectors : forall sz t x y idx,
  is_vector t x -> is_vector t y ->
  (forall t' r, shuffle2 sz t x y idx = Some (t', r) ->
     t' = V (vkind t) (vb t) (length idx) /\ is_vector t' r /\
     forall k i, nth_error idx k = Some i ->
       ((i < vn t)%nat /\ exists p, lane r k p /\ lane x i p) \/
       ((vn t <= i < 2 * vn t)%nat /\ exists p, lane r k p /\ lane y (i - vn t) p)) /\
  ((exists i, In i idx /\ (2 * vn t <= i)%nat) -> shuffle2 sz t x y idx = None).
Proof. exact shuffle2_spec. Qed.
Print Assumptions C23_two_vectors.

(** C23: the one-operand form; it behaves as if the operand was given twice, so an index i with lanes <= i < 2*lanes means lane i - lanes. *)
Theorem C23_one_vector : forall sz t x idx,
  is_vector t x ->
  (forall t' r, shuffle1 sz t x idx = Some (t', r) ->
     t' = V (vkind t) (vb t) (length idx) /\ is_vector t' r /\
     forall k i, nth_error idx k = Some i ->
       (i < 2 * vn t)%nat /\ exists p, lane r k p /\ lane x (if (i <? vn t)%nat then i else i - vn t) p) /\
  ((exists i, In i idx /\ (2 * vn t <= i)%nat) -> shuffle1 sz t x idx = None).
Proof. exact shuffle1_spec. Qed.
Print Assumptions C23_one_vector.

(** C23: which result types exist: every type of at least two lanes but m16x32. *)
Theorem C23_available : forall pb d t x y idx,
  In d (decls pb) -> (2 <= vn (d_ty d))%nat -> d_ty d <> m16x32 ->
  vkind t = vkind (d_ty d) -> vb t = vb (d_ty d) -> length idx = vn (d_ty d) ->
  is_vector t x -> is_vector t y -> Forall (fun i => (i < 2 * vn t)%nat) idx ->
  exists r, shuffle2 (pointer_sized d) t x y idx = Some (d_ty d, r).
Proof. exact shuffle_available. Qed.
Print Assumptions C23_available.

(** C23: the identity permutation gives the vector back. *)
Theorem C23_identity : forall sz t x t' r,
  is_vector t x -> shuffle1 sz t x (seq 0 (vn t)) = Some (t', r) -> t' = t /\ r = x.
Proof. exact shuffle_identity. Qed.
Print Assumptions C23_identity.

(** C23: two shuffles in a row are one by the composed indices. *)
Theorem C23_compose : forall sz t x idx jdx t1 y t2 z,
  is_vector t x ->
  shuffle1 sz t x idx = Some (t1, y) -> shuffle1 sz t1 y jdx = Some (t2, z) ->
  Forall (fun j => (j < length idx)%nat) jdx ->
  shuffle1 sz t x (map (fun j => nth j idx 0%nat) jdx) = Some (t2, z).
Proof. exact shuffle_compose. Qed.
Print Assumptions C23_compose.

(** C23: m16x32 is the exception: no shuffle! produces one. *)
Theorem C23_m16x32_refuted : exists t x idx,
  In t [m16x32] /\ is_vector t x /\ length idx = vn t /\ Forall (fun i => (i < vn t)%nat) idx /\
  shuffle1 false t x idx = None.
Proof.
  exists m16x32, (repeat 0 32), (seq 0 32). split; [vm_compute; tauto|]. split; [isv|].
  split; [reflexivity|]. split; [repeat (apply Forall_cons; [vm_compute; lia|]); apply Forall_nil|].
  vm_compute; reflexivity.
Qed.
Print Assumptions C23_m16x32_refuted.

Example C23_example :
  is_vector i32x4 [10; 11; 12; 13] /\ is_vector i32x4 [20; 21; 22; 23] /\
  shuffle2 false i32x4 [10; 11; 12; 13] [20; 21; 22; 23] [7; 0; 3; 4]%nat = Some (i32x4, [23; 10; 13; 20]) /\
  shuffle2 false i32x4 [10; 11; 12; 13] [20; 21; 22; 23] [8; 0; 3; 4]%nat = None /\
  shuffle1 false i32x4 [10; 11; 12; 13] [3; 5]%nat = Some (i32x2, [13; 11]).
Proof. split; [isv|]. split; [isv|]. repeat split; vm_compute; reflexivity. Qed.
