(** The assigning operators on float vectors. *)
From Coq Require Import ZArith List Bool Lia.
From Verif.Model Require Import Base Minimal Ops.
From Verif.Spec Require Import Spec Floats.
From Verif.Proofs Require Import Lib FloatApiP.
Open Scope Z_scope.

Theorem float_assign t x y s :
  float_type t -> is_vector t x -> is_vector t y -> 0 <= s < 2 ^ width t ->
  let d := datum_of (vb t) in
  lanewise2 t x y (add_assign t x y) (fun a b c => ieee_add (vb t) (d a) (d b) (d c)) /\
  lanewise2 t x y (sub_assign t x y) (fun a b c => ieee_sub (vb t) (d a) (d b) (d c)) /\
  lanewise2 t x y (mul_assign t x y) (fun a b c => ieee_mul (vb t) (d a) (d b) (d c)) /\
  (exists r, div_assign t x y = Ok r /\
     lanewise2 t x y r (fun a b c => ieee_div (vb t) (d a) (d b) (d c))) /\
  (exists r, rem_assign t x y = Ok r /\
     lanewise2 t x y r (fun a b c => ieee_rem (d a) (d b) (d c))) /\
  lanewise1 t x (add_vs_assign t x s) (fun a c => ieee_add (vb t) (d a) (d s) (d c)) /\
  lanewise1 t x (sub_vs_assign t x s) (fun a c => ieee_sub (vb t) (d a) (d s) (d c)) /\
  lanewise1 t x (mul_vs_assign t x s) (fun a c => ieee_mul (vb t) (d a) (d s) (d c)) /\
  (exists r, div_vs_assign t x s = Ok r /\ lanewise1 t x r (fun a c => ieee_div (vb t) (d a) (d s) (d c))) /\
  (exists r, rem_vs_assign t x s = Ok r /\ lanewise1 t x r (fun a c => ieee_rem (d a) (d s) (d c))).
Proof.
  intros T X Y S d. destruct (float_arithmetic t x y T X Y) as (A1 & A2 & A3 & A4 & A5).
  destruct (float_scalar_arithmetic t x s T X S) as (B1 & _ & B2 & _ & B3 & _ & B4 & _ & B5 & _).
  do 9 (split; [assumption|]). assumption.
Qed.
