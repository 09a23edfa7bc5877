(** C01: lane access. *)
From Coq Require Import ZArith List Bool Lia.
From Verif.Model Require Import Base Tables Minimal.
From Verif.Spec Require Import Spec.
From Verif.Proofs Require Import Lib MinimalP LawsP ExtraP.
From Verif.Props Require Import Tac Targets.
Import ListNotations.
Open Scope Z_scope.

(** C01: `new` fixes lane i to the i-th argument and takes exactly lanes() arguments. *)
Theorem C01_new : forall t xs,
  Forall (fun p => 0 <= p < 2 ^ width t) xs ->
  (length xs = vn t ->
     exists v, new t xs = Some v /\ is_vector t v /\ forall i p, lane v i p <-> nth_error xs i = Some p)
  /\ (length xs <> vn t -> new t xs = None).
Proof. exact new_spec. Qed.
Print Assumptions C01_new.

(** C01: `splat(x)` makes every lane x. *)
Theorem C01_splat : forall t x,
  0 <= x < 2 ^ width t ->
  is_vector t (splat t x) /\ forall i, (i < vn t)%nat -> lane (splat t x) i x.
Proof. exact splat_spec. Qed.
Print Assumptions C01_splat.

(** C01: `extract(i)` gives lane i, panics exactly when i >= lanes(); the unchecked form agrees in range. *)
Theorem C01_extract : forall t v i,
  vector_type t -> is_vector t v ->
  ((i < vn t)%nat -> exists p, lane v i p /\ extract t v (Z.of_nat i) = Ok p
                               /\ extract_unchecked t v (Z.of_nat i) = Ok p)
  /\ ((vn t <= i)%nat -> extract t v (Z.of_nat i) = Panic).
Proof. exact extract_spec. Qed.
Print Assumptions C01_extract.

(** C01: `replace(i, x)` changes lane i to x and no other lane; panics exactly when i >= lanes(). *)
Theorem C01_replace : forall t v i x,
  vector_type t -> is_vector t v -> 0 <= x < 2 ^ width t ->
  ((i < vn t)%nat ->
     exists w, replace t v (Z.of_nat i) x = Ok w
            /\ replace_unchecked t v (Z.of_nat i) x = Ok w
            /\ is_vector t w /\ lane w i x
            /\ forall j p, j <> i -> (lane w j p <-> lane v j p))
  /\ ((vn t <= i)%nat -> replace t v (Z.of_nat i) x = Panic).
Proof. exact replace_spec. Qed.
Print Assumptions C01_replace.

(** C01: `new` on masks. *)
Theorem C01_mask_new : forall t xs,
  (length xs = vn t ->
     exists m, mask_new t xs = Some m /\ canonical t m
            /\ forall i c, nth_error xs i = Some c -> lane m i (mask_lane t c)) /\
  (length xs <> vn t -> mask_new t xs = None).
Proof. exact mask_new_full. Qed.
Print Assumptions C01_mask_new.

(** C01: `splat` on masks. *)
Theorem C01_mask_splat : forall t c,
  canonical t (mask_splat t c) /\ forall i, (i < vn t)%nat -> lane (mask_splat t c) i (mask_lane t c).
Proof. exact mask_splat_spec. Qed.
Print Assumptions C01_mask_splat.

(** C01: `extract` on masks returns the lane's boolean. *)
Theorem C01_mask_extract : forall t m i,
  vector_type t -> canonical t m ->
  ((i < vn t)%nat -> exists c, lane m i (mask_lane t c) /\ mask_extract t m (Z.of_nat i) = Ok c
                               /\ mask_extract_unchecked t m (Z.of_nat i) = Ok c)
  /\ ((vn t <= i)%nat -> mask_extract t m (Z.of_nat i) = Panic).
Proof. exact mask_extract_spec. Qed.
Print Assumptions C01_mask_extract.

(** C01: `replace` on masks. *)
Theorem C01_mask_replace : forall t m i c,
  vector_type t -> canonical t m ->
  ((i < vn t)%nat ->
     exists w, mask_replace t m (Z.of_nat i) c = Ok w
            /\ mask_replace_unchecked t m (Z.of_nat i) c = Ok w
            /\ canonical t w /\ lane w i (mask_lane t c)
            /\ forall j p, j <> i -> (lane w j p <-> lane m j p))
  /\ ((vn t <= i)%nat -> mask_replace t m (Z.of_nat i) c = Panic).
Proof. exact mask_replace_spec. Qed.
Print Assumptions C01_mask_replace.

(** C01: Two vectors of one type with the same lanes are the same vector. *)
Theorem C01_extensional : forall t x y,
  is_vector t x -> is_vector t y ->
  (forall i a b, lane x i a -> lane y i b -> a = b) -> x = y.
Proof. exact vec_ext. Qed.
Print Assumptions C01_extensional.

Example C01_example :
  vector_type i16x4 /\ is_vector i16x4 [1; 65535; 3; 4] /\
  extract i16x4 [1; 65535; 3; 4] 1 = Ok 65535 /\
  extract i16x4 [1; 65535; 3; 4] 4 = Panic /\
  replace i16x4 [1; 65535; 3; 4] 2 9 = Ok [1; 65535; 9; 4] /\
  new i16x4 [1; 65535; 3; 4] = Some [1; 65535; 3; 4] /\ new i16x4 [1] = None /\
  vector_type m8x4 /\ canonical m8x4 [0; 255; 255; 0] /\
  mask_new m8x4 [false; true; true; false] = Some [0; 255; 255; 0] /\
  mask_extract m8x4 [0; 255; 255; 0] 2 = Ok true /\
  mask_replace m8x4 [0; 255; 255; 0] 0 true = Ok [255; 255; 255; 0].
Proof.
  split; [ty|]. split; [isv|]. do 5 (split; [vm_compute; reflexivity|]).
  split; [ty|]. split; [canon|]. repeat split; vm_compute; reflexivity.
Qed.
