(** C40, C42, C53: Hash, Default and the scalar masks. *)
From Coq Require Import ZArith List Bool Lia.
From Coq.Floats Require Import SpecFloat.
From Verif.Model Require Import Base FloatLane Minimal Bytes Tables Cmp Cast Ptr Hash ScalarMask.
From Verif.Spec Require Import Spec Memory.
From Verif.Proofs Require Import Lib HashP.
From Verif.Props Require Import Tac Targets.
Import ListNotations.
Open Scope Z_scope.

(** C40: hashing a vector makes the calls that hashing the array of its lanes makes: the length, then the bytes of the lanes in order. *)
Theorem C40_as_array : forall tg t,
  vector_type t ->
  (forall a, length a = vn t -> Forall (fun p => 0 <= p < 2 ^ width t) a ->
     hash_calls tg t (from_array (t_big_endian tg) t a) = array_calls (t_big_endian tg) (vb t) a) /\
  (forall v, is_vector t v ->
     exists l, hash_calls tg t v = [WriteLength (Z.of_nat (vn t)); Write l] /\ length l = (vb t * vn t)%nat /\
       forall k x, nth_error l k = Some x <-> vector_byte (t_big_endian tg) t v k x).
Proof. exact hash_as_array. Qed.
Print Assumptions C40_as_array.

(** C40: equal vectors leave every hasher in the same state. *)
Theorem C40_coherent : forall tg t x y (S : Type) (h : hasher S) (s : S),
  integer_type t -> crate_shape t -> is_vector t x -> is_vector t y ->
  op_eq tg t x y = Ok true -> feed h s (hash_calls tg t x) = feed h s (hash_calls tg t y).
Proof. exact hash_coherent. Qed.
Print Assumptions C40_coherent.

(** C40: different vectors feed different data. *)
Theorem C40_separates : forall tg t x y,
  is_vector t x -> is_vector t y -> hash_calls tg t x = hash_calls tg t y -> x = y.
Proof. exact hash_separates. Qed.
Print Assumptions C40_separates.

(** C40: pointer vectors hash as the usize vectors of their addresses. *)
Theorem C40_pointers : forall tg n x y (S : Type) (h : hasher S) (s : S),
  t_ptr tg = 4%nat \/ t_ptr tg = 8%nat -> n = 2%nat \/ n = 4%nat \/ n = 8%nat ->
  is_vector (ptr_ty tg n) x -> is_vector (ptr_ty tg n) y ->
  ptr_hash_calls tg n x = hash_calls tg (usize_ty tg n) x /\
  (ptr_op_eq tg n x y = Some (Ok true) -> feed h s (ptr_hash_calls tg n x) = feed h s (ptr_hash_calls tg n y)) /\
  (ptr_hash_calls tg n x = ptr_hash_calls tg n y -> x = y).
Proof. exact ptr_hash. Qed.
Print Assumptions C40_pointers.

Example C40_example :
  integer_type i16x4 /\ crate_shape i16x4 /\ is_vector i16x4 [1; 65535; 258; 0] /\
  op_eq x86_64_base i16x4 [1; 65535; 258; 0] [1; 65535; 258; 0] = Ok true /\
  hash_calls x86_64_base i16x4 [1; 65535; 258; 0] = [WriteLength 4; Write [1; 0; 255; 255; 2; 1; 0; 0]] /\
  hash_calls s390x i16x4 [1; 65535; 258; 0] = [WriteLength 4; Write [0; 1; 255; 255; 1; 2; 0; 0]].
Proof.
  split; [ity|]. split; [vm_compute; tauto|]. split; [isv|].
  split; [vm_compute; reflexivity|]. split; vm_compute; reflexivity.
Qed.

(** C42: every lane of the default is zero: 0, +0.0, false. *)
Theorem C42_default : forall t,
  vector_type t -> (vkind t = KFloat -> vb t = 4%nat \/ vb t = 8%nat) ->
  is_vector t (vdefault t) /\
  (forall i, (i < vn t)%nat -> lane (vdefault t) i 0) /\
  (vkind t = KMask -> canonical t (vdefault t) /\
     forall i, (i < vn t)%nat -> mask_extract t (vdefault t) (Z.of_nat i) = Ok false) /\
  (vkind t = KFloat -> fdecode (vb t) 0 = S754_zero false).
Proof. exact default_zero. Qed.
Print Assumptions C42_default.

Example C42_example :
  vector_type f32x4 /\ vdefault f32x4 = [0; 0; 0; 0] /\ vdefault m8x2 = [0; 0] /\ vdefault i64x2 = [0; 0].
Proof. split; [ty|]. split; [|split]; vm_compute; reflexivity. Qed.

(** C53: scalar masks built by new behave like the booleans they were built from. *)
Theorem C53_scalar_masks : forall b c d,
  (0 < b)%nat ->
  let p := smask_new b c in let q := smask_new b d in
  (p = 2 ^ (8 * Z.of_nat b) - 1 \/ p = 0) /\
  smask_test b p = c /\ smask_test b (smask_default b) = false /\ smask_hashed b p = c /\
  smask_eq b p q = Bool.eqb c d /\ smask_ne b p q = negb (Bool.eqb c d) /\
  smask_lt b p q = (negb c && d)%bool /\ smask_le b p q = implb c d /\
  smask_gt b p q = (c && negb d)%bool /\ smask_ge b p q = implb d c /\
  exists o, smask_cmp b p q = Ok o /\ smask_partial_cmp b p q = Some o /\
    (o = Eq <-> c = d) /\ (o = Lt <-> c = false /\ d = true) /\ (o = Gt <-> c = true /\ d = false).
Proof. exact scalar_masks. Qed.
Print Assumptions C53_scalar_masks.

Example C53_example :
  (0 < 2)%nat /\ smask_new 2 true = 65535 /\ smask_lt 2 (smask_new 2 false) (smask_new 2 true) = true /\
  smask_cmp 2 (smask_new 2 true) (smask_new 2 false) = Ok Gt.
Proof. split; [lia|]. split; [|split]; vm_compute; reflexivity. Qed.
