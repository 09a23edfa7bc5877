(** Hashing, and the scalar masks. *)
From Coq Require Import ZArith List Bool Lia.
From Coq.Floats Require Import SpecFloat.
From Verif.Model Require Import Base FloatLane Bytes Minimal Cmp Cast Ptr Hash ScalarMask.
From Verif.Spec Require Import Spec Memory.
From Verif.Proofs Require Import Lib MinimalP LawsP BytesP MaskReduceP CmpP CastP PtrP SwapBytesP.
Import ListNotations.
Open Scope Z_scope.

Lemma into_array_id be t v : is_vector t v -> into_array be t v = v.
Proof. intros V. exact (of_image_image be (vb t) (vn t) v V). Qed.

Lemma from_array_id be t v : is_vector t v -> from_array be t v = v.
Proof. intros V. exact (of_image_image be (vb t) (vn t) v V). Qed.

Theorem hash_as_array tg t :
  vector_type t ->
  (forall a, length a = vn t -> Forall (fun p => 0 <= p < 2 ^ width t) a ->
     hash_calls tg t (from_array (t_big_endian tg) t a) = array_calls (t_big_endian tg) (vb t) a) /\
  (forall v, is_vector t v ->
     exists l, hash_calls tg t v = [WriteLength (Z.of_nat (vn t)); Write l] /\ length l = (vb t * vn t)%nat /\
       forall k x, nth_error l k = Some x <-> vector_byte (t_big_endian tg) t v k x).
Proof.
  intros T. split.
  - intros a L F. assert (V : is_vector t a) by (split; auto).
    unfold hash_calls. rewrite (from_array_id _ t a V), (into_array_id _ t a V). reflexivity.
  - intros v V. unfold hash_calls. rewrite into_array_id by auto. unfold array_calls.
    exists (image (t_big_endian tg) (vb t) v). split; [|split].
    + destruct V as [-> _]. reflexivity.
    + rewrite image_length. destruct V as [-> _]. reflexivity.
    + intros k x. symmetry. apply vector_byte_image; auto. apply T.
Qed.

Theorem hash_separates tg t x y :
  is_vector t x -> is_vector t y -> hash_calls tg t x = hash_calls tg t y -> x = y.
Proof.
  intros X Y E. unfold hash_calls, array_calls in E. rewrite !into_array_id in E by auto.
  injection E as _ E. rewrite <- (of_image_image (t_big_endian tg) (vb t) (vn t) x X).
  unfold array_image in E. unfold image. rewrite E. apply (of_image_image (t_big_endian tg) (vb t) (vn t) y Y).
Qed.

Theorem hash_coherent tg t x y (S : Type) (h : hasher S) (s : S) :
  integer_type t -> crate_shape t -> is_vector t x -> is_vector t y ->
  op_eq tg t x y = Ok true -> feed h s (hash_calls tg t x) = feed h s (hash_calls tg t y).
Proof.
  intros T C X Y E.
  assert (NM : vkind t = KMask -> False) by (destruct T as [[K _]|[K _]]; rewrite K; discriminate).
  destruct (equality_operators tg t x y) as [(r & R & H) _]; auto.
  { now left. } { split; [exact X|tauto]. } { split; [exact Y|tauto]. }
  rewrite E in R. injection R as <-. now rewrite (proj1 H eq_refl).
Qed.

Theorem ptr_hash tg n x y (S : Type) (h : hasher S) (s : S) :
  t_ptr tg = 4%nat \/ t_ptr tg = 8%nat -> n = 2%nat \/ n = 4%nat \/ n = 8%nat ->
  is_vector (ptr_ty tg n) x -> is_vector (ptr_ty tg n) y ->
  ptr_hash_calls tg n x = hash_calls tg (usize_ty tg n) x /\
  (ptr_op_eq tg n x y = Some (Ok true) -> feed h s (ptr_hash_calls tg n x) = feed h s (ptr_hash_calls tg n y)) /\
  (ptr_hash_calls tg n x = ptr_hash_calls tg n y -> x = y).
Proof.
  intros B N X Y. unfold ptr_hash_calls. rewrite !same_size_id by auto. split; [reflexivity|split].
  - intros E. destruct (ptr_equality tg n x y B N X Y) as [(r & R & H) _].
    rewrite E in R. injection R as <-. now rewrite (proj1 H eq_refl).
  - now apply (hash_separates tg (usize_ty tg n)).
Qed.

(** ** Scalar masks *)

Theorem scalar_masks b c d :
  (0 < b)%nat ->
  let p := smask_new b c in let q := smask_new b d in
  (p = 2 ^ (8 * Z.of_nat b) - 1 \/ p = 0) /\
  smask_test b p = c /\ smask_test b (smask_default b) = false /\ smask_hashed b p = c /\
  smask_eq b p q = Bool.eqb c d /\ smask_ne b p q = negb (Bool.eqb c d) /\
  smask_lt b p q = (negb c && d)%bool /\ smask_le b p q = implb c d /\
  smask_gt b p q = (c && negb d)%bool /\ smask_ge b p q = implb d c /\
  exists o, smask_cmp b p q = Ok o /\ smask_partial_cmp b p q = Some o /\
    (o = Eq <-> c = d) /\ (o = Lt <-> c = false /\ d = true) /\ (o = Gt <-> c = true /\ d = false).
Proof.
  intros B. cbv zeta.
  assert (E : forall c, smask_new b c = if c then ones b else 0).
  { intros []; cbn [smask_new]; [apply ones_wrap|reflexivity]. }
  pose proof (ones_pos b B) as OP. pose proof (sval_ones b B) as S1. pose proof (sval_zero b B) as S0.
  rewrite !E. unfold smask_test, smask_default, smask_hashed, smask_eq, smask_ne, smask_lt, smask_le, smask_gt, smask_ge,
    smask_cmp, smask_partial_cmp, smask_eq.
  assert (O0 : (ones b =? 0) = false) by (apply Z.eqb_neq; lia).
  destruct c, d; rewrite ?S1, ?S0, ?O0; cbn;
    (split; [first [now left|now right]|]);
    repeat (split; [reflexivity|]); eexists; (split; [reflexivity|]); (split; [reflexivity|]);
    repeat split; intros; try discriminate; try (destruct H; discriminate); auto.
Qed.

(** ** Default *)

Theorem default_zero t :
  vector_type t -> (vkind t = KFloat -> vb t = 4%nat \/ vb t = 8%nat) ->
  is_vector t (vdefault t) /\
  (forall i, (i < vn t)%nat -> lane (vdefault t) i 0) /\
  (vkind t = KMask -> canonical t (vdefault t) /\
     forall i, (i < vn t)%nat -> mask_extract t (vdefault t) (Z.of_nat i) = Ok false) /\
  (vkind t = KFloat -> fdecode (vb t) 0 = S754_zero false).
Proof.
  intros T F.
  assert (E : vdefault t = splat t 0).
  { unfold vdefault. destruct (vkind t) eqn:K; try reflexivity; cbn [lit].
  }
  assert (V : is_vector t (vdefault t)).
  { rewrite E. apply is_vector_splat. split; [lia|]. exact (modulus_pos (vb t)). }
  assert (L : forall i, (i < vn t)%nat -> lane (vdefault t) i 0).
  { intros i I. rewrite E. unfold lane, splat. now rewrite nth_error_repeat by auto. }
  split; [exact V|]. split; [exact L|]. split.
  - intros K. split.
    + rewrite E. split; [apply repeat_length|]. apply Forall_forall. intros p P. apply repeat_spec in P. now right.
    + intros i I. rewrite (mask_extract_lane t _ i 0 T V (L i I)). reflexivity.
  - intros K. destruct (F K) as [-> | ->]; reflexivity.
Qed.
