(** Conversions with vendor types. *)
From Coq Require Import ZArith List Bool Lia.
From Verif.Model Require Import Base Bytes Tables Cast Vendor.
From Verif.Spec Require Import Spec Memory VendorSpec.
From Verif.Proofs Require Import Lib MinimalP BytesP CastP SwapBytesP.
Import ListNotations.
Open Scope Z_scope.

Definition pointer_width (pb : nat) : Prop := (pb = 1 \/ pb = 2 \/ pb = 4 \/ pb = 8)%nat.

(** What the tables promise, as a check. *)
Definition bool_size (x : bits_type) : option nat :=
  match x with
  | Portable t => if kind_eqb (vkind t) KMask then Some (vb t) else None
  | Vendor w => w_bool w
  end.
Definition pair_ok (p : bits_type * bits_type) : bool :=
  let (x, y) := p in
  Nat.eqb (size_in_bytes x) (size_in_bytes y) &&
  match x with Portable t => Nat.ltb 0 (vb t) && Nat.ltb 0 (vn t) | _ => true end &&
  match y with Portable t => Nat.ltb 0 (vb t) && Nat.ltb 0 (vn t) | _ => true end &&
  match x, y with Vendor _, Vendor _ => false | _, _ => true end &&
  match bool_size y with
  | None => true
  | Some k' => match bool_size x with
               | Some k => Nat.eqb (k mod k') 0 && Nat.ltb 0 k' && Nat.ltb 0 k
               | None => false
               end
  end.

Lemma conversions_ok pb a : pointer_width pb -> forallb pair_ok (conversions pb a) = true.
Proof. intros [->|[->|[->| ->]]]; destruct a; vm_compute; reflexivity. Qed.

Lemma conversion_ok pb a x y : pointer_width pb -> In (x, y) (conversions pb a) -> pair_ok (x, y) = true.
Proof. intros P I. exact (proj1 (forallb_forall _ _) (conversions_ok pb a P) _ I). Qed.

Definition value_bytes (be : bool) (x : bits_type) (v : list Z) : list Z :=
  match x with Portable t => image be (vb t) v | Vendor _ => v end.

Lemma value_bytes_ok be x v : is_value x v ->
  length (value_bytes be x v) = size_in_bytes x /\ Forall byte (value_bytes be x v).
Proof.
  destruct x as [t|w]; cbn [is_value value_bytes size_in_bytes]; intros [L F].
  - split; [rewrite image_length; congruence|apply image_byte].
  - split; auto.
Qed.

Lemma convert_value be x y v : pair_ok (x, y) = true -> is_value x v ->
  is_value y (convert_bits be x y v) /\ value_bytes be y (convert_bits be x y v) = value_bytes be x v.
Proof.
  intros H V. unfold pair_ok in H. apply andb_true_iff in H as [H _]. apply andb_true_iff in H as [H VV].
  apply andb_true_iff in H as [H Py]. apply andb_true_iff in H as [S Px]. apply Nat.eqb_eq in S.
  destruct (value_bytes_ok be x v V) as [L F].
  destruct x as [s|w], y as [t|w']; try discriminate VV;
    cbn [convert_bits is_value value_bytes size_in_bytes] in *.
  - unfold from_bits. split; [exact (transmute_wf be _ _ _ _ v V S)|exact (transmute_image be _ _ _ _ v V S)].
  - split; [split; [congruence|exact F]|reflexivity].
  - rewrite S in L.
    assert (LL : length v = (vn t * vb t)%nat) by (rewrite Nat.mul_comm; exact L).
    split.
    + apply of_image_wf; auto.
    + apply image_of_image; auto.
Qed.

Lemma has_byte_bytes be x v k a : pair_ok (x, x) = true \/ (forall t, x = Portable t -> (0 < vb t)%nat) ->
  is_value x v -> (has_byte be x v k a <-> nth_error (value_bytes be x v) k = Some a).
Proof.
  intros P V. destruct x as [t|w]; cbn [has_byte value_bytes]; [|tauto].
  apply vector_byte_image; auto. destruct P as [P|P]; [|now apply P].
  unfold pair_ok in P. apply andb_true_iff in P as [P _]. apply andb_true_iff in P as [P _].
  apply andb_true_iff in P as [P _]. apply andb_true_iff in P as [_ P]. apply andb_true_iff in P as [P _].
  now apply Nat.ltb_lt in P.
Qed.

Lemma pair_lanes x y : pair_ok (x, y) = true ->
  (forall t, x = Portable t -> (0 < vb t)%nat) /\ (forall t, y = Portable t -> (0 < vb t)%nat).
Proof.
  intros H. unfold pair_ok in H. apply andb_true_iff in H as [H _]. apply andb_true_iff in H as [H _].
  apply andb_true_iff in H as [H Py]. apply andb_true_iff in H as [_ Px].
  split; intros t ->; [apply andb_true_iff in Px as [Px _]; now apply Nat.ltb_lt in Px|
    apply andb_true_iff in Py as [Py _]; now apply Nat.ltb_lt in Py].
Qed.

Lemma bytes_value be x v w : (forall t, x = Portable t -> (0 < vb t)%nat) -> is_value x v -> is_value x w ->
  value_bytes be x v = value_bytes be x w -> v = w.
Proof.
  intros P V W E. destruct x as [t|u]; cbn [value_bytes is_value] in *; auto.
  destruct V as [LV FV], W as [LW FW].
  rewrite <- (of_image_image be (vb t) (vn t) v) by (split; auto).
  rewrite <- (of_image_image be (vb t) (vn t) w) by (split; auto). now rewrite E.
Qed.

(** ** Lossless *)
Theorem vendor_lossless be pb a x y v :
  pointer_width pb -> In (x, y) (conversions pb a) -> is_value x v ->
  size_in_bytes x = size_in_bytes y /\
  is_value y (convert_bits be x y v) /\
  (forall k b, has_byte be y (convert_bits be x y v) k b <-> has_byte be x v k b) /\
  (In (y, x) (conversions pb a) -> convert_bits be y x (convert_bits be x y v) = v).
Proof.
  intros P I V. pose proof (conversion_ok pb a x y P I) as O.
  destruct (convert_value be x y v O V) as [V' B]. destruct (pair_lanes x y O) as [Lx Ly].
  split; [|split; [exact V'|split]].
  - unfold pair_ok in O. do 4 apply andb_true_iff in O as [O _]. now apply Nat.eqb_eq.
  - intros k b. rewrite !has_byte_bytes by auto. now rewrite B.
  - intros I'. pose proof (conversion_ok pb a y x P I') as O'.
    destruct (convert_value be y x _ O' V') as [V'' B'].
    apply (bytes_value be x); auto. congruence.
Qed.

Theorem vendor_injective be pb a x y v w :
  pointer_width pb -> In (x, y) (conversions pb a) -> is_value x v -> is_value x w ->
  convert_bits be x y v = convert_bits be x y w -> v = w.
Proof.
  intros P I V W E. pose proof (conversion_ok pb a x y P I) as O.
  destruct (convert_value be x y v O V) as [_ B], (convert_value be x y w O W) as [_ B'].
  destruct (pair_lanes x y O) as [Lx _]. apply (bytes_value be x); auto. congruence.
Qed.

(** ** Masks *)
Definition uniform (k : nat) (l : list Z) : Prop :=
  exists cs : list bool, l = flat_map (fun c : bool => repeat (if c then 255 else 0) k) cs.

Lemma uniform_split k r l : uniform (k * r) l -> uniform k l.
Proof.
  intros [cs ->]. exists (flat_map (fun c => repeat c r) cs).
  induction cs as [|c cs IH]; auto. cbn [flat_map]. rewrite flat_map_app. rewrite <- IH. f_equal.
  clear. induction r as [|r IH].
  - rewrite Nat.mul_0_r. reflexivity.
  - cbn [repeat flat_map]. rewrite <- IH, <- repeat_app. f_equal. lia.
Qed.

Lemma promise_uniform be x v : is_value x v -> keeps_promise x v ->
  forall k, bool_size x = Some k -> uniform k (value_bytes be x v).
Proof.
  intros V K k S. destruct x as [t|w]; cbn [bool_size value_bytes keeps_promise] in *.
  - destruct (kind_eqb (vkind t) KMask) eqn:E; [|discriminate]. injection S as <-.
    assert (vkind t = KMask) by (destruct (vkind t); cbn in E; congruence).
    pose proof (canonical_map_truth t v (K H)) as ->. exists (map truth v).
    apply image_mlanes.
  - now apply K.
Qed.

Lemma uniform_promise be x v : (forall t, x = Portable t -> (0 < vb t)%nat) -> is_value x v ->
  (forall k, bool_size x = Some k -> uniform k (value_bytes be x v)) -> keeps_promise x v.
Proof.
  intros P V K. destruct x as [t|w]; cbn [bool_size value_bytes keeps_promise] in *.
  - intros M. rewrite M in K. specialize (K _ eq_refl) as [cs E].
    destruct V as [L F]. specialize (P t eq_refl).
    assert (LC : length cs = vn t).
    { apply (f_equal (@length Z)) in E. rewrite image_length in E.
      assert (LF : length (flat_map (fun c : bool => repeat (if c then 255 else 0) (vb t)) cs) = (vb t * length cs)%nat).
      { clear. induction cs; cbn [flat_map length]; [lia|]. rewrite app_length, repeat_length. lia. }
      rewrite LF in E. nia. }
    rewrite <- (of_image_image be (vb t) (vn t) v) by (split; auto).
    rewrite E, <- (image_mlanes be), of_image_image by (now apply mlanes_wf).
    now apply canonical_mlanes.
  - exact K.
Qed.

Theorem vendor_masks be pb a x v :
  pointer_width pb -> converted be pb a x v -> is_value x v /\ keeps_promise x v.
Proof.
  intros P C. induction C as [x v V K|x y v C IH I]; [auto|]. destruct IH as [V K].
  pose proof (conversion_ok pb a x y P I) as O. destruct (convert_value be x y v O V) as [V' B].
  split; auto. destruct (pair_lanes x y O) as [_ Ly]. apply (uniform_promise be); auto.
  intros k' S'. rewrite B. unfold pair_ok in O. apply andb_true_iff in O as [_ O]. rewrite S' in O.
  destruct (bool_size x) as [k|] eqn:S; [|discriminate].
  apply andb_true_iff in O as [O Lk]. apply andb_true_iff in O as [O Lk'].
  apply Nat.eqb_eq in O. apply Nat.ltb_lt in Lk. apply Nat.ltb_lt in Lk'.
  apply (uniform_split k' (k / k')). rewrite <- (proj2 (Nat.div_exact k k' ltac:(lia)) O).
  now apply (promise_uniform be x v V K).
Qed.

(** Only boolean types can be turned into a mask, and none with narrower elements. *)
Theorem vendor_into_mask pb a x t :
  pointer_width pb -> In (x, Portable t) (conversions pb a) -> vkind t = KMask ->
  match x with
  | Portable s => vkind s = KMask /\ (vb t <= vb s)%nat
  | Vendor w => exists k, w_bool w = Some k /\ (vb t <= k)%nat
  end.
Proof.
  intros P I M. pose proof (conversion_ok pb a _ _ P I) as O. unfold pair_ok in O.
  apply andb_true_iff in O as [_ O]. cbn [bool_size] in O. rewrite M in O. cbn [kind_eqb] in O.
  assert (A : forall k, ((k mod vb t =? 0)%nat && (0 <? vb t)%nat && (0 <? k)%nat)%bool = true -> (vb t <= k)%nat).
  { intros k H. apply andb_true_iff in H as [H B]. apply andb_true_iff in H as [H C].
    apply Nat.eqb_eq in H. apply Nat.ltb_lt in B. apply Nat.ltb_lt in C.
    destruct (Nat.le_gt_cases (vb t) k); auto. rewrite Nat.mod_small in H by auto. lia. }
  destruct x as [s|w]; cbn [bool_size] in O.
  - destruct (kind_eqb (vkind s) KMask) eqn:E; [|discriminate]. split; auto.
    destruct (vkind s); cbn in E; congruence.
  - destruct (w_bool w) as [k|]; [|discriminate]. exists k. auto.
Qed.

(** C35 byte by byte. *)
Theorem bits_bytes be pb e src x :
  pointer_width pb -> In e (bits_table pb) -> In src (b_from e) -> is_vector src x ->
  width src * Z.of_nat (vn src) = width (b_to e) * Z.of_nat (vn (b_to e)) /\
  is_vector (b_to e) (into_bits be src (b_to e) x) /\
  (forall k a, vector_byte be (b_to e) (into_bits be src (b_to e) x) k a <-> vector_byte be src x k a) /\
  into_bits be (b_to e) src (into_bits be src (b_to e) x) = x.
Proof.
  intros P E S V. destruct (bits_preserved be pb e src x P E S V) as (W & V' & B & R).
  split; [exact W|]. split; [exact V'|]. split; [|exact R].
  assert (I : In (Portable src, Portable (b_to e)) (conversions pb VX86)).
  { apply in_or_app. left. unfold portable_conversions. apply in_flat_map. exists e. split; auto.
    apply in_map_iff. eauto. }
  destruct (vendor_lossless be pb VX86 _ _ x P I V) as (_ & _ & H & _). exact H.
Qed.
