(** [swap_bytes] and the endian conversions (C26, C52). *)
From Coq Require Import ZArith List Bool Lia ZifyBool ZifyNat Arith.
From Verif.Model Require Import Base FloatLane Llvm Bytes Tables Shuffle SwapBytes.
From Verif.Spec Require Import Spec Memory Conv.
From Verif.Proofs Require Import Lib BytesP SliceP ShuffleP.
Import ListNotations.
Open Scope Z_scope.

Lemma map_nth_error_rev (x y : vec) n : length x = n ->
  map (fun i => nth_error (x ++ y) i) (rev (seq 0 n)) = map Some (rev x).
Proof.
  intros L. rewrite !map_rev. f_equal. subst n.
  apply nth_error_ext; [now rewrite !map_length, seq_length|].
  intros i a b A B.
  rewrite nth_error_map in A, B.
  destruct (nth_error (seq 0 (length x)) i) as [k|] eqn:K; [|discriminate].
  pose proof (nth_error_lt _ _ _ K) as I. rewrite seq_length in I.
  assert (k = i) as ->.
  { apply nth_error_nth with (d := 0%nat) in K. rewrite seq_nth in K by auto. lia. }
  cbn in A. rewrite nth_error_app1 in A by auto. destruct (nth_error x i); [|discriminate].
  cbn in B. congruence.
Qed.

Lemma simd_shuffle_rev x n : length x = n -> simd_shuffle x x (rev (seq 0 n)) = Some (rev x).
Proof. intros L. unfold simd_shuffle. apply collect_some. now apply map_nth_error_rev. Qed.

Definition bswap (b : nat) (p : Z) : Z := le_value (rev (le_bytes b p)).

Lemma bswap_lane be b p : lane_value be (rev (lane_bytes be b p)) = bswap b p.
Proof. unfold bswap, lane_value, lane_bytes. destruct be; now rewrite ?rev_involutive. Qed.

Lemma bswap_pattern b p : pattern b (bswap b p).
Proof.
  unfold bswap. rewrite <- (le_bytes_length b p) at 1. rewrite <- rev_length.
  apply le_value_pattern, Forall_rev, le_bytes_byte.
Qed.

Lemma le_bytes_bswap b p : le_bytes b (bswap b p) = rev (le_bytes b p).
Proof.
  unfold bswap. rewrite <- (le_bytes_length b p) at 1. rewrite <- rev_length.
  apply le_bytes_le_value, Forall_rev, le_bytes_byte.
Qed.

Lemma bswap_swapped b p : bytes_swapped b p (bswap b p).
Proof.
  intros k K.
  pose proof (nth_error_lane_bytes false b (bswap b p) k K) as A.
  assert (K' : (b - 1 - k < b)%nat) by lia.
  pose proof (nth_error_lane_bytes false b p (b - 1 - k) K') as B.
  cbn [lane_bytes] in A, B. rewrite le_bytes_bswap in A. unfold byte_of in A, B.
  assert (C : nth_error (rev (le_bytes b p)) k = nth_error (le_bytes b p) (b - 1 - k)).
  { rewrite <- (rev_involutive (le_bytes b p)) at 2.
    rewrite !nth_error_nth' with (d := 0) by (rewrite ?rev_length, le_bytes_length; lia).
    f_equal. rewrite (rev_nth (rev (le_bytes b p))); rewrite rev_length, le_bytes_length; [|lia].
    f_equal. lia. }
  congruence.
Qed.

Lemma rev_image be b v : rev (image be b v) = flat_map (fun p => rev (lane_bytes be b p)) (rev v).
Proof.
  unfold image. induction v as [|p v IH]; cbn [flat_map rev]; auto.
  rewrite rev_app_distr, IH, flat_map_app. cbn [flat_map]. now rewrite app_nil_r.
Qed.

Lemma rev_image_swap be b v : rev (image be b v) = image be b (map (bswap b) (rev v)).
Proof.
  rewrite rev_image. unfold image. rewrite !flat_map_concat_map, map_map. f_equal.
  apply map_ext. intros p. unfold lane_bytes. destruct be; now rewrite le_bytes_bswap.
Qed.

Lemma rev_image_opposite be b v : rev (image be b v) = image (negb be) b (rev v).
Proof.
  rewrite rev_image. unfold image. rewrite !flat_map_concat_map. f_equal.
  apply map_ext. intros p. unfold lane_bytes. destruct be; cbn [negb]; now rewrite ?rev_involutive.
Qed.

Lemma image_1 be v : Forall (pattern 1) v -> image be 1 v = v.
Proof.
  intros F. unfold image. induction F as [|p v P F IH]; cbn [flat_map]; auto. rewrite IH.
  assert (E : lane_bytes be 1 p = [p]); [|now rewrite E].
  unfold pattern in P. change (modulus 1) with 256 in P.
  unfold lane_bytes. cbn [le_bytes]. rewrite Z.mod_small by lia. now destruct be.
Qed.

(** Byte reversal through a byte vector of the same size. *)
Lemma reverse_bytes be b n N v : wf b n v -> (b * n = N)%nat ->
  transmute be 1 b n (rev (transmute be b 1 N v)) = map (bswap b) (rev v).
Proof.
  intros W E.
  assert (W1 : wf 1 N (transmute be b 1 N v)) by (apply (transmute_wf be b n); auto; lia).
  assert (I : transmute be b 1 N v = image be b v).
  { rewrite <- (image_1 be (transmute be b 1 N v)) by apply W1.
    apply (transmute_image be b n 1 N); auto. lia. }
  unfold transmute at 1. rewrite I.
  rewrite (image_1 be (rev (image be b v))).
  2:{ rewrite <- I. apply Forall_rev, W1. }
  rewrite rev_image_swap. apply of_image_image.
  split; [rewrite map_length, rev_length; apply W|].
  apply Forall_forall. intros q Q. apply in_map_iff in Q as (p & <- & _). apply bswap_pattern.
Qed.

Lemma swap_arm_ok be sz a t v : is_vector t v ->
  (a = V16 -> vb t = 1%nat /\ vn t = 2%nat /\ arity_ok sz t 2 = true) ->
  (vb t * vn t = vn (fst (swap_view a)))%nat ->
  swap_with be sz a t v = Ok (map (bswap (vb t)) (rev v)).
Proof.
  intros W A E.
  assert (G : forall N idx, idx = rev (seq 0 N) -> (vb t * vn t = N)%nat ->
    arity_ok false (V KUint 1 N) N = true ->
    (r <- shuffled (shuffle1 false (V KUint 1 N) (transmute be (vb t) 1 N v) idx) ;;
     Ok (transmute be 1 (vb t) (vn t) r)) = Ok (map (bswap (vb t)) (rev v))).
  { intros N idx -> EN AR. unfold shuffle1, shuffle2. rewrite rev_length, seq_length.
    unfold arity_ok in AR. rewrite AR. rewrite simd_shuffle_rev.
    2:{ apply (transmute_wf be (vb t) (vn t) 1 N v W). lia. }
    cbn [shuffled bind]. f_equal. now apply reverse_bytes. }
  destruct a.
  - destruct (A eq_refl) as (B & N & AR). cbn [swap_with].
    unfold shuffle1, shuffle2. unfold arity_ok in AR. cbn [length swap_idx2]. rewrite AR.
    change swap_idx2 with (rev (seq 0 2)). rewrite simd_shuffle_rev by (rewrite <- N; apply W).
    cbn [shuffled]. f_equal. rewrite <- (map_id (rev v)) at 1. apply map_ext_in.
    intros p P. apply in_rev in P. destruct W as [_ F]. rewrite Forall_forall in F. specialize (F p P).
    rewrite width_bits, B in *. unfold bswap. cbn [le_bytes rev app].
    symmetry. exact (le_value_le_bytes 1 p F).
  - apply (G 4%nat swap_idx4); auto.
  - apply (G 8%nat swap_idx8); auto.
  - apply (G 16%nat swap_idx16); auto.
  - apply (G 32%nat swap_idx32); auto.
  - apply (G 64%nat swap_idx64); auto.
Qed.

Definition swap_arm_for (d : decl) : option swap_arm :=
  (if pointer_sized d then swap_arm_size else swap_arm_of) (vb (d_ty d)) (vn (d_ty d)).

Definition swap_decl_ok (d : decl) : bool :=
  match vkind (d_ty d) with
  | KInt | KUint =>
    match swap_arm_for d with
    | Some a => Nat.eqb (vb (d_ty d) * vn (d_ty d)) (vn (fst (swap_view a))) &&
        match a with
        | V16 => Nat.eqb (vb (d_ty d)) 1 && Nat.eqb (vn (d_ty d)) 2 && arity_ok (pointer_sized d) (d_ty d) 2
        | _ => true end
    | None => false
    end
  | _ => true
  end.

Lemma swap_decls_ok pb : (pb = 1 \/ pb = 2 \/ pb = 4 \/ pb = 8)%nat ->
  forallb swap_decl_ok (decls pb) = true.
Proof. intros [-> | [-> | [-> | ->]]]; vm_compute; reflexivity. Qed.

Lemma swap_bytes_eq pb be d v : (pb = 1 \/ pb = 2 \/ pb = 4 \/ pb = 8)%nat ->
  In d (decls pb) -> integer_type (d_ty d) -> is_vector (d_ty d) v ->
  swap_bytes be (pointer_sized d) (d_ty d) v = Ok (map (bswap (vb (d_ty d))) (rev v)).
Proof.
  intros P D T W. pose proof (swap_decls_ok pb P) as H. rewrite forallb_forall in H.
  specialize (H d D). unfold swap_decl_ok in H. unfold swap_bytes. unfold swap_arm_for in H.
  assert (H' : match (if pointer_sized d then swap_arm_size else swap_arm_of) (vb (d_ty d)) (vn (d_ty d)) with
    | Some a => Nat.eqb (vb (d_ty d) * vn (d_ty d)) (vn (fst (swap_view a))) &&
        match a with
        | V16 => Nat.eqb (vb (d_ty d)) 1 && Nat.eqb (vn (d_ty d)) 2 && arity_ok (pointer_sized d) (d_ty d) 2
        | _ => true end
    | None => false
    end = true) by (destruct T as [[K _]|[K _]]; rewrite K in H; exact H).
  clear H. destruct (_ (vb (d_ty d)) (vn (d_ty d))) as [a|]; [|discriminate].
  apply andb_true_iff in H' as [H1 H2]. apply Nat.eqb_eq in H1.
  apply swap_arm_ok; auto. intros ->.
  rewrite !andb_true_iff, !Nat.eqb_eq in H2. tauto.
Qed.

Lemma vector_byte_image be t v k x :
  is_vector t v -> (0 < vb t)%nat -> (vector_byte be t v k x <-> nth_error (image be (vb t) v) k = Some x).
Proof.
  intros V B. split.
  - intros (i & j & p & -> & J & L & ->). now apply nth_error_image.
  - intros E. now apply nth_error_image_split in E.
Qed.

Lemma swapped_vector t v : is_vector t v -> is_vector t (map (bswap (vb t)) (rev v)).
Proof.
  intros [L F]. split; [now rewrite map_length, rev_length|].
  apply Forall_forall. intros q Q. apply in_map_iff in Q as (p & <- & _). apply bswap_pattern.
Qed.

Lemma swapped_twice t v : is_vector t v ->
  map (bswap (vb t)) (rev (map (bswap (vb t)) (rev v))) = v.
Proof.
  intros V. pose proof (swapped_vector t v V) as V'. pose proof (swapped_vector t _ V') as V''.
  rewrite <- (of_image_image false (vb t) (vn t) v V) at 2.
  rewrite <- (of_image_image false (vb t) (vn t) _ V'') at 1. f_equal.
  rewrite <- !rev_image_swap. apply rev_involutive.
Qed.

Lemma nth_error_rev' {A} (l : list A) k : (k < length l)%nat -> nth_error (rev l) k = nth_error l (length l - 1 - k).
Proof.
  intros K. destruct l as [|d l]; [cbn in K; lia|]. set (m := d :: l) in *.
  rewrite !nth_error_nth' with (d := d) by (rewrite ?rev_length; lia). f_equal.
  rewrite rev_nth by auto. f_equal. lia.
Qed.

Theorem swap_bytes_spec pb be d v : (pb = 1 \/ pb = 2 \/ pb = 4 \/ pb = 8)%nat ->
  In d (decls pb) -> integer_type (d_ty d) -> is_vector (d_ty d) v ->
  let t := d_ty d in let sz := pointer_sized d in
  exists r, swap_bytes be sz t v = Ok r /\ is_vector t r /\
    (forall i p, lane v i p -> exists q, lane r (vn t - 1 - i) q /\ bytes_swapped (vb t) p q) /\
    (forall k x, (k < vb t * vn t)%nat ->
       (vector_byte be t r k x <-> vector_byte be t v (vb t * vn t - 1 - k) x)) /\
    swap_bytes be sz t r = Ok v.
Proof.
  intros P D T V t sz.
  exists (map (bswap (vb t)) (rev v)).
  pose proof (swapped_vector t v V) as V'. pose proof V as [L _].
  assert (B : (0 < vb t)%nat) by (destruct T as [[_ T]|[_ T]]; apply T).
  split; [now apply (swap_bytes_eq pb)|]. split; auto. split; [|split].
  - intros i p LP. pose proof (nth_error_lt _ _ _ LP) as I. exists (bswap (vb t) p). split; [|apply bswap_swapped].
    fold t in L. rewrite L in I. unfold lane in *.
    rewrite nth_error_map, nth_error_rev' by (rewrite L; clear - I; lia).
    rewrite L. replace (vn t - 1 - (vn t - 1 - i))%nat with i by (clear - I; lia).
    now rewrite LP.
  - intros k x K. rewrite !vector_byte_image by auto. rewrite <- rev_image_swap.
    rewrite nth_error_rev' by (rewrite image_length, L; exact K).
    rewrite image_length, L. reflexivity.
  - unfold t, sz. rewrite (swap_bytes_eq pb) by auto. f_equal. now apply swapped_twice.
Qed.

Theorem endian_conversions pb be d v : (pb = 1 \/ pb = 2 \/ pb = 4 \/ pb = 8)%nat ->
  In d (decls pb) -> integer_type (d_ty d) -> is_vector (d_ty d) v ->
  let t := d_ty d in let sz := pointer_sized d in
  (be = false -> to_le be sz t v = Ok v /\ from_le be sz t v = Ok v /\
     to_be be sz t v = swap_bytes be sz t v /\ from_be be sz t v = swap_bytes be sz t v) /\
  (be = true -> to_be be sz t v = Ok v /\ from_be be sz t v = Ok v /\
     to_le be sz t v = swap_bytes be sz t v /\ from_le be sz t v = swap_bytes be sz t v) /\
  (exists r, to_le be sz t v = Ok r /\ from_le be sz t r = Ok v) /\
  (exists r, to_be be sz t v = Ok r /\ from_be be sz t r = Ok v).
Proof.
  intros P D T V t sz. destruct (swap_bytes_spec pb be d v P D T V) as (r & E & _ & _ & _ & E').
  fold t sz in E, E'. unfold to_le, to_be, from_le, from_be. destruct be; cbn [negb];
    (split; [intros; try discriminate; auto|]); (split; [intros; try discriminate; auto|]);
    (split; [|]); eauto.
Qed.

(** C52 *)
Theorem endian_images pb d v r1 r2 : (pb = 1 \/ pb = 2 \/ pb = 4 \/ pb = 8)%nat ->
  In d (decls pb) -> integer_type (d_ty d) -> is_vector (d_ty d) v ->
  let t := d_ty d in let sz := pointer_sized d in
  (to_le false sz t v = Ok r1 -> to_le true sz t v = Ok r2 ->
     (forall k x, vector_byte true t r2 k x <-> vector_byte false t (rev v) k x) /\
     ((forall k x, vector_byte true t r2 k x <-> vector_byte false t r1 k x) <-> v = rev v)) /\
  (to_be false sz t v = Ok r1 -> to_be true sz t v = Ok r2 ->
     (forall k x, vector_byte false t r1 k x <-> vector_byte true t (rev v) k x) /\
     ((forall k x, vector_byte true t r2 k x <-> vector_byte false t r1 k x) <-> v = rev v)).
Proof.
  intros P D T V t sz.
  assert (B : (0 < vb t)%nat) by (destruct T as [[_ T]|[_ T]]; apply T).
  pose proof V as [L F]. fold t in L.
  assert (VR : is_vector t (rev v)) by (split; [now rewrite rev_length|now apply Forall_rev]).
  assert (IJ : forall be x y, is_vector t x -> is_vector t y -> image be (vb t) x = image be (vb t) y -> x = y).
  { intros be x y X Y E. rewrite <- (of_image_image be (vb t) (vn t) x X), <- (of_image_image be (vb t) (vn t) y Y).
    now rewrite E. }
  assert (EXT : forall (l m : list Z), (forall k x, nth_error l k = Some x <-> nth_error m k = Some x) -> l = m).
  { clear. intros l m H. apply nth_error_ext.
    - destruct (Nat.lt_trichotomy (length l) (length m)) as [C|[C|C]]; auto.
      + apply nth_error_ex in C as [a A]. apply H in A. apply nth_error_lt in A. lia.
      + apply nth_error_ex in C as [a A]. apply H in A. apply nth_error_lt in A. lia.
    - intros i a b A E. apply H in A. congruence. }
  unfold to_le, to_be. cbn [negb]. unfold t, sz. rewrite !(swap_bytes_eq pb) by auto. fold t.
  pose proof (swapped_vector t v V) as V'.
  split; intros [= <-] [= <-]; split.
  - intros k x. rewrite !vector_byte_image by auto. now rewrite <- rev_image_swap, rev_image_opposite.
  - split.
    + intros H. apply (IJ false); auto. rewrite <- (rev_image_opposite true), rev_image_swap.
      symmetry. apply EXT. intros k x. rewrite <- !vector_byte_image by auto. apply H.
    + intros E k x. rewrite !vector_byte_image by auto. rewrite <- rev_image_swap, rev_image_opposite.
      cbn [negb]. now rewrite <- E.
  - intros k x. rewrite !vector_byte_image by auto. now rewrite <- rev_image_swap, rev_image_opposite.
  - split.
    + intros H. apply (IJ true); auto. rewrite <- (rev_image_opposite false), rev_image_swap.
      apply EXT. intros k x. rewrite <- !vector_byte_image by auto. apply H.
    + intros E k x. rewrite !vector_byte_image by auto. rewrite <- rev_image_swap, rev_image_opposite.
      cbn [negb]. now rewrite <- E.
Qed.
