(** [shuffle!] (C23). *)
From Coq Require Import ZArith List Bool Lia ZifyBool ZifyNat Arith.
From Verif.Model Require Import Base FloatLane Llvm Tables Shuffle.
From Verif.Spec Require Import Spec Conv.
From Verif.Proofs Require Import Lib.
Import ListNotations.
Open Scope Z_scope.

Lemma collect_some {A} (l : list (option A)) r : collect l = Some r <-> l = map Some r.
Proof.
  revert r. induction l as [|[a|] l IH]; intros r; cbn [collect].
  - split; [intros [= <-]; auto|]. destruct r; [auto|discriminate].
  - destruct (collect l) as [s|] eqn:E.
    + split.
      * intros [= <-]. cbn. f_equal. now apply IH.
      * destruct r as [|b r]; [discriminate|]. cbn. intros [= <- H]. do 2 f_equal.
        apply IH in H. congruence.
    + split; [discriminate|]. destruct r as [|b r]; [discriminate|]. cbn. intros [= <- H].
      apply IH in H. discriminate.
  - split; [discriminate|]. destruct r; discriminate.
Qed.

Lemma collect_none {A} (l : list (option A)) : collect l = None <-> In None l.
Proof.
  induction l as [|[a|] l IH]; cbn [collect].
  - split; [discriminate|intros []].
  - destruct (collect l) as [s|].
    + split; [discriminate|]. intros [D|H]; [discriminate|]. apply IH in H. discriminate.
    + split; auto. intros _. right. now apply IH.
  - split; auto. intros _. now left.
Qed.

Lemma simd_shuffle_some x y idx r : simd_shuffle x y idx = Some r ->
  length r = length idx /\
  forall k i, nth_error idx k = Some i -> nth_error r k = nth_error (x ++ y) i /\ nth_error r k <> None.
Proof.
  unfold simd_shuffle. intros E. apply collect_some in E. split.
  - apply (f_equal (@length _)) in E. now rewrite !map_length in E.
  - intros k i K. assert (N : nth_error (map (fun i => nth_error (x ++ y) i) idx) k = Some (nth_error (x ++ y) i))
      by now apply map_nth_error.
    rewrite E, nth_error_map in N. destruct (nth_error r k) as [p|]; [|discriminate].
    cbn in N. split; congruence.
Qed.

Lemma simd_shuffle_defined x y idx :
  Forall (fun i => (i < length x + length y)%nat) idx <-> exists r, simd_shuffle x y idx = Some r.
Proof.
  unfold simd_shuffle. split.
  - intros F. destruct (collect _) as [r|] eqn:E; [eauto|]. exfalso.
    apply collect_none in E. apply in_map_iff in E as (i & N & I).
    apply nth_error_None in N. rewrite app_length in N. rewrite Forall_forall in F.
    specialize (F i I). lia.
  - intros [r E]. apply Forall_forall. intros i I. rewrite <- app_length.
    apply nth_error_Some. intros N.
    assert (C : collect (map (fun i => nth_error (x ++ y) i) idx) = None)
      by (apply collect_none, in_map_iff; eauto).
    congruence.
Qed.

(** The number of lanes of a result: one the macro and the element type support. *)
Definition arity_ok (sz : bool) (t : vty) (n : nat) : bool :=
  shuffle_arity n && existsb (Nat.eqb n) (shuffle_lanes sz (vkind t) (vb t)).

Theorem shuffle2_spec sz t x y idx :
  is_vector t x -> is_vector t y ->
  (forall t' r, shuffle2 sz t x y idx = Some (t', r) ->
     t' = V (vkind t) (vb t) (length idx) /\ is_vector t' r /\
     forall k i, nth_error idx k = Some i ->
       ((i < vn t)%nat /\ exists p, lane r k p /\ lane x i p) \/
       ((vn t <= i < 2 * vn t)%nat /\ exists p, lane r k p /\ lane y (i - vn t) p)) /\
  ((exists i, In i idx /\ (2 * vn t <= i)%nat) -> shuffle2 sz t x y idx = None).
Proof.
  intros [Lx Fx] [Ly Fy]. split.
  - unfold shuffle2. intros t' r. destruct (_ && _); [|discriminate].
    destruct (simd_shuffle x y idx) as [s|] eqn:E; [|discriminate]. intros [= <- <-].
    apply simd_shuffle_some in E as [L N]. split; auto.
    assert (P : forall k i, nth_error idx k = Some i -> exists p, lane s k p /\ nth_error (x ++ y) i = Some p).
    { intros k i K. destruct (N k i K) as [E D]. unfold lane. destruct (nth_error s k) as [p|]; [|congruence].
      exists p. split; congruence. }
    split.
    + split; [exact L|]. apply Forall_of_nth_error. intros k p K.
      assert (exists i, nth_error idx k = Some i) as [i I]
        by (apply nth_error_ex; rewrite <- L; eapply nth_error_lt; eauto).
      destruct (P k i I) as (q & Q & X). unfold lane in Q. rewrite K in Q. injection Q as <-.
      apply nth_error_In, in_app_or in X. cbn [vb]. unfold width. cbn [vb]. fold (width t).
      destruct X as [X|X]; [rewrite Forall_forall in Fx; now apply Fx|rewrite Forall_forall in Fy; now apply Fy].
    + intros k i K. destruct (P k i K) as (p & Q & X).
      pose proof (nth_error_lt _ _ _ X) as B. rewrite app_length, Lx, Ly in B.
      destruct (Nat.lt_ge_cases i (vn t)) as [I|I].
      * left. split; auto. exists p. split; auto. rewrite nth_error_app1 in X by lia. exact X.
      * right. split; [lia|]. exists p. split; auto. rewrite nth_error_app2 in X by lia.
        rewrite Lx in X. exact X.
  - intros (i & I & B). unfold shuffle2. destruct (_ && _); auto.
    destruct (simd_shuffle x y idx) as [s|] eqn:E; auto. exfalso.
    assert (D : Forall (fun i => (i < length x + length y)%nat) idx) by (apply simd_shuffle_defined; eauto).
    rewrite Forall_forall in D. specialize (D i I). lia.
Qed.

Theorem shuffle1_spec sz t x idx :
  is_vector t x ->
  (forall t' r, shuffle1 sz t x idx = Some (t', r) ->
     t' = V (vkind t) (vb t) (length idx) /\ is_vector t' r /\
     forall k i, nth_error idx k = Some i ->
       (i < 2 * vn t)%nat /\ exists p, lane r k p /\ lane x (if (i <? vn t)%nat then i else i - vn t) p) /\
  ((exists i, In i idx /\ (2 * vn t <= i)%nat) -> shuffle1 sz t x idx = None).
Proof.
  intros V. destruct (shuffle2_spec sz t x x idx V V) as [H1 H2]. split; auto.
  intros t' r E. destruct (H1 t' r E) as (A & B & C). split; auto. split; auto.
  intros k i K. destruct (C k i K) as [[I P]|[I P]].
  - destruct (Nat.ltb_spec i (vn t)); [|lia]. split; [lia|auto].
  - destruct (Nat.ltb_spec i (vn t)); [lia|]. split; [lia|auto].
Qed.

(** Which invocations compile: for each type of the crate with at least two lanes,
    other than m16x32, its lanes may be the result of a shuffle. *)
Theorem shuffle_available pb d t x y idx :
  In d (decls pb) -> (2 <= vn (d_ty d))%nat -> d_ty d <> m16x32 ->
  vkind t = vkind (d_ty d) -> vb t = vb (d_ty d) -> length idx = vn (d_ty d) ->
  is_vector t x -> is_vector t y -> Forall (fun i => (i < 2 * vn t)%nat) idx ->
  exists r, shuffle2 (pointer_sized d) t x y idx = Some (d_ty d, r).
Proof.
  intros D N M K B L [Lx _] [Ly _] F.
  assert (A : arity_ok (pointer_sized d) t (length idx) = true).
  { unfold arity_ok. rewrite K, B, L. clear - D N M.
    unfold decls in D.
    repeat (destruct D as [<-|D]; [first [vm_compute; reflexivity | exfalso; cbn in N; lia | exfalso; apply M; reflexivity]|]).
    destruct D. }
  unfold shuffle2. unfold arity_ok in A. rewrite A.
  assert (E : exists r, simd_shuffle x y idx = Some r).
  { apply simd_shuffle_defined. eapply Forall_impl; [|exact F]. cbn beta. intros; lia. }
  destruct E as [r ->]. exists r. rewrite K, B, L. destruct (d_ty d); reflexivity.
Qed.

(** Identity and composition of one-operand shuffles. *)
Lemma simd_shuffle_identity x y : simd_shuffle x y (seq 0 (length x)) = Some x.
Proof.
  unfold simd_shuffle. apply collect_some. apply nth_error_ext.
  - now rewrite !map_length, seq_length.
  - intros i a b A B. rewrite nth_error_map in B.
    destruct (nth_error x i) as [p|] eqn:Q; [|discriminate]. cbn in B. injection B as <-.
    pose proof (nth_error_lt _ _ _ Q) as I.
    assert (S : nth_error (seq 0 (length x)) i = Some i).
    { rewrite (nth_error_nth' _ 0%nat) by (now rewrite seq_length). now rewrite seq_nth. }
    rewrite nth_error_map, S in A. cbn [option_map] in A. injection A as <-.
    now rewrite nth_error_app1.
Qed.

Theorem shuffle_identity sz t x t' r :
  is_vector t x -> shuffle1 sz t x (seq 0 (vn t)) = Some (t', r) -> t' = t /\ r = x.
Proof.
  intros [L _]. unfold shuffle1, shuffle2. rewrite seq_length. destruct (_ && _); [|discriminate].
  rewrite <- L, simd_shuffle_identity. intros [= <- <-]. rewrite L. destruct t; auto.
Qed.

Theorem shuffle_compose sz t x idx jdx t1 y t2 z :
  is_vector t x ->
  shuffle1 sz t x idx = Some (t1, y) -> shuffle1 sz t1 y jdx = Some (t2, z) ->
  Forall (fun j => (j < length idx)%nat) jdx ->
  shuffle1 sz t x (map (fun j => nth j idx 0%nat) jdx) = Some (t2, z).
Proof.
  intros V E1 E2 F. unfold shuffle1, shuffle2 in *. rewrite map_length.
  destruct (_ && _) in E1; [|discriminate].
  destruct (simd_shuffle x x idx) as [s|] eqn:S1; [|discriminate]. injection E1 as <- <-.
  cbn [vkind vb] in E2. destruct (_ && _); [|discriminate].
  destruct (simd_shuffle s s jdx) as [u|] eqn:S2; [|discriminate]. injection E2 as <- <-.
  apply simd_shuffle_some in S1 as [L1 N1]. apply simd_shuffle_some in S2 as [L2 N2].
  assert (C : simd_shuffle x x (map (fun j => nth j idx 0%nat) jdx) = Some u); [|now rewrite C].
  unfold simd_shuffle. apply collect_some. rewrite map_map. apply nth_error_ext.
  - now rewrite !map_length.
  - intros k a b A B. rewrite nth_error_map in A, B.
    destruct (nth_error jdx k) as [j|] eqn:J; [|discriminate]. cbn [option_map] in A. injection A as <-.
    destruct (N2 k j J) as [NU _].
    assert (JL : (j < length idx)%nat) by exact (Forall_nth_error _ _ _ _ F J).
    assert (I : nth_error idx j = Some (nth j idx 0%nat)) by now apply nth_error_nth'.
    destruct (N1 j _ I) as [NS _].
    destruct (nth_error u k) as [p|] eqn:U; [|discriminate]. cbn in B. injection B as <-.
    rewrite <- NS, NU. rewrite nth_error_app1 by lia. reflexivity.
Qed.
