From Coq Require Import ZArith List Bool Lia.
From Verif.Model Require Import Base FloatLane Tables Minimal Ops ExTriangle.
From Verif.Spec Require Import Spec Floats Examples.
From Verif.Proofs Require Import Lib FloatP FloatOpsP.
Import ListNotations.
Open Scope Z_scope.

Lemma f32_fsize : fsize 4.
Proof. left; reflexivity. Qed.

(** A triangle or matrix written out entry by entry. *)
Lemma row3 (r : list Z) : length r = 3%nat -> exists a b c, r = [a; b; c].
Proof. destruct r as [|a [|b [|c [|]]]]; try discriminate; eauto. Qed.
Lemma tri_ex t : f32_array 3 3 t -> exists a b c d e f g h i, t = [[a; b; c]; [d; e; f]; [g; h; i]].
Proof.
  intros [L F].
  destruct t as [|r1 [|r2 [|r3 [|]]]]; try discriminate.
  inversion F as [|? ? [L1 _] F1]; subst. inversion F1 as [|? ? [L2 _] F2]; subst.
  inversion F2 as [|? ? [L3 _] _]; subst.
  destruct (row3 _ L1) as (?&?&?&->), (row3 _ L2) as (?&?&?&->), (row3 _ L3) as (?&?&?&->).
  repeat eexists.
Qed.
Lemma mat_ex t : f32_array 4 3 t ->
  exists a b c d e f g h i j k l, t = [[a; b; c]; [d; e; f]; [g; h; i]; [j; k; l]].
Proof.
  intros [L F].
  destruct t as [|r1 [|r2 [|r3 [|r4 [|]]]]]; try discriminate.
  inversion F as [|? ? [L1 _] F1]; subst. inversion F1 as [|? ? [L2 _] F2]; subst.
  inversion F2 as [|? ? [L3 _] F3]; subst. inversion F3 as [|? ? [L4 _] _]; subst.
  destruct (row3 _ L1) as (?&?&?&->), (row3 _ L2) as (?&?&?&->), (row3 _ L3) as (?&?&?&->),
    (row3 _ L4) as (?&?&?&->).
  repeat eexists.
Qed.
Lemma eight {A} (l : list A) : length l = 8%nat ->
  exists a b c d e f g h, l = [a; b; c; d; e; f; g; h].
Proof.
  destruct l as [|a [|b [|c [|d [|e [|f [|g [|h [|]]]]]]]]]; try discriminate. repeat eexists.
Qed.

Lemma pack_length tris : length tris <> 8%nat -> pack tris = Panic.
Proof.
  intros H. unfold pack. replace (Nat.eqb (length tris) (lanes VecF)) with false; [reflexivity|].
  symmetry; apply Nat.eqb_neq; exact H.
Qed.

Lemma transform_lanes mat tris :
  f32_array 4 3 mat -> length tris = 8%nat -> Forall (f32_array 3 3) tris ->
  exists s, pack tris = Ok s /\ unpack s = Ok tris /\
    unpack (simd_transform mat s) = Ok (map (scalar_transform mat) tris).
Proof.
  intros M L F.
  destruct (mat_ex _ M) as (?&?&?&?&?&?&?&?&?&?&?&?&->).
  destruct (eight _ L) as (?&?&?&?&?&?&?&?&->).
  repeat match goal with
  | H : Forall _ (_ :: _) |- _ => let A := fresh in let B := fresh in
      inversion H as [|? ? A B]; subst; clear H;
      destruct (tri_ex _ A) as (?&?&?&?&?&?&?&?&?&->); clear A
  end.
  eexists. split; [|split].
  - cbv -[fl_add fl_mul fl_of_int]. reflexivity.
  - cbv -[fl_add fl_mul fl_of_int]. reflexivity.
  - cbv -[fl_add fl_mul fl_of_int]. reflexivity.
Qed.

Lemma f32_add p q : 0 <= p < 2 ^ 32 -> 0 <= q < 2 ^ 32 ->
  0 <= fl_add 4 p q < 2 ^ 32 /\ ieee_add 4 (datum_of 4 p) (datum_of 4 q) (datum_of 4 (fl_add 4 p q)).
Proof. intros; apply (add_pattern 4); auto using f32_fsize. Qed.
Lemma f32_mul p q : 0 <= p < 2 ^ 32 -> 0 <= q < 2 ^ 32 ->
  0 <= fl_mul 4 p q < 2 ^ 32 /\ ieee_mul 4 (datum_of 4 p) (datum_of 4 q) (datum_of 4 (fl_mul 4 p q)).
Proof. intros; apply (mul_pattern 4); auto using f32_fsize. Qed.

Notation f32p := (fun p => 0 <= p < 2 ^ 32).
Lemma coord_ok a b c d x y z :
  f32p a -> f32p b -> f32p c -> f32p d -> f32p x -> f32p y -> f32p z ->
  f32p (scalar_coord a b c d x y z) /\
  affine (datum_of 4 a) (datum_of 4 b) (datum_of 4 c) (datum_of 4 d)
    (datum_of 4 x) (datum_of 4 y) (datum_of 4 z) (datum_of 4 (scalar_coord a b c d x y z)).
Proof.
  intros Ha Hb Hc Hd Hx Hy Hz. unfold scalar_coord, affine.
  destruct (f32_mul _ _ Ha Hx) as [P1 D1], (f32_mul _ _ Hb Hy) as [P2 D2], (f32_mul _ _ Hc Hz) as [P3 D3].
  destruct (f32_add _ _ P1 P2) as [P4 D4]. destruct (f32_add _ _ P4 P3) as [P5 D5].
  destruct (f32_add _ _ P5 Hd) as [P6 D6].
  split; [exact P6|]. do 5 eexists. split; [exact D1|]. split; [exact D2|]. split; [exact D3|].
  split; [exact D4|]. split; [exact D5|exact D6].
Qed.

Lemma entry_f32 rows cols m i j p : f32_array rows cols m -> entry m i j p -> f32p p.
Proof.
  intros [_ F] (r & H & H'). apply (Forall_nth_error _ _ _ _ F) in H. destruct H as [_ H].
  exact (Forall_nth_error _ _ _ _ H H').
Qed.
Lemma entry_at rows cols m i j p : f32_array rows cols m -> entry m i j p -> at_ (nth i m []) j = p.
Proof.
  intros _ (r & H & H'). unfold at_. rewrite (nth_error_nth _ _ _ H). exact (nth_error_nth _ _ _ H').
Qed.
Lemma entry_ex rows cols m i j : f32_array rows cols m -> (i < rows)%nat -> (j < cols)%nat -> exists p, entry m i j p.
Proof.
  intros [L F] Hi Hj.
  destruct (nth_error_ex m i) as [r Hr]; [lia|].
  destruct (Forall_nth_error _ _ _ _ F Hr) as [Lr _].
  destruct (nth_error_ex r j) as [p Hp]; [lia|]. exists p, r. auto.
Qed.

Lemma scalar_shape mat t : f32_array 4 3 mat -> f32_array 3 3 t ->
  f32_array 3 3 (scalar_transform mat t) /\
  forall k r a b c d x y z,
    entry mat 0 r a -> entry mat 1 r b -> entry mat 2 r c -> entry mat 3 r d ->
    entry t k 0 x -> entry t k 1 y -> entry t k 2 z ->
    exists q, entry (scalar_transform mat t) k r q /\
      affine (datum_of 4 a) (datum_of 4 b) (datum_of 4 c) (datum_of 4 d)
        (datum_of 4 x) (datum_of 4 y) (datum_of 4 z) (datum_of 4 q).
Proof.
  intros M T.
  assert (C : forall k r, (k < 3)%nat -> (r < 3)%nat -> entry (scalar_transform mat t) k r
    (scalar_coord (at_ (nth 0 mat []) r) (at_ (nth 1 mat []) r) (at_ (nth 2 mat []) r) (at_ (nth 3 mat []) r)
       (at_ (nth k t []) 0) (at_ (nth k t []) 1) (at_ (nth k t []) 2))).
  { intros k r Hk Hr. exists (scalar_vertex mat (nth k t [])). split.
    - do 3 (destruct k as [|k]; [reflexivity|]). lia.
    - do 3 (destruct r as [|r]; [reflexivity|]). lia. }
  assert (Q : forall k r, (k < 3)%nat -> (r < 3)%nat -> f32p
    (scalar_coord (at_ (nth 0 mat []) r) (at_ (nth 1 mat []) r) (at_ (nth 2 mat []) r) (at_ (nth 3 mat []) r)
       (at_ (nth k t []) 0) (at_ (nth k t []) 1) (at_ (nth k t []) 2))).
  { intros k r Hk Hr.
    assert (E : forall i, (i < 4)%nat -> f32p (at_ (nth i mat []) r)).
    { intros i Hi. destruct (entry_ex _ _ _ i r M Hi Hr) as [p Hp].
      rewrite (entry_at _ _ _ _ _ _ M Hp). exact (entry_f32 _ _ _ _ _ _ M Hp). }
    assert (E' : forall i, (i < 3)%nat -> f32p (at_ (nth k t []) i)).
    { intros i Hi. destruct (entry_ex _ _ _ k i T Hk Hi) as [p Hp].
      rewrite (entry_at _ _ _ _ _ _ T Hp). exact (entry_f32 _ _ _ _ _ _ T Hp). }
    apply coord_ok; (apply E || apply E'); lia. }
  split.
  - split; [reflexivity|].
    unfold scalar_transform. apply Forall_forall. intros v Hv. apply in_map_iff in Hv.
    destruct Hv as (k & <- & Hk). assert (Hk' : (k < 3)%nat) by (cbn in Hk; lia).
    split; [reflexivity|]. apply Forall_forall. intros p Hp. apply in_map_iff in Hp.
    destruct Hp as (r & <- & Hr). assert (Hr' : (r < 3)%nat) by (cbn in Hr; lia).
    apply Q; assumption.
  - intros k r a b c d x y z Ha Hb Hc Hd Hx Hy Hz.
    assert (Hk : (k < 3)%nat).
    { destruct Hx as (v & Hv & _). apply nth_error_lt in Hv. destruct T as [L _]. congruence. }
    assert (Hr : (r < 3)%nat).
    { destruct Ha as (v & Hv & Hr). destruct M as [_ F]. apply (Forall_nth_error _ _ _ _ F) in Hv.
      apply nth_error_lt in Hr. destruct Hv as [L _]. congruence. }
    eexists. split; [apply C; assumption|].
    rewrite (entry_at _ _ _ _ _ _ M Ha), (entry_at _ _ _ _ _ _ M Hb), (entry_at _ _ _ _ _ _ M Hc),
      (entry_at _ _ _ _ _ _ M Hd), (entry_at _ _ _ _ _ _ T Hx), (entry_at _ _ _ _ _ _ T Hy),
      (entry_at _ _ _ _ _ _ T Hz).
    apply coord_ok; eauto using entry_f32.
Qed.

Theorem triangle_transform mat tris :
  f32_array 4 3 mat -> length tris = 8%nat -> Forall (f32_array 3 3) tris ->
  exists s out, pack tris = Ok s /\ unpack s = Ok tris /\ unpack (simd_transform mat s) = Ok out /\
    out = map (scalar_transform mat) tris /\
    forall n t, nth_error tris n = Some t ->
    exists t', nth_error out n = Some t' /\ f32_array 3 3 t' /\
      forall k r a b c d x y z,
        entry mat 0 r a -> entry mat 1 r b -> entry mat 2 r c -> entry mat 3 r d ->
        entry t k 0 x -> entry t k 1 y -> entry t k 2 z ->
        exists q, entry t' k r q /\
          affine (datum_of 4 a) (datum_of 4 b) (datum_of 4 c) (datum_of 4 d)
            (datum_of 4 x) (datum_of 4 y) (datum_of 4 z) (datum_of 4 q).
Proof.
  intros M L F. destruct (transform_lanes mat tris M L F) as (s & P & U & T).
  exists s, (map (scalar_transform mat) tris).
  split; [exact P|]. split; [exact U|]. split; [exact T|]. split; [reflexivity|].
  intros n t Hn. exists (scalar_transform mat t).
  split; [exact (map_nth_error _ _ _ Hn)|].
  apply scalar_shape; [exact M|]. exact (Forall_nth_error _ _ _ _ F Hn).
Qed.
