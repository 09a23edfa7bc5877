(** Float vectors, continued: classification, extrema, reductions, casts (C46 - C49, C33). *)
From Coq Require Import ZArith List Bool Lia Reals Lra.
From Coq.Floats Require Import SpecFloat.
From Flocq Require Import Core BinarySingleNaN.
From Verif.Model Require Import Base FloatLane Llvm Tables Minimal MaskReduce Ops Cmp Cast Reduce Float.
From Verif.Spec Require Import Spec Floats.
From Verif.Props Require Import Targets.
From Verif.Proofs Require Import Lib MinimalP OpsP OpsP2 MaskReduceP CmpP BitManipP ReduceP CastP FloatP FloatOpsP FloatVecP FloatApiP.
Import ListNotations.
Open Scope Z_scope.

(** ** C46 *)

Lemma splat_lane t i s : (i < vn t)%nat -> lane (splat t s) i s.
Proof. intros I. unfold lane, splat. now apply nth_error_repeat. Qed.

Lemma infinity_datum b : fsize b ->
  pattern b (elem_infinity b) /\ datum_of b (elem_infinity b) = Inf false /\
  pattern b (elem_neg_infinity b) /\ datum_of b (elem_neg_infinity b) = Inf true.
Proof.
  intros [-> | ->]; (split; [split; [discriminate|reflexivity]|]; split; [reflexivity|];
    split; [split; [discriminate|reflexivity]|]; reflexivity).
Qed.

Theorem float_classification t x :
  float_type t -> is_vector t x ->
  let ok (m : vec) (R : datum -> Prop) :=
    canonical (mask_of t) m /\
    forall i a, lane x i a ->
      exists c, lane m i (mask_lane (mask_of t) c) /\ (c = true <-> R (datum_of (vb t) a)) in
  ok (is_nan t x) (fun d => d = NaN) /\
  ok (is_infinite t x) (fun d => exists s, d = Inf s) /\
  ok (is_finite t x) (fun d => exists s u, d = Fin s u).
Proof.
  intros T X ok. pose proof (float_size t T) as F.
  assert (MT : mask_type (mask_of t)).
  { split; [reflexivity|]. destruct (float_vt t T) as (A & B & C). split; [exact A|split; [exact B|exact C]]. }
  destruct (infinity_datum (vb t) F) as (IP & ID & JP & JD).
  destruct (float_comparisons t x x T X X) as (_ & (NC & NL) & _).
  destruct (float_comparisons t x (INFINITY t) T X (splat_vector t _ IP)) as ((EC & EL) & _).
  destruct (float_comparisons t x (NEG_INFINITY t) T X (splat_vector t _ JP)) as ((GC & GL) & _).
  assert (N : ok (is_nan t x) (fun d => d = NaN)).
  { split; [exact NC|]. intros i a A. destruct (NL i a a A A) as (c & L & E). exists c. split; [exact L|].
    rewrite E. destruct (datum_of (vb t) a); cbn; split; intros H; try congruence; try tauto; try (destruct H; reflexivity). }
  assert (I : ok (is_infinite t x) (fun d => exists s, d = Inf s)).
  { destruct (mask_operators (mask_of t) _ _ MT EC GC) as (_ & (OC & OL) & _). split; [exact OC|].
    intros i a A. pose proof (lane_index t x i a X A) as Ii.
    destruct (EL i a (elem_infinity (vb t)) A (splat_lane t i _ Ii)) as (c & L & E).
    destruct (GL i a (elem_neg_infinity (vb t)) A (splat_lane t i _ Ii)) as (c' & L' & E').
    exists (c || c'). split; [exact (OL i c c' L L')|]. rewrite ID in E. rewrite JD in E'.
    rewrite orb_true_iff, E, E'. destruct (datum_of (vb t) a) as [|s|s u]; cbn.
    - split; [tauto|intros [s H]; discriminate].
    - split; [eauto|]. intros _. destruct s; auto.
    - split; [tauto|intros [s' H]; discriminate]. }
  split; [exact N|]. split; [exact I|].
  destruct N as [NC' NL'], I as [IC IL].
  destruct (mask_operators (mask_of t) _ _ MT NC' IC) as (_ & (OC & OL) & _).
  destruct (mask_operators (mask_of t) _ _ MT OC OC) as (_ & _ & _ & (FC & FL)).
  split; [exact FC|]. intros i a A. destruct (NL' i a A) as (c & L & E). destruct (IL i a A) as (c' & L' & E').
  exists (negb (c || c')). split; [exact (FL i _ (OL i c c' L L'))|].
  rewrite negb_true_iff, orb_false_iff. destruct (datum_of (vb t) a) as [|s|s u].
  - split; [|intros (s & u & H); discriminate]. intros [H _]. rewrite (proj2 E eq_refl) in H. discriminate.
  - split; [|intros (s' & u & H); discriminate]. intros [_ H]. rewrite (proj2 E' (ex_intro _ s eq_refl)) in H. discriminate.
  - split; [eauto|]. intros _. split; apply not_true_iff_false; intros H.
    + apply E in H. discriminate.
    + apply E' in H as [? H]. discriminate.
Qed.

(** ** C47 *)

Theorem float_min_max t x y :
  float_type t -> is_vector t x -> is_vector t y ->
  let d := datum_of (vb t) in
  lanewise2 t x y (float_min t x y) (fun a b c => (c = a \/ c = b) /\ ieee_min (d a) (d b) (d c)) /\
  lanewise2 t x y (float_max t x y) (fun a b c => (c = a \/ c = b) /\ ieee_max (d a) (d b) (d c)).
Proof.
  intros T X Y d. pose proof (float_size t T) as F. split; apply (lanewise2_map2 t t); auto; intros a b P Q.
  - pose proof (min_datum (vb t) F a b P Q) as [H G]. split; [destruct H as [-> | ->]; assumption|split; auto].
  - pose proof (max_datum (vb t) F a b P Q) as [H G]. split; [destruct H as [-> | ->]; assumption|split; auto].
Qed.

(** [r] bounds [p] unless [p] is NaN. *)
Definition above (le : datum -> datum -> Prop) b (p r : Z) : Prop :=
  datum_of b p = NaN \/ le (datum_of b p) (datum_of b r).

Lemma le_not_nan d e : ieee_le d e -> d <> NaN /\ e <> NaN.
Proof. unfold ieee_le. destruct d as [|[]|], e as [|[]|]; cbn; intuition (try discriminate). Qed.

Lemma fold_above b (le : datum -> datum -> Prop) (f : Z -> Z -> Z) :
  (forall d, d <> NaN -> le d d) -> (forall d e g, le d e -> le e g -> le d g) ->
  (forall d e, le d e -> d <> NaN /\ e <> NaN) ->
  (forall x p, pattern b x -> pattern b p ->
     (f x p = x \/ f x p = p) /\ above le b x (f x p) /\ above le b p (f x p)) ->
  forall l x, pattern b x -> Forall (pattern b) l ->
  In (fold_left f l x) (x :: l) /\ forall p, In p (x :: l) -> above le b p (fold_left f l x).
Proof.
  intros Rr Rt Rn H. induction l as [|q l IH]; intros x P Fl; cbn [fold_left].
  - split; [cbn; auto|]. intros p [<-|[]]. unfold above. destruct (datum_of b x) eqn:D; [now left|right|right];
      apply Rr; discriminate.
  - inversion Fl as [|? ? Q Fl']; subst. destruct (H x q P Q) as (S & Rx & Rq).
    assert (PX : pattern b (f x q)) by (destruct S as [-> | ->]; auto).
    destruct (IH (f x q) PX Fl') as [I B].
    assert (Tr : forall p, above le b p (f x q) -> above le b p (fold_left f l (f x q))).
    { intros p [N|A]; [now left|]. destruct (B (f x q)) as [N|A']; [cbn; auto| |].
      - destruct (proj2 (Rn _ _ A) N).
      - right. eapply Rt; eauto. }
    split.
    + destruct I as [<-|I]; [|cbn; auto]. destruct S as [-> | ->]; cbn; auto.
    + intros p [<-|[<-|I']]; auto. apply B; cbn; auto.
Qed.

Lemma min_above b x p : fsize b -> pattern b x -> pattern b p ->
  let R := above (fun d e => ieee_le e d) b in
  (fl_min b x p = x \/ fl_min b x p = p) /\ R x (fl_min b x p) /\ R p (fl_min b x p).
Proof.
  intros F P Q R. destruct (min_datum b F x p P Q) as [H G]. split; [exact H|]. unfold R, above.
  destruct (datum_of b x) as [|s|s u] eqn:DX; cbn [ieee_min] in G.
  - split; [now left|]. rewrite G. destruct (datum_of b p); [now left|right|right]; apply le_refl_datum; discriminate.
  - destruct (datum_of b p) eqn:DP; try (split; right; apply G).
    rewrite G. split; [right; apply le_refl_datum; discriminate|now left].
  - destruct (datum_of b p) eqn:DP; try (split; right; apply G).
    rewrite G. split; [right; apply le_refl_datum; discriminate|now left].
Qed.

Lemma max_above b x p : fsize b -> pattern b x -> pattern b p ->
  let R := above ieee_le b in
  (fl_max b x p = x \/ fl_max b x p = p) /\ R x (fl_max b x p) /\ R p (fl_max b x p).
Proof.
  intros F P Q R. destruct (max_datum b F x p P Q) as [H G]. split; [exact H|]. unfold R, above.
  destruct (datum_of b x) as [|s|s u] eqn:DX; cbn [ieee_max] in G.
  - split; [now left|]. rewrite G. destruct (datum_of b p); [now left|right|right]; apply le_refl_datum; discriminate.
  - destruct (datum_of b p) eqn:DP; try (split; right; apply G).
    rewrite G. split; [right; apply le_refl_datum; discriminate|now left].
  - destruct (datum_of b p) eqn:DP; try (split; right; apply G).
    rewrite G. split; [right; apply le_refl_datum; discriminate|now left].
Qed.

Theorem float_extreme_elements tg t v :
  float_type t -> is_vector t v ->
  let d := datum_of (vb t) in
  exists mx mn, max_element tg t v = Ok mx /\ min_element tg t v = Ok mn /\
    (exists i, lane v i mx) /\ (exists i, lane v i mn) /\
    (d mx = NaN <-> forall i p, lane v i p -> d p = NaN) /\
    (d mn = NaN <-> forall i p, lane v i p -> d p = NaN) /\
    forall i p, lane v i p -> d p <> NaN -> ieee_le (d mn) (d p) /\ ieee_le (d p) (d mx).
Proof.
  intros T V d. pose proof (float_size t T) as F. pose proof (float_vt t T) as VT. pose proof T as (K & _).
  pose proof V as [Ln Fp].
  destruct v as [|q l]; [destruct VT as (_ & N & _); cbn in Ln; lia|].
  inversion Fp as [|? ? Pq Fl]; subst.
  exists (fold_left (fl_max (vb t)) l q), (fold_left (fl_min (vb t)) l q).
  assert (EX : max_element tg t (q :: l) = Ok (fold_left (fl_max (vb t)) l q)).
  { assert (R : reduce_loop t (elem_max (vkind t) (vb t)) (q :: l) = Ok (fold_left (fl_max (vb t)) l q)).
    { destruct (reduce_loop_fold t (elem_max (vkind t) (vb t)) _ VT V) as (p & l' & [= <- <-] & ->). rewrite K. reflexivity. }
    unfold max_element, simd_reduce_max. rewrite R, K. destruct (t_arch tg); reflexivity. }
  assert (EN : min_element tg t (q :: l) = Ok (fold_left (fl_min (vb t)) l q)).
  { assert (R : reduce_loop t (elem_min (vkind t) (vb t)) (q :: l) = Ok (fold_left (fl_min (vb t)) l q)).
    { destruct (reduce_loop_fold t (elem_min (vkind t) (vb t)) _ VT V) as (p & l' & [= <- <-] & ->). rewrite K. reflexivity. }
    unfold min_element, simd_reduce_min. rewrite R, K. destruct (t_arch tg); try reflexivity. destruct (t_sse2 tg); reflexivity. }
  split; [exact EX|]. split; [exact EN|].
  destruct (fold_above (vb t) ieee_le (fl_max (vb t)) le_refl_datum le_trans_datum le_not_nan
    (fun x p => max_above (vb t) x p F) l q Pq Fl) as [IX BX].
  destruct (fold_above (vb t) (fun d e => ieee_le e d) (fl_min (vb t))
    le_refl_datum (fun a b c H G => le_trans_datum _ _ _ G H) (fun a b H => match le_not_nan b a H with conj P Q => conj Q P end)
    (fun x p => min_above (vb t) x p F) l q Pq Fl) as [IN BN].
  set (mx := fold_left (fl_max (vb t)) l q) in *. set (mn := fold_left (fl_min (vb t)) l q) in *. clearbody mx mn.
  assert (B : forall i p, lane (q :: l) i p -> d p <> NaN -> ieee_le (d mn) (d p) /\ ieee_le (d p) (d mx)).
  { intros i p L N. apply nth_error_In in L. destruct (BX p L) as [A|A]; [contradiction|].
    destruct (BN p L) as [A'|A']; [contradiction|]. split; assumption. }
  split; [apply In_nth_error in IX; exact IX|]. split; [apply In_nth_error in IN; exact IN|].
  split; [|split; [|exact B]].
  - split.
    + intros N i p L. destruct (d p) eqn:D; [reflexivity| |]; exfalso;
        (apply (proj2 (le_not_nan _ _ (proj2 (B i p L ltac:(congruence))))); exact N).
    + intros H. apply In_nth_error in IX as [i L]. exact (H i mx L).
  - split.
    + intros N i p L. destruct (d p) eqn:D; [reflexivity| |]; exfalso;
        (apply (proj1 (le_not_nan _ _ (proj1 (B i p L ltac:(congruence))))); exact N).
    + intros H. apply In_nth_error in IN as [i L]. exact (H i mn L).
Qed.

(** ** C48 *)

Lemma fold_folds b (op : Z -> Z -> Z) (R : datum -> datum -> datum -> Prop) :
  (forall p q, pattern b p -> pattern b q ->
     pattern b (op p q) /\ R (datum_of b p) (datum_of b q) (datum_of b (op p q))) ->
  forall l p, pattern b p -> Forall (pattern b) l ->
  pattern b (fold_left op l p) /\ folds b R (datum_of b p) l (datum_of b (fold_left op l p)).
Proof.
  intros H. induction l as [|q l IH]; intros p P Fl; cbn [fold_left].
  - split; [exact P|constructor].
  - inversion Fl as [|? ? Q Fl']; subst. destruct (H p q P Q) as [PR RR].
    destruct (IH (op p q) PR Fl') as [A B]. split; [exact A|]. econstructor; eauto.
Qed.

Lemma folds_unique b (R : datum -> datum -> datum -> Prop) :
  (forall x y r r', R x y r -> R x y r' -> r = r') ->
  forall d l r, folds b R d l r -> forall r', folds b R d l r' -> r = r'.
Proof.
  intros U d l r H. induction H as [d|d p l e r E H IH]; intros r' H'; inversion H'; subst; auto.
  apply IH. match goal with A : R d (datum_of b p) ?e' |- _ => rewrite (U _ _ _ _ E A) end. assumption.
Qed.

Theorem float_reductions tg t v :
  float_type t -> is_vector t v ->
  let d := datum_of (vb t) in
  (exists r, fsum tg t v = Ok r /\ 0 <= r < 2 ^ width t /\
     (t_arch tg <> Aarch64 -> folds (vb t) (ieee_add (vb t)) (Fin false 0) v (d r)) /\
     (t_arch tg = Aarch64 -> exists p l, v = p :: l /\ folds (vb t) (ieee_add (vb t)) (d p) l (d r))) /\
  (exists r, fproduct tg t v = Ok r /\ 0 <= r < 2 ^ width t /\
     (t_arch tg <> Aarch64 -> folds (vb t) (ieee_mul (vb t)) (Fin false 1) v (d r)) /\
     (t_arch tg = Aarch64 -> exists p l, v = p :: l /\ folds (vb t) (ieee_mul (vb t)) (d p) l (d r))).
Proof.
  intros T V d. pose proof (float_size t T) as F. pose proof (float_vt t T) as VT. pose proof T as (K & _).
  pose proof V as [Ln Fp].
  pose proof (lit_datum t 0 T eq_refl) as D0. pose proof (lit_datum t 1 T eq_refl) as D1.
  cbn [Z.ltb Z.compare] in D0, D1.
  pose proof (lit_pattern t 0 T) as P0. pose proof (lit_pattern t 1 T) as P1.
  pose proof (fun p q => add_pattern (vb t) F p q) as HA. pose proof (fun p q => mul_pattern (vb t) F p q) as HM.
  unfold fsum, fproduct, simd_reduce_add_ordered, simd_reduce_mul_ordered.
  assert (G : forall op R z dz, (forall p q, pattern (vb t) p -> pattern (vb t) q ->
       pattern (vb t) (op p q) /\ R (datum_of (vb t) p) (datum_of (vb t) q) (datum_of (vb t) (op p q))) ->
     pattern (vb t) z -> datum_of (vb t) z = dz ->
     exists r, (if on_aarch64 tg then reduce_loop t op v else Ok (fold_left op v z)) = Ok r /\
       0 <= r < 2 ^ width t /\ (t_arch tg <> Aarch64 -> folds (vb t) R dz v (d r)) /\
       (t_arch tg = Aarch64 -> exists p l, v = p :: l /\ folds (vb t) R (d p) l (d r))).
  { intros op R z dz H Pz Dz. destruct (on_aarch64 tg) eqn:OA.
    - assert (AA : t_arch tg = Aarch64) by (unfold on_aarch64 in OA; destruct (t_arch tg); congruence).
      destruct (reduce_loop_fold t op v VT V) as (p & l & E & ->). rewrite E in Fp.
      inversion Fp as [|? ? Pq Fl]; subst.
      destruct (fold_folds (vb t) op R H l p Pq Fl) as [A B].
      eexists. split; [reflexivity|]. split; [exact A|]. split; [contradiction|]. intros _. exists p, l. auto.
    - assert (AA : t_arch tg <> Aarch64) by (unfold on_aarch64 in OA; destruct (t_arch tg); congruence).
      destruct (fold_folds (vb t) op R H v z Pz Fp) as [A B]. rewrite Dz in B.
      eexists. split; [reflexivity|]. split; [exact A|]. split; [auto|contradiction]. }
  rewrite K in *. split; [apply (G (fl_add (vb t)) (ieee_add (vb t)))|apply (G (fl_mul (vb t)) (ieee_mul (vb t)))]; auto.
Qed.

(** A NaN lane makes the result NaN. *)
Lemma folds_nan b (R : datum -> datum -> datum -> Prop) :
  (forall d r, R NaN d r -> r = NaN) -> (forall d r, R d NaN r -> r = NaN) ->
  forall d l r, folds b R d l r -> d = NaN \/ Exists (fun p => datum_of b p = NaN) l -> r = NaN.
Proof.
  intros H1 H2 d l r G. induction G as [d|d p l e r E G IH]; intros [N|N]; auto.
  - inversion N.
  - apply IH. left. rewrite N in E. eauto.
  - apply IH. inversion N as [? ? Np|? ? Nl]; subst; [left|now right]. rewrite Np in E. eauto.
Qed.

Lemma add_nan b d r : (ieee_add b NaN d r -> r = NaN) /\ (ieee_add b d NaN r -> r = NaN).
Proof. split; destruct d; auto. Qed.
Lemma mul_nan b d r : (ieee_mul b NaN d r -> r = NaN) /\ (ieee_mul b d NaN r -> r = NaN).
Proof. split; destruct d; auto. Qed.

Theorem float_reductions_nan tg t v i p :
  float_type t -> is_vector t v -> lane v i p -> datum_of (vb t) p = NaN ->
  (exists r, fsum tg t v = Ok r /\ datum_of (vb t) r = NaN) /\
  (exists r, fproduct tg t v = Ok r /\ datum_of (vb t) r = NaN).
Proof.
  intros T V L N. destruct (float_reductions tg t v T V) as ((s & ES & _ & S1 & S2) & (m & EM & _ & M1 & M2)).
  assert (X : Exists (fun p => datum_of (vb t) p = NaN) v).
  { apply Exists_exists. exists p. split; auto. eapply nth_error_In; eauto. }
  assert (D : t_arch tg = Aarch64 \/ t_arch tg <> Aarch64) by (destruct (t_arch tg); auto; right; discriminate).
  split; [exists s; split; [exact ES|]|exists m; split; [exact EM|]].
  - destruct D as [D|D].
    + destruct (S2 D) as (q & l & -> & G).
      apply (folds_nan (vb t) _ (fun d r => proj1 (add_nan _ d r)) (fun d r => proj2 (add_nan _ d r)) _ _ _ G).
      inversion X; subst; auto.
    + apply (folds_nan (vb t) _ (fun d r => proj1 (add_nan _ d r)) (fun d r => proj2 (add_nan _ d r)) _ _ _ (S1 D)); auto.
  - destruct D as [D|D].
    + destruct (M2 D) as (q & l & -> & G).
      apply (folds_nan (vb t) _ (fun d r => proj1 (mul_nan _ d r)) (fun d r => proj2 (mul_nan _ d r)) _ _ _ G).
      inversion X; subst; auto.
    + apply (folds_nan (vb t) _ (fun d r => proj1 (mul_nan _ d r)) (fun d r => proj2 (mul_nan _ d r)) _ _ _ (M1 D)); auto.
Qed.

(** The fold from +0 and the fold from the first lane. *)
Lemma folds_zero b l : fsize b -> forall d d' r r', Forall (pattern b) l ->
  folds b (ieee_add b) d l r -> folds b (ieee_add b) d' l r' ->
  d = d' \/ (d = Fin false 0 /\ d' = Fin true 0) ->
  (r = r' /\ (d = d' \/ Exists (fun p => datum_of b p <> Fin true 0) l)) \/
  (r = Fin false 0 /\ r' = Fin true 0 /\ d = Fin false 0 /\ d' = Fin true 0 /\ Forall (fun p => datum_of b p = Fin true 0) l).
Proof.
  intros F. induction l as [|p l IH]; intros d d' r r' Fl G G' D; inversion G; inversion G'; subst.
  - destruct D as [->|[-> ->]]; [left; auto|right; auto].
  - inversion Fl as [|? ? Q Fl']; subst.
    match goal with A : ieee_add b d _ ?e, B : ieee_add b d' _ ?e' |- _ =>
      assert (D' : (e = e' /\ (d = d' \/ datum_of b p <> Fin true 0)) \/
                   (e = Fin false 0 /\ e' = Fin true 0 /\ datum_of b p = Fin true 0 /\ d = Fin false 0 /\ d' = Fin true 0));
        [|destruct D' as [[-> Y]|(-> & -> & DP & -> & ->)]] end.
    + destruct D as [->|[-> ->]].
      * left. split; [eapply (add_unique b); eauto|now left].
      * match goal with A : ieee_add b (Fin false 0) _ ?e, B : ieee_add b (Fin true 0) _ ?e' |- _ =>
          apply (zero_add b F) in A; [|exact Q]; apply (zero_add b F) in B; [|exact Q]; subst e e' end.
        destruct (datum_of b p) as [|s|s u]; try (left; split; [reflexivity|right; discriminate]).
        destruct (Req_bool_spec u 0) as [U0|NZ].
        -- rewrite U0. destruct s; [right; auto|left; split; [reflexivity|right; discriminate]].
        -- left. split; [reflexivity|right; congruence].
    + match goal with A : folds b _ _ l r, B : folds b _ _ l r' |- _ =>
        destruct (IH _ _ _ _ Fl' A B (or_introl eq_refl)) as [[E _]|(_ & _ & E1 & E2 & _)] end.
      * left. split; [exact E|]. destruct Y as [Y|Y]; [now left|right; now constructor].
      * rewrite E1 in E2. discriminate.
    + match goal with A : folds b _ _ l r, B : folds b _ _ l r' |- _ =>
        destruct (IH _ _ _ _ Fl' A B (or_intror (conj eq_refl eq_refl))) as [[E [Y|Y]]|(E1 & E2 & _ & _ & Z)] end.
      * discriminate.
      * left. split; [exact E|]. right. now constructor 2.
      * right. split; [exact E1|]. split; [exact E2|]. split; [reflexivity|]. split; [reflexivity|]. now constructor.
Qed.

Theorem float_sum_portable tg tg' t v :
  float_type t -> is_vector t v ->
  let d := datum_of (vb t) in
  exists r r', fsum tg t v = Ok r /\ fsum tg' t v = Ok r' /\
    ((exists i p, lane v i p /\ d p <> Fin true 0) -> d r = d r') /\
    ((forall i p, lane v i p -> d p = Fin true 0) ->
       d r = Fin (match t_arch tg with Aarch64 => true | _ => false end) 0).
Proof.
  intros T V d. pose proof (float_size t T) as F. pose proof V as [_ Fp].
  destruct (float_reductions tg t v T V) as ((s & ES & _ & S1 & S2) & _).
  destruct (float_reductions tg' t v T V) as ((s' & ES' & _ & S1' & S2') & _).
  exists s, s'. split; [exact ES|]. split; [exact ES'|].
  pose proof (fun a l r r' H H' => folds_unique (vb t) _ (add_unique (vb t)) a l r H r' H') as U.
  (* the two folds *)
  assert (K : forall r r' p l, v = p :: l -> folds (vb t) (ieee_add (vb t)) (Fin false 0) v (d r) ->
     folds (vb t) (ieee_add (vb t)) (d p) l (d r') ->
     ((exists i p, lane v i p /\ d p <> Fin true 0) -> d r = d r') /\
     ((forall i p, lane v i p -> d p = Fin true 0) -> d r = Fin false 0 /\ d r' = Fin true 0)).
  { intros r r' p l E G G'. rewrite E in Fp, G. inversion Fp as [|? ? Q Fl]; subst. inversion G; subst.
    match goal with A : ieee_add _ (Fin false 0) _ ?e |- _ => apply (zero_add _ F) in A; [|exact Q] end.
    assert (D : e = d p \/ (e = Fin false 0 /\ d p = Fin true 0)).
    { subst e. fold (d p). destruct (d p) as [|s0|s0 u] eqn:DP; auto. destruct (Req_bool_spec u 0) as [->|]; auto.
      destruct s0; auto. }
    match goal with A : folds _ _ e l _ |- _ => destruct (folds_zero (vb t) l F e (d p) _ _ Fl A G' D) as [[R Y]|(R1 & R2 & E1 & E2 & Z)] end.
    - split; [auto|]. intros H. exfalso. destruct Y as [Y|Y].
      + specialize (H 0%nat p eq_refl). rewrite H in Y. fold (d p) in *. rewrite H in *. subst e.
        cbn in Y. rewrite Req_bool_true in Y by reflexivity. discriminate.
      + apply Exists_exists in Y as (q & I & N). apply In_nth_error in I as [i I]. apply N. exact (H (S i) q I).
    - split; [|auto]. intros (i & q & L & N). destruct N. destruct i as [|i].
      + injection L as <-. exact E2.
      + rewrite Forall_forall in Z. apply Z. eapply nth_error_In; eauto. }
  assert (Dd : forall a, a = Aarch64 \/ a <> Aarch64) by (intros []; auto; right; discriminate).
  destruct (Dd (t_arch tg)) as [D|D], (Dd (t_arch tg')) as [D'|D'].
  - destruct (S2 D) as (p & l & E & G), (S2' D') as (p' & l' & E' & G'). rewrite E in E'. injection E' as <- <-.
    split; [intros _; eapply U; eauto|]. rewrite D. intros H.
    destruct (float_reductions x86_64_base t v T V) as ((s0 & _ & _ & Z1 & _) & _).
    specialize (Z1 ltac:(discriminate)). now destruct (K s0 s p l E Z1 G) as [_ KK]; apply KK.
  - destruct (S2 D) as (p & l & E & G). rewrite D. destruct (K s' s p l E (S1' D') G) as [K1 K2]. split.
    + intros H. symmetry. auto.
    + intros H. now apply K2.
  - destruct (S2' D') as (p & l & E & G). destruct (K s s' p l E (S1 D) G) as [K1 K2]. split; [auto|].
    intros H. destruct (K2 H) as [-> _]. destruct (t_arch tg); congruence.
  - split; [intros _; eapply U; eauto|]. intros H.
    destruct (float_reductions aarch64_neon t v T V) as ((s0 & _ & _ & _ & Z2) & _).
    destruct (Z2 eq_refl) as (p & l & E & G). destruct (K s s0 p l E (S1 D) G) as [_ K2].
    destruct (K2 H) as [-> _]. destruct (t_arch tg); congruence.
Qed.

Theorem float_product_portable tg tg' t v :
  float_type t -> is_vector t v ->
  exists r r', fproduct tg t v = Ok r /\ fproduct tg' t v = Ok r' /\
    datum_of (vb t) r = datum_of (vb t) r'.
Proof.
  intros T V. pose proof (float_size t T) as F. pose proof V as [_ Fp].
  destruct (float_reductions tg t v T V) as (_ & (s & ES & _ & S1 & S2)).
  destruct (float_reductions tg' t v T V) as (_ & (s' & ES' & _ & S1' & S2')).
  exists s, s'. split; [exact ES|]. split; [exact ES'|].
  pose proof (fun a l r r' H H' => folds_unique (vb t) _ (mul_unique (vb t)) a l r H r' H') as U.
  assert (K : forall r p l, v = p :: l -> folds (vb t) (ieee_mul (vb t)) (Fin false 1) v r ->
     folds (vb t) (ieee_mul (vb t)) (datum_of (vb t) p) l r).
  { intros r p l E G. rewrite E in Fp, G. inversion Fp as [|? ? Q Fl]; subst. inversion G; subst.
    match goal with A : ieee_mul _ (Fin false 1) _ ?e |- _ => apply (one_mul _ F) in A; [|exact Q]; subst e end.
    assumption. }
  assert (Dd : forall a, a = Aarch64 \/ a <> Aarch64) by (intros []; auto; right; discriminate).
  destruct (Dd (t_arch tg)) as [D|D], (Dd (t_arch tg')) as [D'|D'].
  - destruct (S2 D) as (p & l & E & G), (S2' D') as (p' & l' & E' & G'). rewrite E in E'. injection E' as <- <-.
    exact (U _ _ _ _ G G').
  - destruct (S2 D) as (p & l & E & G). exact (U _ _ _ _ G (K _ p l E (S1' D'))).
  - destruct (S2' D') as (p & l & E & G). exact (U _ _ _ _ (K _ p l E (S1 D)) G).
  - exact (U _ _ _ _ (S1 D) (S1' D')).
Qed.

(** Iterator sums and products of float vectors. *)
Theorem float_iter_reductions t vs :
  float_type t -> Forall (is_vector t) vs ->
  let d := datum_of (vb t) in
  is_vector t (iter_sum t vs) /\ is_vector t (iter_product t vs) /\
  forall i ps, (i < vn t)%nat -> Forall2 (fun v p => lane v i p) vs ps ->
    (exists c, lane (iter_sum t vs) i c /\ folds (vb t) (ieee_add (vb t)) (Fin false 0) ps (d c)) /\
    (exists c, lane (iter_product t vs) i c /\ folds (vb t) (ieee_mul (vb t)) (Fin false 1) ps (d c)).
Proof.
  intros T Vs d. pose proof (lit_datum t 0 T eq_refl) as D0. pose proof (lit_datum t 1 T eq_refl) as D1.
  cbn [Z.ltb Z.compare] in D0, D1.
  assert (G : forall (op : vec -> vec -> vec) R,
    (forall x y, is_vector t x -> is_vector t y -> lanewise2 t x y (op x y) (fun a b c => R (d a) (d b) (d c))) ->
    forall vs a, Forall (is_vector t) vs -> is_vector t a -> is_vector t (fold_left op vs a) /\
      forall i p ps, lane a i p -> Forall2 (fun v p => lane v i p) vs ps ->
        exists c, lane (fold_left op vs a) i c /\ folds (vb t) R (d p) ps (d c)).
  { intros op R H. clear vs Vs. induction vs as [|v vs IH]; intros a Vs A; cbn [fold_left].
    - split; [exact A|]. intros i p ps L F2. inversion F2; subst. exists p. split; [exact L|constructor].
    - inversion Vs as [|? ? Vv Vs']; subst. destruct (H a v A Vv) as [VA LA].
      destruct (IH (op a v) Vs' VA) as [VR LR]. split; [exact VR|]. intros i p ps L F2.
      inversion F2 as [|? q ? ps' Lq F2']; subst. destruct (LA i p q L Lq) as (e & Le & Re).
      destruct (LR i e ps' Le F2') as (c & Lc & Gc). exists c. split; [exact Lc|]. econstructor; eauto. }
  destruct (G (add t) (ieee_add (vb t)) (fun x y X Y => proj1 (float_arithmetic t x y T X Y)) vs _ Vs
              (splat_vector t _ (lit_pattern t 0 T))) as [VS LS].
  destruct (G (mul t) (ieee_mul (vb t)) (fun x y X Y => proj1 (proj2 (proj2 (float_arithmetic t x y T X Y)))) vs _ Vs
              (splat_vector t _ (lit_pattern t 1 T))) as [VM LM].
  split; [exact VS|]. split; [exact VM|]. intros i ps I F2. split.
  - destruct (LS i _ ps (splat_lane t i _ I) F2) as (c & L & H). exists c. split; [exact L|].
    unfold d in H at 1. rewrite D0 in H. exact H.
  - destruct (LM i _ ps (splat_lane t i _ I) F2) as (c & L & H). exists c. split; [exact L|].
    unfold d in H at 1. rewrite D1 in H. exact H.
Qed.

(** The documented tree order does not hold. *)
Theorem float_sum_tree_order_refuted :
  exists x0 x1 x2 x3 x4 x5 x6 x7 r,
    is_vector f32x8 [x0; x1; x2; x3; x4; x5; x6; x7] /\
    fsum x86_64_avx2 f32x8 [x0; x1; x2; x3; x4; x5; x6; x7] = Ok r /\
    ~ exists s01 s23 s45 s67 s03 s47,
        let d := datum_of 4 in
        ieee_add 4 (d x0) (d x1) s01 /\ ieee_add 4 (d x2) (d x3) s23 /\
        ieee_add 4 (d x4) (d x5) s45 /\ ieee_add 4 (d x6) (d x7) s67 /\
        ieee_add 4 s01 s23 s03 /\ ieee_add 4 s45 s67 s47 /\
        ieee_add 4 s03 s47 (d r).
Proof.
  set (big := 0x4cbebc20). set (one := 0x3f800000).
  (* 1e8, 1, -1e8, 1, 0, 0, 0, 0 *)
  set (nbig := 0xccbebc20).
  exists big, one, nbig, one, 0, 0, 0, 0. eexists. split; [|split].
  - split; [reflexivity|]. repeat (constructor; [split; [discriminate|reflexivity]|]). constructor.
  - vm_compute. reflexivity.
  - intros (s01 & s23 & s45 & s67 & s03 & s47 & H1 & H2 & H3 & H4 & H5 & H6 & H7).
    assert (F : fsize 4) by now left.
    assert (Pb : pattern 4 big) by (split; [discriminate|reflexivity]).
    assert (Po : pattern 4 one) by (split; [discriminate|reflexivity]).
    assert (Pn : pattern 4 nbig) by (split; [discriminate|reflexivity]).
    assert (Pz : pattern 4 0) by (split; [discriminate|reflexivity]).
    destruct (add_pattern 4 F big one Pb Po) as [Q1 A1]. rewrite (add_unique 4 _ _ _ _ H1 A1) in H5.
    destruct (add_pattern 4 F nbig one Pn Po) as [Q2 A2]. rewrite (add_unique 4 _ _ _ _ H2 A2) in H5.
    destruct (add_pattern 4 F 0 0 Pz Pz) as [Q3 A3]. rewrite (add_unique 4 _ _ _ _ H3 A3), (add_unique 4 _ _ _ _ H4 A3) in H6.
    destruct (add_pattern 4 F _ _ Q1 Q2) as [Q5 A5]. rewrite (add_unique 4 _ _ _ _ H5 A5) in H7.
    destruct (add_pattern 4 F _ _ Q3 Q3) as [Q6 A6]. rewrite (add_unique 4 _ _ _ _ H6 A6) in H7.
    destruct (add_pattern 4 F _ _ Q5 Q6) as [Q7 A7]. pose proof (add_unique 4 _ _ _ _ H7 A7) as E.
    match type of E with datum_of 4 ?r = _ => set (r0 := r) in E end.
    assert (Pr : pattern 4 r0) by (split; [discriminate|reflexivity]).
    assert (Nn : datum_of 4 r0 <> NaN).
    { intros N. apply (nan_decode 4 F r0 Pr) in N. vm_compute in N. discriminate. }
    pose proof (datum_inj 4 _ _ F Pr Q7 E Nn) as X. vm_compute in X. discriminate.
Qed.
