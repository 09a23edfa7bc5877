(** Float vectors, lane by lane: C44 - C49 and the float part of C33. *)
From Coq Require Import ZArith List Bool Lia Reals Lra.
From Coq.Floats Require Import SpecFloat.
From Flocq Require Import Core BinarySingleNaN.
From Verif.Model Require Import Base FloatLane Llvm Tables Minimal MaskReduce Ops Cmp Cast Reduce Float.
From Verif.Spec Require Import Spec Floats.
From Verif.Proofs Require Import Lib MinimalP OpsP OpsP2 MaskReduceP CmpP ReduceP CastP FloatP FloatOpsP FloatVecP.
Import ListNotations.
Open Scope Z_scope.

(** ** C44: arithmetic *)

Theorem float_arithmetic t x y :
  float_type t -> is_vector t x -> is_vector t y ->
  let d := datum_of (vb t) in
  lanewise2 t x y (add t x y) (fun a b c => ieee_add (vb t) (d a) (d b) (d c)) /\
  lanewise2 t x y (sub t x y) (fun a b c => ieee_sub (vb t) (d a) (d b) (d c)) /\
  lanewise2 t x y (mul t x y) (fun a b c => ieee_mul (vb t) (d a) (d b) (d c)) /\
  (exists r, div t x y = Ok r /\
     lanewise2 t x y r (fun a b c => ieee_div (vb t) (d a) (d b) (d c))) /\
  (exists r, rem t x y = Ok r /\
     lanewise2 t x y r (fun a b c => ieee_rem (d a) (d b) (d c))).
Proof.
  intros T X Y d. pose proof (float_size t T) as F. destruct T as (K & _ & _).
  unfold add, sub, mul, div, rem, simd_add, simd_sub, simd_mul, simd_div, simd_rem.
  rewrite K. cbn [lane_add lane_sub lane_mul lane_div lane_rem].
  split; [|split; [|split; [|split]]].
  - apply (lanewise2_map2 t t); auto. intros a b P Q. exact (add_pattern (vb t) F a b P Q).
  - apply (lanewise2_map2 t t); auto. intros a b P Q. exact (sub_pattern (vb t) F a b P Q).
  - apply (lanewise2_map2 t t); auto. intros a b P Q. exact (mul_pattern (vb t) F a b P Q).
  - destruct (all_ok_map2_ok t (lane_div KFloat (vb t)) x y X Y) as [r E]; [discriminate|].
    exists r. split; auto. apply (lanewise2_all_ok t t _ x y r _ X Y eq_refl E).
    intros a b c P Q [= <-]. exact (div_pattern (vb t) F a b P Q).
  - destruct (all_ok_map2_ok t (lane_rem KFloat (vb t)) x y X Y) as [r E]; [discriminate|].
    exists r. split; auto. apply (lanewise2_all_ok t t _ x y r _ X Y eq_refl E).
    intros a b c P Q [= <-]. exact (rem_pattern (vb t) F a b P Q).
Qed.

(** With a scalar operand. *)
Theorem float_scalar_arithmetic t x s :
  float_type t -> is_vector t x -> 0 <= s < 2 ^ width t ->
  let d := datum_of (vb t) in
  lanewise1 t x (add_vs t x s) (fun a c => ieee_add (vb t) (d a) (d s) (d c)) /\
  lanewise1 t x (add_sv t s x) (fun a c => ieee_add (vb t) (d s) (d a) (d c)) /\
  lanewise1 t x (sub_vs t x s) (fun a c => ieee_sub (vb t) (d a) (d s) (d c)) /\
  lanewise1 t x (sub_sv t s x) (fun a c => ieee_sub (vb t) (d s) (d a) (d c)) /\
  lanewise1 t x (mul_vs t x s) (fun a c => ieee_mul (vb t) (d a) (d s) (d c)) /\
  lanewise1 t x (mul_sv t s x) (fun a c => ieee_mul (vb t) (d s) (d a) (d c)) /\
  (exists r, div_vs t x s = Ok r /\ lanewise1 t x r (fun a c => ieee_div (vb t) (d a) (d s) (d c))) /\
  (exists r, div_sv t s x = Ok r /\ lanewise1 t x r (fun a c => ieee_div (vb t) (d s) (d a) (d c))) /\
  (exists r, rem_vs t x s = Ok r /\ lanewise1 t x r (fun a c => ieee_rem (d a) (d s) (d c))) /\
  (exists r, rem_sv t s x = Ok r /\ lanewise1 t x r (fun a c => ieee_rem (d s) (d a) (d c))).
Proof.
  intros T X S d. pose proof (splat_vector t s S) as V.
  destruct (float_arithmetic t x (splat t s) T X V) as (A1 & A2 & A3 & (q & E4 & A4) & (m & E5 & A5)).
  destruct (float_arithmetic t (splat t s) x T V X) as (B1 & B2 & B3 & (q' & F4 & B4) & (m' & F5 & B5)).
  split; [exact (lanewise_vs t t x s _ _ X A1)|]. split; [exact (lanewise_sv t t x s _ _ X B1)|].
  split; [exact (lanewise_vs t t x s _ _ X A2)|]. split; [exact (lanewise_sv t t x s _ _ X B2)|].
  split; [exact (lanewise_vs t t x s _ _ X A3)|]. split; [exact (lanewise_sv t t x s _ _ X B3)|].
  split; [exists q; split; [exact E4|exact (lanewise_vs t t x s _ _ X A4)]|].
  split; [exists q'; split; [exact F4|exact (lanewise_sv t t x s _ _ X B4)]|].
  split; [exists m; split; [exact E5|exact (lanewise_vs t t x s _ _ X A5)]|].
  exists m'; split; [exact F5|exact (lanewise_sv t t x s _ _ X B5)].
Qed.

(** ** C44: comparisons *)

Lemma cmp_ok t x y (rel : kind -> nat -> Z -> Z -> bool) (R : datum -> datum -> Prop) :
  float_type t -> is_vector t x -> is_vector t y ->
  (forall a b, pattern (vb t) a -> pattern (vb t) b ->
     (rel KFloat (vb t) a b = true <-> R (datum_of (vb t) a) (datum_of (vb t) b))) ->
  canonical (mask_of t) (simd_cmp rel KFloat (vb t) (vb t) x y) /\
  forall i a b, lane x i a -> lane y i b ->
    exists c, lane (simd_cmp rel KFloat (vb t) (vb t) x y) i (mask_lane (mask_of t) c) /\
      (c = true <-> R (datum_of (vb t) a) (datum_of (vb t) b)).
Proof.
  intros T X Y H. split.
  - unfold simd_cmp. rewrite <- (map_map2 (mlane (vb t)) (rel KFloat (vb t))).
    apply (canonical_mlanes (mask_of t)). apply map2_length_eq; [apply X|apply Y].
  - intros i a b A B. exists (rel KFloat (vb t) a b). split.
    + rewrite <- mlane_mask_lane. unfold simd_cmp.
      exact (nth_error_map2 (fun p q => mlane (vb t) (rel KFloat (vb t) p q)) _ _ _ _ _ A B).
    + apply H; [exact (is_vector_lane t x i a X A)|exact (is_vector_lane t y i b Y B)].
Qed.

Theorem float_comparisons t x y :
  float_type t -> is_vector t x -> is_vector t y ->
  let ok (m : vec) (R : datum -> datum -> Prop) :=
    canonical (mask_of t) m /\
    forall i a b, lane x i a -> lane y i b ->
      exists c, lane m i (mask_lane (mask_of t) c) /\
        (c = true <-> R (datum_of (vb t) a) (datum_of (vb t) b)) in
  ok (veq t x y) ieee_eq /\ ok (vne t x y) (fun a b => ~ ieee_eq a b) /\
  ok (vlt t x y) ieee_lt /\ ok (vle t x y) ieee_le /\
  ok (vgt t x y) (fun a b => ieee_lt b a) /\ ok (vge t x y) (fun a b => ieee_le b a).
Proof.
  intros T X Y ok. pose proof (float_size t T) as F. pose proof T as (K & _ & _).
  unfold veq, vne, vlt, vle, vgt, vge, is_mask, simd_eq, simd_ne, simd_lt, simd_le, simd_gt, simd_ge.
  rewrite K. cbn [kind_eqb].
  split; [|split; [|split; [|split; [|split]]]].
  - apply (cmp_ok t x y lane_eq ieee_eq); auto. intros. now apply fl_eq_iff.
  - apply (cmp_ok t x y lane_ne (fun a b => ~ ieee_eq a b)); auto. intros. now apply fl_ne_iff.
  - apply (cmp_ok t x y lane_lt ieee_lt); auto. intros. now apply fl_lt_iff.
  - apply (cmp_ok t x y lane_le ieee_le); auto. intros. now apply fl_le_iff.
  - apply (cmp_ok t x y lane_gt (fun a b => ieee_lt b a)); auto. intros. now apply fl_gt_iff.
  - apply (cmp_ok t x y lane_ge (fun a b => ieee_le b a)); auto. intros. now apply fl_ge_iff.
Qed.

(** ** C44: == and != *)

Lemma is_vector_ex_lane t x y i p m :
  is_vector t x -> is_vector t y -> canonical (mask_of t) m -> lane m i p ->
  exists a b, lane x i a /\ lane y i b.
Proof.
  intros [X _] [Y _] [M _] L. unfold lane in *.
  assert (H : (i < vn t)%nat).
  { change (vn t) with (vn (mask_of t)). rewrite <- M. apply nth_error_Some. congruence. }
  destruct (nth_error x i) as [a|] eqn:A; [|apply nth_error_None in A; lia].
  destruct (nth_error y i) as [b|] eqn:B; [|apply nth_error_None in B; lia].
  eauto.
Qed.

Lemma not_all_lanes m : ~ (forall i p, lane m i p -> truth p = true) ->
  exists i p, lane m i p /\ truth p <> true.
Proof.
  intros H. destruct (all_true (map truth m)) eqn:E.
  - destruct H. now apply all_true_iff.
  - unfold all_true in E.
    assert (X : existsb (fun p => negb (truth p)) m = true).
    { clear H. induction m as [|q m IH]; [discriminate|]. cbn [map forallb existsb] in *.
      destruct (truth q); cbn [negb andb orb] in *; auto. }
    apply existsb_exists in X as (p & I & N). apply In_nth_error in I as [i I].
    exists i, p. split; [exact I|]. now destruct (truth p).
Qed.

Theorem float_equality tg t x y :
  float_type t -> crate_shape t -> is_vector t x -> is_vector t y ->
  exists r, op_eq tg t x y = Ok r /\ op_ne tg t x y = Ok (negb r) /\
    (r = true <-> forall i a b, lane x i a -> lane y i b ->
                    ieee_eq (datum_of (vb t) a) (datum_of (vb t) b)).
Proof.
  intros T S X Y. destruct (float_comparisons t x y T X Y) as ((CE & LE) & (CN & LN) & _).
  unfold op_eq, op_ne.
  destruct (all_canonical_masks tg (mask_of t) (veq t x y) S CE) as [-> _].
  destruct (all_canonical_masks tg (mask_of t) (vne t x y) S CN) as [_ ->].
  assert (Hb : (0 < vb t)%nat) by (apply (float_vt t T)).
  eexists. split; [reflexivity|].
  assert (A : all_true (map truth (veq t x y)) = true <->
    forall i a b, lane x i a -> lane y i b -> ieee_eq (datum_of (vb t) a) (datum_of (vb t) b)).
  { rewrite all_true_iff. split.
    - intros H i a b A B. destruct (LE i a b A B) as (c & L & E). apply E. specialize (H i _ L).
      rewrite <- mlane_mask_lane, truth_mlane in H; auto.
    - intros H i p L. destruct (is_vector_ex_lane t x y i p (veq t x y) X Y CE L) as (a & b & A & B).
      destruct (LE i a b A B) as (c & L' & E). unfold lane in L, L'. rewrite L in L'. injection L' as ->.
      rewrite <- mlane_mask_lane, truth_mlane by auto. apply E. eauto. }
  split; [|exact A]. f_equal.
  destruct (all_true (map truth (veq t x y))) eqn:E1.
  - cbn [negb]. apply not_true_iff_false. rewrite any_true_iff. intros (i & p & L & H).
    destruct (is_vector_ex_lane t x y i p (vne t x y) X Y CN L) as (a & b & LA & LB).
    destruct (LN i a b LA LB) as (c & L' & E). unfold lane in L, L'. rewrite L in L'. injection L' as ->.
    rewrite <- mlane_mask_lane, truth_mlane in H by auto. apply E in H. apply H. now apply (proj1 A eq_refl i).
  - cbn [negb]. apply any_true_iff. assert (E2 : ~ all_true (map truth (veq t x y)) = true) by congruence.
    rewrite all_true_iff in E2. clear E1. apply not_all_lanes in E2 as (i & p & L & H).
    destruct (is_vector_ex_lane t x y i p (veq t x y) X Y CE L) as (a & b & LA & LB).
    destruct (LE i a b LA LB) as (c & L' & E). unfold lane in L, L'. rewrite L in L'. injection L' as ->.
    rewrite <- mlane_mask_lane, truth_mlane in H by auto.
    destruct (LN i a b LA LB) as (c' & L2 & E'). exists i, (mask_lane (mask_of t) c'). split; auto.
    rewrite <- mlane_mask_lane, truth_mlane by auto. apply E'. rewrite <- E. congruence.
Qed.

Theorem float_self_equality tg t x :
  float_type t -> crate_shape t -> is_vector t x ->
  (op_eq tg t x x = Ok true <-> forall i a, lane x i a -> datum_of (vb t) a <> NaN) /\
  (op_ne tg t x x = Ok true <-> exists i a, lane x i a /\ datum_of (vb t) a = NaN).
Proof.
  intros T S X. destruct (float_equality tg t x x T S X X) as (r & -> & -> & H).
  assert (A : r = true <-> forall i a, lane x i a -> datum_of (vb t) a <> NaN).
  { rewrite H. split.
    - intros G i a L N. specialize (G i a a L L). now rewrite N in G.
    - intros G i a a' L L'. unfold lane in *. rewrite L in L'. injection L' as <-. specialize (G i a L).
      destruct (datum_of (vb t) a); cbn; congruence. }
  split.
  - rewrite <- A. split; [intros E; now injection E|now intros ->].
  - split.
    + intros E. injection E as E. destruct r; [discriminate|]. clear E.
      destruct (Exists_dec (fun a => datum_of (vb t) a = NaN) x) as [D|D].
      { intros a. destruct (datum_of (vb t) a); [now left|right|right]; discriminate. }
      * apply Exists_exists in D as (a & I & N). apply In_nth_error in I as [i I]. eauto.
      * assert (C : false = true); [|discriminate]. apply A. intros i a L N. apply D, Exists_exists.
        exists a. split; auto. eapply nth_error_In; eauto.
    + intros (i & a & L & N). destruct r; [|reflexivity]. destruct (proj1 A eq_refl i a L N).
Qed.

(** ** Square roots and estimates *)

Theorem float_sqrt_lanes t x :
  float_type t -> is_vector t x ->
  let d := datum_of (vb t) in
  lanewise1 t x (simd_fsqrt (vb t) x) (fun a c => ieee_sqrt (vb t) (d a) (d c)).
Proof.
  intros T X d. pose proof (float_size t T) as F. apply (lanewise1_map t t); auto.
  intros a P. exact (sqrt_pattern (vb t) F a P).
Qed.

Lemma lit_float t z : float_type t -> lit (vkind t) (vb t) z = fl_of_int (vb t) z.
Proof. intros (-> & _). reflexivity. Qed.
Lemma lit_pattern t z : float_type t -> pattern (vb t) (lit (vkind t) (vb t) z).
Proof. intros T. rewrite lit_float by auto. now apply of_int_datum, float_size. Qed.
Lemma lit_datum t z : float_type t -> Z.abs z < 2 ^ 24 ->
  datum_of (vb t) (lit (vkind t) (vb t) z) = Fin (z <? 0) (IZR z).
Proof.
  intros T Hz. rewrite lit_float by auto. apply of_small_int; [now apply float_size|].
  eapply Z.lt_le_trans; [exact Hz|]. destruct (float_size t T) as [-> | ->]; discriminate.
Qed.

Lemma pattern_width b p : pattern b p -> 0 <= p < 2 ^ (8 * Z.of_nat b).
Proof. intros P. exact P. Qed.

Theorem float_estimates t x :
  float_type t -> is_vector t x ->
  let d := datum_of (vb t) in
  (exists r, recpre t x = Ok r /\ lanewise1 t x r (fun a c => ieee_div (vb t) (Fin false 1) (d a) (d c))) /\
  (exists r, rsqrte t x = Ok r /\ lanewise1 t x r (fun a c =>
     exists q, ieee_sqrt (vb t) (d a) q /\ ieee_div (vb t) (Fin false 1) q (d c))).
Proof.
  intros T X d. unfold recpre, rsqrte. pose proof (lit_pattern t 1 T) as P1.
  pose proof (lit_datum t 1 T eq_refl) as D1. cbn [Z.ltb Z.compare] in D1.
  destruct (float_sqrt_lanes t x T X) as [V L]. split.
  - destruct (float_scalar_arithmetic t x _ T X P1) as (_ & _ & _ & _ & _ & _ & _ & (r & E & R) & _).
    exists r. split; [exact E|]. rewrite D1 in R. exact R.
  - destruct (float_scalar_arithmetic t _ _ T V P1) as (_ & _ & _ & _ & _ & _ & _ & (r & E & R & LR) & _).
    exists r. split; [exact E|]. split; [exact R|]. intros i a A. destruct (L i a A) as (q & Q & S).
    destruct (LR i q Q) as (c & C & D). exists c. split; auto. exists (d q). rewrite D1 in D. auto.
Qed.

(** ** C45 *)

Theorem float_negation t x :
  float_type t -> is_vector t x ->
  lanewise1 t x (neg t x) (fun a c => datum_of (vb t) c = negated (datum_of (vb t) a)).
Proof.
  intros T X. pose proof (float_size t T) as F. pose proof (lit_pattern t (-1) T) as P1.
  pose proof (lit_datum t (-1) T eq_refl) as D1. cbn [Z.ltb Z.compare] in D1.
  destruct (float_scalar_arithmetic t x _ T X P1) as (_ & _ & _ & _ & _ & (V & L) & _).
  split; [exact V|]. intros i a A. destruct (L i a A) as (c & C & H). exists c. split; [exact C|].
  rewrite D1 in H. cbv beta in H. exact (minus_one_mul (vb t) F _ _ a (is_vector_lane t x i a X A) eq_refl H).
Qed.

Lemma negated_involutive d : negated (negated d) = d.
Proof. destruct d; cbn [negated]; rewrite ?negb_involutive, ?Ropp_involutive; reflexivity. Qed.

Theorem float_double_negation t x :
  float_type t -> is_vector t x -> (forall i a, lane x i a -> datum_of (vb t) a <> NaN) ->
  neg t (neg t x) = x.
Proof.
  intros T X N. destruct (float_negation t x T X) as [V L].
  destruct (float_negation t (neg t x) T V) as [V2 L2].
  assert (F := float_size t T).
  apply nth_error_ext; [rewrite (proj1 V2), (proj1 X); reflexivity|].
  intros i c' a C' A. destruct (L i a A) as (c & C & E). destruct (L2 i c C) as (c2 & C2 & E').
  unfold lane in C2. rewrite C' in C2. injection C2 as <-. rewrite E, negated_involutive in E'.
  apply (datum_inj (vb t)); auto.
  - exact (is_vector_lane t _ i c' V2 C').
  - exact (is_vector_lane t _ i a X A).
  - rewrite E'. now apply (N i).
Qed.

(** On the bits: exactly the sign bit of a lane changes. *)
Lemma sign_flip b p : fsize b -> pattern b p ->
  let s := 2 ^ (8 * Z.of_nat b - 1) in
  let q := if sign_field b p then p - s else p + s in
  pattern b q /\ datum_of b q = negated (datum_of b p).
Proof.
  intros F P s q.
  assert (B : exists h, s = h * 2 ^ exp_width b * 2 ^ sig_width b /\ 0 <= q < 2 * s /\ 
             sign_field b q = negb (sign_field b p)).
  { exists 1. unfold q, sign_field. fold s.
    assert (S : 0 < s /\ s = 1 * 2 ^ exp_width b * 2 ^ sig_width b /\ 0 <= p < 2 * s).
    { unfold s. destruct F as [-> | ->]; (split; [reflexivity|]; split; [reflexivity|]; exact P). }
    destruct S as (S0 & S1 & S2). split; [exact S1|]. clearbody s. clear - S0 S2.
    destruct (Z.leb_spec s p); (split; [lia|]); cbn [negb]; [apply Z.leb_gt|apply Z.leb_le]; lia. }
  destruct B as (h & S & Q & SG).
  assert (PQ : pattern b q).
  { unfold s in Q. destruct F as [-> | ->]; exact Q. }
  assert (M : sig_field b q = sig_field b p /\ exp_field b q = exp_field b p).
  { unfold sig_field, exp_field, q. clear - S F.
    assert (H1 : 0 < 2 ^ sig_width b) by (destruct F as [-> | ->]; reflexivity).
    assert (H2 : 0 < 2 ^ exp_width b) by (destruct F as [-> | ->]; reflexivity).
    assert (G : forall k, (p + k * s) mod 2 ^ sig_width b = p mod 2 ^ sig_width b /\
              ((p + k * s) / 2 ^ sig_width b) mod 2 ^ exp_width b = (p / 2 ^ sig_width b) mod 2 ^ exp_width b).
    { intros k. rewrite S. replace (p + k * (h * 2 ^ exp_width b * 2 ^ sig_width b))
        with (p + (k * h * 2 ^ exp_width b) * 2 ^ sig_width b) by ring.
      rewrite Z_mod_plus_full, Z_div_plus_full, Z_mod_plus_full by (intro E; rewrite E in H1; discriminate). auto. }
    destruct (sign_field b p).
    - specialize (G (-1)). replace (p - s) with (p + -1 * s) by ring. exact G.
    - specialize (G 1). replace (p + s) with (p + 1 * s) by ring. exact G. }
  split; [exact PQ|]. destruct M as [M1 M2]. unfold datum_of, magnitude. rewrite M1, M2, SG.
  destruct (exp_field b p =? _); [destruct (sig_field b p =? 0); reflexivity|].
  cbn [negated]. f_equal. destruct (sign_field b p); cbn [negb]; lra.
Qed.

Theorem float_negation_bits t x :
  float_type t -> is_vector t x ->
  lanewise1 t x (neg t x) (fun a c => datum_of (vb t) a <> NaN ->
    c = if sign_field (vb t) a then a - 2 ^ (width t - 1) else a + 2 ^ (width t - 1)).
Proof.
  intros T X. pose proof (float_size t T) as F. destruct (float_negation t x T X) as [V L].
  split; [exact V|]. intros i a A. destruct (L i a A) as (c & C & H). exists c. split; [exact C|]. intros N.
  destruct (sign_flip (vb t) a F (is_vector_lane t x i a X A)) as [P D].
  change (width t) with (8 * Z.of_nat (vb t)). apply (datum_inj (vb t)); auto.
  - exact (is_vector_lane t _ i c V C).
  - now rewrite D.
  - rewrite H. destruct (datum_of (vb t) a); cbn [negated]; congruence.
Qed.
