(** Bit counting (C27). *)
From Coq Require Import ZArith List Bool Lia ZifyBool ZifyNat Arith.
From Verif.Model Require Import Base FloatLane Llvm Tables Minimal Ops Cast BitManip.
From Verif.Spec Require Import Spec Horizontal.
From Verif.Proofs Require Import Lib MinimalP OpsP OpsP2 RotateP.
Import ListNotations.
Open Scope Z_scope.

(** ** Counting *)

Lemma filter_map_S (f : nat -> bool) l :
  length (filter f (map S l)) = length (filter (fun i => f (S i)) l).
Proof. induction l as [|a l IH]; cbn; auto. destruct (f (S a)); cbn; auto. Qed.

Lemma one_bits_S w p :
  one_bits (S w) p = Z.b2z (Z.testbit p 0) + one_bits w (p / 2).
Proof.
  unfold one_bits. cbn [seq filter]. rewrite <- seq_shift.
  assert (E : length (filter (fun j => Z.testbit p (Z.of_nat j)) (map S (seq 0 w)))
            = length (filter (fun j => Z.testbit (p / 2) (Z.of_nat j)) (seq 0 w))).
  { rewrite filter_map_S. f_equal. apply filter_ext. intros i.
    rewrite Nat2Z.inj_succ, <- Z.div2_div. rewrite Z.div2_spec, Z.shiftr_spec by lia. reflexivity. }
  change (Z.of_nat 0) with 0. destruct (Z.testbit p 0); cbn [length Z.b2z]; rewrite E; lia.
Qed.

Lemma one_bits_0 w : one_bits w 0 = 0.
Proof.
  unfold one_bits. induction (seq 0 w) as [|a l IH]; cbn [filter]; auto.
  now rewrite Z.bits_0.
Qed.

Lemma ctpop_one_bits w p : 0 <= p < 2 ^ Z.of_nat w -> lane_ctpop p = one_bits w p.
Proof.
  intros [H0 H1]. destruct p as [|q|q]; [symmetry; apply one_bits_0| |lia].
  clear H0. cbn [lane_ctpop]. revert q H1.
  induction w as [|w IH]; intros q H1.
  - cbn in H1. lia.
  - rewrite one_bits_S. rewrite Nat2Z.inj_succ, Z.pow_succ_r in H1 by lia.
    destruct q as [q|q|].
    + cbn [pop_count]. change (Z.testbit (Z.pos q~1) 0) with true.
      replace (Z.pos q~1 / 2) with (Z.pos q) by (rewrite (Pos2Z.inj_xI q); clear; lia).
      rewrite <- IH by (rewrite (Pos2Z.inj_xI q) in H1; clear - H1; lia). reflexivity.
    + cbn [pop_count]. change (Z.testbit (Z.pos q~0) 0) with false.
      replace (Z.pos q~0 / 2) with (Z.pos q) by (rewrite (Pos2Z.inj_xO q); clear; lia).
      rewrite <- IH by (rewrite (Pos2Z.inj_xO q) in H1; clear - H1; lia). reflexivity.
    + cbn [pop_count]. change (1 / 2) with 0. rewrite one_bits_0. reflexivity.
Qed.

Lemma count_split {A} (f : A -> bool) l :
  (length (filter f l) + length (filter (fun x => negb (f x)) l) = length l)%nat.
Proof. induction l as [|a l IH]; cbn; auto. destruct (f a); cbn; lia. Qed.

Lemma one_bits_range w p : 0 <= one_bits w p <= Z.of_nat w.
Proof.
  unfold one_bits. pose proof (count_split (fun j => Z.testbit p (Z.of_nat j)) (seq 0 w)) as C.
  rewrite seq_length in C. lia.
Qed.

Lemma one_bits_flip w p q :
  (forall j, 0 <= j < Z.of_nat w -> Z.testbit q j = negb (Z.testbit p j)) ->
  one_bits w q = zero_bits w p.
Proof.
  intros H. unfold one_bits, zero_bits. do 2 f_equal. apply filter_ext_in.
  intros i I. apply in_seq in I. apply H. lia.
Qed.

(** ** Leading and trailing zeros *)

Lemma ctlz_spec b p : pattern b p -> highest_zeros (bits b) p (lane_ctlz b p).
Proof.
  intros P. pose proof P as [P0 P1]. pose proof (bits_nonneg b) as B0. unfold lane_ctlz.
  destruct (Z.eqb_spec p 0) as [->|N].
  - split; [lia|]. split; [intros; apply Z.bits_0|lia].
  - assert (L0 : 0 <= Z.log2 p) by apply Z.log2_nonneg.
    assert (L1 : Z.log2 p < bits b) by (apply Z.log2_lt_pow2; [lia|exact P1]).
    split; [lia|]. split.
    + intros j J. apply Z.bits_above_log2; lia.
    + intros _. replace (bits b - 1 - (bits b - 1 - Z.log2 p)) with (Z.log2 p) by lia.
      apply Z.bit_log2. lia.
Qed.

Lemma pos_ctz_spec q : 0 <= pos_ctz q /\ Z.testbit (Zpos q) (pos_ctz q) = true /\
  forall j, 0 <= j < pos_ctz q -> Z.testbit (Zpos q) j = false.
Proof.
  induction q as [q IH|q IH|]; cbn [pos_ctz].
  - repeat split; try lia.
  - destruct IH as (I0 & I1 & I2). split; [lia|]. rewrite (Pos2Z.inj_xO q). split.
    + replace (1 + pos_ctz q) with (Z.succ (pos_ctz q)) by lia.
      now rewrite Z.double_bits_succ.
    + intros j J. destruct (Z.eq_dec j 0) as [->|N]; [apply Z.testbit_even_0|].
      replace j with (Z.succ (j - 1)) by lia. rewrite Z.double_bits_succ. apply I2. lia.
  - repeat split; try lia.
Qed.

Lemma cttz_spec b p : pattern b p -> lowest_zeros (bits b) p (lane_cttz b p).
Proof.
  intros P. pose proof P as [P0 P1]. pose proof (bits_nonneg b) as B0.
  destruct p as [|q|q]; cbn [lane_cttz]; [| |lia].
  - split; [lia|]. split; [intros; apply Z.bits_0|lia].
  - destruct (pos_ctz_spec q) as (I0 & I1 & I2). split; [|split; auto].
    split; auto. destruct (Z.le_gt_cases (pos_ctz q) (bits b)) as [L|L]; auto.
    rewrite (testbit_pattern_high b (Z.pos q)) in I1; auto; [discriminate|lia].
Qed.

(** ** The methods *)

Definition lane_bits (o : bit_op) (b : nat) (p : Z) : Z := elem_bits o b p.

Lemma lane_bits_range o b p : pattern b p -> 0 <= lane_bits o b p <= bits b.
Proof.
  intros P. destruct o; cbn [lane_bits elem_bits].
  - pose proof P as P'. unfold pattern, modulus in P'.
    rewrite (ctpop_one_bits (8 * b) p).
    + pose proof (one_bits_range (8 * b) p). unfold bits. lia.
    + replace (Z.of_nat (8 * b)) with (bits b) by (unfold bits; lia). exact P'.
  - apply (ctlz_spec b p P).
  - apply (cttz_spec b p P).
Qed.

Lemma bits_lt_half b : (0 < b)%nat -> bits b < 2 ^ (bits b - 1).
Proof.
  intros H. destruct b as [|b]; [lia|].
  assert (G : forall n : nat, 8 * (Z.of_nat n + 1) < 2 ^ (8 * Z.of_nat n + 7)).
  { induction n as [|n IH]; [reflexivity|].
    replace (8 * Z.of_nat (S n) + 7) with (8 + (8 * Z.of_nat n + 7)) by lia.
    rewrite Z.pow_add_r by lia. change (2 ^ 8) with 256. lia. }
  specialize (G b). unfold bits. replace (8 * Z.of_nat (S b) - 1) with (8 * Z.of_nat b + 7) by lia.
  lia.
Qed.

Lemma lane_bits_pattern o b p : (0 < b)%nat -> pattern b p -> pattern b (lane_bits o b p).
Proof.
  intros Hb P. pose proof (lane_bits_range o b p P). pose proof (bits_lt_half b Hb).
  pose proof (modulus_half b Hb). unfold pattern. lia.
Qed.

Lemma lane_bits_value o t p : integer_type t -> pattern (vb t) p ->
  value t (lane_bits o (vb t) p) = lane_bits o (vb t) p.
Proof.
  intros T P. pose proof (int_b t T) as Hb. pose proof (lane_bits_range o _ p P).
  pose proof (bits_lt_half _ Hb). unfold value. destruct (int_kind t T) as [-> | ->]; auto.
  rewrite width_bits. destruct (Z.ltb_spec (lane_bits o (vb t) p) (2 ^ (bits (vb t) - 1))); auto. lia.
Qed.

Lemma all_ok_map_total {A B} (f : A -> option B) (g : A -> B) l :
  (forall a, In a l -> f a = Some (g a)) -> all_ok (map f l) = Ok (map g l).
Proof.
  intros H. rewrite (map_ext_in f (fun a => Some (g a))) by auto.
  rewrite <- (map_map g Some). apply all_ok_map_Some.
Qed.

Lemma wrap_ival k b p : pattern b p -> wrap b (ival k b p) = p.
Proof. intros P. unfold ival. destruct (is_signed k); [now apply wrap_sval|now apply wrap_id]. Qed.

Lemma cast_same_size t t' x : integer_type t -> integer_type t' -> vb t' = vb t ->
  Forall (pattern (vb t)) x -> cast PlainCast t t' x = Ok x.
Proof.
  intros T T' E F. unfold cast, from_cast, from_cast_plain, simd_cast.
  rewrite (all_ok_map_total _ (fun p => p)); [now rewrite map_id|].
  intros p I. rewrite Forall_forall in F. specialize (F p I).
  unfold lane_cast. destruct (int_kind t T) as [K|K], (int_kind t' T') as [K'|K'];
    rewrite K, K', E; f_equal; now apply wrap_ival.
Qed.

Lemma bits_vector_ok o t x : integer_type t -> is_vector t x ->
  bits_vector o t x = Ok (map (lane_bits o (vb t)) x).
Proof.
  intros T [_ F]. unfold bits_vector.
  assert (U : integer_type (V KUint (vb t) (vn t)))
    by (right; split; auto; exact (int_vt t T)).
  rewrite (cast_same_size t _ x T U) by auto. cbn [bind].
  replace (bit_intrinsic o (vb t) x) with (map (lane_bits o (vb t)) x)
    by (unfold bit_intrinsic; destruct o; reflexivity).
  apply cast_same_size; auto. cbn [vb].
  apply Forall_map. eapply Forall_impl; [|exact F]. intros p P.
  apply lane_bits_pattern; auto. now apply int_b.
Qed.

(** The loop that writes lane i of the result for i = 0, 1, .. *)
Lemma rebuild_loop t (f : Z -> Z) x : vector_type t -> is_vector t x ->
  (forall p, pattern (vb t) p -> pattern (vb t) (f p)) ->
  forall rest done, x = done ++ rest ->
  for_loop (length rest) (length done) (map f done ++ rest) (fun i acc =>
    p <- extract t x (Z.of_nat i) ;; replace t acc (Z.of_nat i) (f p))
  = Ok (map f x).
Proof.
  intros T V FP. pose proof V as [L F].
  induction rest as [|p rest IH]; intros done E; cbn [for_loop length].
  - rewrite app_nil_r in E. subst. now rewrite app_nil_r.
  - assert (LN : lane x (length done) p)
      by (unfold lane; rewrite E, nth_error_app2, Nat.sub_diag by lia; reflexivity).
    rewrite (extract_lane t x _ p T V LN). cbn [bind].
    assert (IV : is_vector t (map f done ++ p :: rest)).
    { rewrite E in F. apply Forall_app in F as [F1 F2]. split.
      - rewrite <- L, E, !app_length, map_length. reflexivity.
      - apply Forall_app. split; auto. apply Forall_map.
        eapply Forall_impl; [|exact F1]. exact FP. }
    rewrite (replace_ok t _ (length done) (f p) T IV (lane_index t x _ p V LN)). cbn [bind].
    replace (update (map f done ++ p :: rest) (length done) (f p)) with (map f (done ++ [p]) ++ rest).
    + specialize (IH (done ++ [p])). rewrite app_length in IH. cbn in IH.
      replace (length done + 1)%nat with (S (length done)) in IH by lia.
      apply IH. rewrite <- app_assoc. exact E.
    + rewrite map_app, <- app_assoc. cbn [map app].
      clear. rewrite <- (map_length f done) at 1. generalize (map f done) as m.
      induction m; cbn; f_equal; auto.
Qed.

Lemma for_loop_ext {A} n : forall s (acc : A) f g,
  (forall i a, f i a = g i a) -> for_loop n s acc f = for_loop n s acc g.
Proof.
  induction n; intros; cbn; auto. rewrite H. destruct (g s acc); cbn; auto.
Qed.

Lemma bits_scalar_ok o t x : integer_type t -> is_vector t x ->
  bits_scalar o t x = Ok (map (lane_bits o (vb t)) x).
Proof.
  intros T V. pose proof (int_vt t T) as VT. pose proof (int_b t T) as Hb. pose proof V as [L F].
  unfold bits_scalar, lanes. rewrite <- L.
  rewrite <- (rebuild_loop t (lane_bits o (vb t)) x VT V (fun p => lane_bits_pattern o _ p Hb) x [] eq_refl).
  cbn [length map app].
  assert (G : forall n s acc,
    for_loop n s acc (fun i acc => p <- extract t x (Z.of_nat i) ;;
       replace t acc (Z.of_nat i) (wrap (vb t) (elem_bits o (vb t) p)))
    = for_loop n s acc (fun i acc => p <- extract t x (Z.of_nat i) ;;
       replace t acc (Z.of_nat i) (lane_bits o (vb t) p))).
  { intros. apply for_loop_ext. intros i a.
    destruct (Nat.lt_ge_cases i (vn t)) as [I|I].
    - rewrite <- L in I. apply nth_error_ex in I as [p I].
      rewrite (extract_lane t x i p VT V I). cbn [bind]. f_equal.
      apply wrap_id. apply (lane_bits_pattern o); auto. exact (Forall_nth_error _ _ _ _ F I).
    - rewrite extract_oob by lia. reflexivity. }
  apply G.
Qed.

Lemma bit_method_ok tg o t x : integer_type t -> is_vector t x ->
  bit_method tg o t x = Ok (map (lane_bits o (vb t)) x).
Proof.
  intros T V. pose proof (bits_vector_ok o t x T V) as B. pose proof (bits_scalar_ok o t x T V) as S.
  unfold bit_method. destruct (t_arch tg); auto.
  destruct o; auto. destruct (vb t) as [|[|]]; auto.
  destruct (vn t) as [|[|[|[|[|[|[|[|[|]]]]]]]]]; auto.
Qed.

Lemma bit_method_lanewise tg o t x (R : Z -> Z -> Prop) :
  integer_type t -> is_vector t x ->
  (forall p, pattern (vb t) p -> R p (lane_bits o (vb t) p)) ->
  exists r, bit_method tg o t x = Ok r /\ lanewise1 t x r (fun a c => R a (value t c)).
Proof.
  intros T V H. eexists; split; [now apply bit_method_ok|].
  apply (lanewise1_map t t); auto. intros a P. split; [apply lane_bits_pattern; auto; now apply int_b|].
  rewrite lane_bits_value; auto.
Qed.

Lemma width_nat t : Z.of_nat (8 * vb t) = width t.
Proof. unfold width. lia. Qed.

Theorem bit_counts tg t x :
  integer_type t -> is_vector t x ->
  exists c1 c0 lz tz,
    count_ones tg t x = Ok c1 /\ count_zeros tg t x = Ok c0 /\
    leading_zeros tg t x = Ok lz /\ trailing_zeros tg t x = Ok tz /\
    lanewise1 t x c1 (fun a c => value t c = one_bits (8 * vb t) a) /\
    lanewise1 t x c0 (fun a c => value t c = zero_bits (8 * vb t) a) /\
    lanewise1 t x lz (fun a c => highest_zeros (width t) a (value t c)) /\
    lanewise1 t x tz (fun a c => lowest_zeros (width t) a (value t c)).
Proof.
  intros T V.
  destruct (bit_method_lanewise tg Ctpop t x (fun a c => c = one_bits (8 * vb t) a) T V) as (c1 & E1 & H1).
  { intros p P. apply ctpop_one_bits. rewrite width_nat. exact P. }
  destruct (bit_method_lanewise tg Ctlz t x (highest_zeros (width t)) T V) as (lz & E3 & H3).
  { intros p P. apply ctlz_spec. exact P. }
  destruct (bit_method_lanewise tg Cttz t x (lowest_zeros (width t)) T V) as (tz & E4 & H4).
  { intros p P. apply cttz_spec. exact P. }
  destruct (bitwise_operators t x x T V V) as (_ & _ & _ & [NV NL]).
  destruct (bit_method_lanewise tg Ctpop t (not t x) (fun a c => c = one_bits (8 * vb t) a) T NV) as (c0 & E2 & H2).
  { intros p P. apply ctpop_one_bits. rewrite width_nat. exact P. }
  exists c1, c0, lz, tz. repeat (split; [assumption|]). split; [|split; assumption].
  destruct H2 as [W2 H2]. split; auto. intros i a A.
  destruct (NL i a A) as (na & NA & BN). destruct (H2 i na NA) as (c & C & EC).
  exists c; split; [exact C|]. cbv beta in EC. rewrite EC. apply one_bits_flip. rewrite width_nat. exact BN.
Qed.
