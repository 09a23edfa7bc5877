(** Casts and conversions (C20, C32 - C35). *)
From Coq Require Import ZArith List Bool Lia ZifyBool ZifyNat Arith.
From Verif.Model Require Import Base FloatLane Llvm Bytes Tables Minimal MaskReduce Cmp Cast.
From Verif.Spec Require Import Spec Conv.
From Verif.Proofs Require Import Lib MinimalP OpsP OpsP2 BytesP MaskReduceP CmpP RotateP BitManipP.
Import ListNotations.
Open Scope Z_scope.

(** ** Plain casts *)

Definition int_like (t : vty) : Prop := vkind t = KInt \/ vkind t = KUint \/ vkind t = KMask.

Lemma simd_cast_int tf tt x : int_like tf -> int_like tt ->
  simd_cast (vkind tf) (vb tf) (vkind tt) (vb tt) x
  = Ok (map (fun p => wrap (vb tt) (ival (vkind tf) (vb tf) p)) x).
Proof.
  intros F T. unfold simd_cast. apply all_ok_map_total. intros p _.
  unfold lane_cast. destruct F as [-> | [-> | ->]], T as [-> | [-> | ->]]; reflexivity.
Qed.

Lemma int_int_like t : integer_type t -> int_like t.
Proof. intros T. destruct (int_kind t T); unfold int_like; auto. Qed.
Lemma mask_int_like t : mask_type t -> int_like t.
Proof. intros [T _]. unfold int_like; auto. Qed.

Lemma wraps_to_in_range t z r : integer_type t -> wraps_to t z r -> in_range t z -> r = z.
Proof.
  intros T W R. apply (wraps_to_unique t z); auto. split; auto.
  rewrite Z.sub_diag. apply Z.divide_0_r.
Qed.

Theorem cast_integers tf tt x :
  integer_type tf -> integer_type tt -> vn tf = vn tt -> is_vector tf x ->
  exists r, cast PlainCast tf tt x = Ok r /\
    lanewise1 tt x r (fun a c => wraps_to tt (value tf a) (value tt c) /\
                                 (in_range tt (value tf a) -> value tt c = value tf a)).
Proof.
  intros F T N V. eexists. split.
  - exact (simd_cast_int tf tt x (int_int_like tf F) (int_int_like tt T)).
  - apply (lanewise1_map tf tt); auto. intros a P. split; [apply wrap_pattern|].
    rewrite <- (value_ival tf a) by now apply int_kind.
    pose proof (wraps_to_pattern tt (value tf a) T) as W. split; auto.
    intros R. exact (wraps_to_in_range tt _ _ T W R).
Qed.

Lemma ival_mlane k b c : (0 < b)%nat -> is_signed k = true ->
  ival k b (mlane b c) = if c then -1 else 0.
Proof.
  intros Hb S. unfold ival. rewrite S. destruct c; cbn [mlane]; [now apply sval_ones|now apply sval_zero].
Qed.

Lemma cast_mlanes tf tt (l : list bool) :
  vkind tf = KMask -> (0 < vb tf)%nat -> int_like tt ->
  simd_cast (vkind tf) (vb tf) (vkind tt) (vb tt) (map (mlane (vb tf)) l)
  = Ok (map (mlane (vb tt)) l).
Proof.
  intros K Hb T. rewrite simd_cast_int; [|unfold int_like; auto|auto]. f_equal.
  rewrite map_map. apply map_ext. intros c.
  rewrite ival_mlane by (auto; now rewrite K). destruct c; cbn [mlane].
  - apply (ones_wrap (vb tt)).
  - apply wrap_id, zero_pattern.
Qed.

Lemma map_mlane_lanewise tf tt x : vn tf = vn tt -> canonical tf x ->
  lanewise1 tt x (map (mlane (vb tt)) (map truth x)) (fun a c => c = mask_lane tt (truth a)).
Proof.
  intros N C. pose proof (canonical_vector tf x C) as V. rewrite map_map.
  apply (lanewise1_map tf tt); auto.
  intros a _. split; [apply mlane_pattern|]. apply mlane_mask_lane.
Qed.

Theorem cast_from_masks tf tt x :
  mask_type tf -> integer_type tt -> vn tf = vn tt -> canonical tf x ->
  exists r, cast PlainCast tf tt x = Ok r /\
    lanewise1 tt x r (fun a c => c = mask_lane tt (truth a)).
Proof.
  intros [K (Hb & _)] T N C. exists (map (mlane (vb tt)) (map truth x)). split.
  - unfold cast, from_cast, from_cast_plain.
    rewrite (canonical_map_truth tf x C) at 1. apply cast_mlanes; auto using int_int_like.
  - now apply (map_mlane_lanewise tf).
Qed.

(** What the two readings of a true lane are. *)
Theorem mask_lane_values t : integer_type t ->
  value t (mask_lane t false) = 0 /\
  (vkind t = KInt -> value t (mask_lane t true) = -1) /\
  (vkind t = KUint -> value t (mask_lane t true) = max_value t).
Proof.
  intros T. pose proof (int_b t T) as Hb. split; [|split].
  - cbn [mask_lane]. unfold false_lane. now apply value_zero_iff; auto using zero_pattern.
  - intros K. unfold value. rewrite K. exact (sval_ones (vb t) Hb).
  - intros K. unfold value, max_value. rewrite K. reflexivity.
Qed.

(** ** Casts to masks *)

Lemma select_splats tm tt (l : list bool) :
  vn tm = vn tt -> length l = vn tt ->
  select tm (map (mlane (vb tm)) l) (mask_splat tt true) (mask_splat tt false)
  = if forallb (mask_lane_ok (vb tm)) (map (mlane (vb tm)) l)
    then Ok (map (fun c => if mlane (vb tm) c =? 0 then mlane (vb tt) false else mlane (vb tt) true) l)
    else UB.
Proof.
  intros _ L. unfold select, simd_select. destruct (forallb _ _); auto. f_equal.
  rewrite !mask_splat_repeat, <- L. clear L. induction l as [|c l IH]; cbn [length repeat map select_lanes]; auto.
  now rewrite IH.
Qed.

Lemma from_cast_mask_val tf tt x :
  (0 < vb tf)%nat -> length x = vn tf -> vn tf = vn tt ->
  from_cast_mask tf tt x
  = Ok (map (fun p => mlane (vb tt) (lane_ne (vkind tf) (vb tf) p (nth 0 (vdefault tf) 0))) x).
Proof.
  intros Hb L N. unfold from_cast_mask, vne, simd_ne, simd_cmp.
  assert (D : vdefault tf = repeat (nth 0 (vdefault tf) 0) (vn tf)).
  { unfold vdefault. destruct (vkind tf); unfold mask_splat, splat; destruct (vn tf); reflexivity. }
  rewrite D at 1. rewrite map2_repeat_r by auto.
  pose proof (select_splats (mask_of tf) tt
    (map (fun p => lane_ne (vkind tf) (vb tf) p (nth 0 (vdefault tf) 0)) x)) as E.
  cbn [mask_of vb vn] in E. rewrite map_map in E. cbn [mask_of vb] in E |- *.
  rewrite E by (rewrite ?map_length; congruence). clear E.
  rewrite <- (map_map (fun p => lane_ne (vkind tf) (vb tf) p (nth 0 (vdefault tf) 0)) (mlane (vb tf))).
  cbn [mask_of vb]. rewrite forallb_ok_mlanes. f_equal. rewrite map_map. apply map_ext. intros p.
  rewrite mlane_eqb0 by auto. now destruct (lane_ne _ _ _ _).
Qed.

Theorem cast_to_masks tf tt x :
  integer_type tf -> mask_type tt -> vn tf = vn tt -> is_vector tf x ->
  exists r, cast MaskCast tf tt x = Ok r /\ canonical tt r /\
    lanewise1 tt x r (fun a c => c = mask_lane tt (negb (value tf a =? 0))).
Proof.
  intros F [K (Hb & _)] N V. pose proof (int_b tf F) as Hf. pose proof V as [L FV].
  eexists. split; [apply from_cast_mask_val; auto|].
  assert (D : nth 0 (vdefault tf) 0 = 0).
  { unfold vdefault, splat. pose proof (int_vt tf F) as (_ & Hn & _). destruct (vn tf); [lia|].
    destruct (int_kind tf F) as [-> | ->]; cbn [repeat nth lit]; apply wrap_id, zero_pattern. }
  rewrite D. split.
  - rewrite <- (map_map (fun p => lane_ne (vkind tf) (vb tf) p 0) (mlane (vb tt))).
    apply canonical_mlanes. rewrite map_length. congruence.
  - apply (lanewise1_map tf tt); auto. intros a P. split; [apply mlane_pattern|].
    rewrite <- mlane_mask_lane. f_equal.
    rewrite (value_ival tf a) by now apply int_kind.
    unfold lane_ne. replace (ival (vkind tf) (vb tf) 0) with 0
      by (unfold ival; destruct (is_signed _); auto; symmetry; now apply sval_zero).
    destruct (int_kind tf F) as [-> | ->]; reflexivity.
Qed.

Lemma mask_ne_default tf : mask_type tf -> forall c,
  lane_ne (vkind tf) (vb tf) (mlane (vb tf) c) (nth 0 (vdefault tf) 0) = c.
Proof.
  intros [K (Hb & Hn & _)] c. unfold vdefault. rewrite K, mask_splat_repeat.
  destruct (vn tf); [lia|]. cbn [repeat nth mlane]. unfold lane_ne.
  rewrite ival_mlane by auto. unfold ival. cbn [is_signed]. rewrite sval_zero by auto.
  destruct c; reflexivity.
Qed.

Theorem cast_masks tf tt x :
  mask_type tf -> mask_type tt -> vn tf = vn tt -> canonical tf x ->
  exists r, cast MaskCast tf tt x = Ok r /\ canonical tt r /\
    lanewise1 tt x r (fun a c => c = mask_lane tt (truth a)).
Proof.
  intros F [K (Hb & _)] N C. pose proof (canonical_vector tf x C) as [L _].
  exists (map (mlane (vb tt)) (map truth x)). split; [|split].
  - unfold cast, from_cast. rewrite from_cast_mask_val by (auto; apply F). f_equal.
    rewrite (canonical_map_truth tf x C) at 1. rewrite map_map. apply map_ext. intros c.
    now rewrite mask_ne_default.
  - apply canonical_mlanes. rewrite map_length. congruence.
  - now apply (map_mlane_lanewise tf).
Qed.

(** ** The tables *)

Definition vty_eqb (s t : vty) : bool :=
  Nat.eqb (vn s) (vn t) && (kind_eqb (vkind s) (vkind t) && Nat.eqb (vb s) (vb t)).
Lemma vty_eqb_eq s t : vty_eqb s t = true -> s = t.
Proof.
  destruct s as [k b n], t as [k' b' n']. unfold vty_eqb. cbn [vkind vb vn].
  rewrite !andb_true_iff, !Nat.eqb_eq. intros [-> [K ->]]. destruct k, k'; try discriminate; auto.
Qed.

Definition entry_ok (e : cast_entry) : bool :=
  forallb (fun s => Nat.eqb (vn s) (vn (c_to e))) (c_from e) &&
  match c_impl e with
  | PlainCast => negb (kind_eqb (vkind (c_to e)) KMask) || vty_eqb (c_to e) m128x1
  | MaskCast => kind_eqb (vkind (c_to e)) KMask
  end.

Lemma cast_table_ok pb : forallb entry_ok (cast_table pb) = true.
Proof. vm_compute. reflexivity. Qed.

(** Every cast of the crate keeps the number of lanes, and goes to a mask by
    comparison with zero, the m128x1 one excepted. *)
Theorem cast_table_shape pb e src :
  In e (cast_table pb) -> In src (c_from e) ->
  vn src = vn (c_to e) /\
  (vkind (c_to e) <> KMask -> c_impl e = PlainCast) /\
  (vkind (c_to e) = KMask -> c_to e = m128x1 \/ c_impl e = MaskCast).
Proof.
  intros I S. pose proof (cast_table_ok pb) as H. rewrite forallb_forall in H.
  specialize (H e I). unfold entry_ok in H. apply andb_true_iff in H as [H1 H2].
  rewrite forallb_forall in H1. specialize (H1 src S). apply Nat.eqb_eq in H1.
  split; auto. destruct (c_impl e).
  - split; auto. intros K. left. rewrite K in H2. cbn in H2. now apply vty_eqb_eq.
  - split; auto. intros K. destruct (vkind (c_to e)); cbn in H2; congruence.
Qed.

(** C32 *)
Theorem casts pb e src x :
  In e (cast_table pb) -> In src (c_from e) ->
  (integer_type src -> integer_type (c_to e) -> is_vector src x ->
     exists r, cast (c_impl e) src (c_to e) x = Ok r /\
       lanewise1 (c_to e) x r (fun a c =>
         wraps_to (c_to e) (value src a) (value (c_to e) c) /\
         (in_range (c_to e) (value src a) -> value (c_to e) c = value src a))) /\
  (mask_type src -> integer_type (c_to e) -> canonical src x ->
     exists r, cast (c_impl e) src (c_to e) x = Ok r /\
       lanewise1 (c_to e) x r (fun a c => c = mask_lane (c_to e) (truth a))) /\
  (integer_type src -> mask_type (c_to e) -> c_to e <> m128x1 -> is_vector src x ->
     exists r, cast (c_impl e) src (c_to e) x = Ok r /\ canonical (c_to e) r /\
       lanewise1 (c_to e) x r (fun a c => c = mask_lane (c_to e) (negb (value src a =? 0)))) /\
  (mask_type src -> mask_type (c_to e) -> canonical src x ->
     exists r, cast (c_impl e) src (c_to e) x = Ok r /\ canonical (c_to e) r /\
       lanewise1 (c_to e) x r (fun a c => c = mask_lane (c_to e) (truth a))).
Proof.
  intros I S. destruct (cast_table_shape pb e src I S) as (N & P & M).
  assert (NM : integer_type (c_to e) -> vkind (c_to e) <> KMask)
    by (intros T; destruct (int_kind _ T) as [-> | ->]; discriminate).
  split; [|split; [|split]].
  - intros F T V. rewrite (P (NM T)). now apply cast_integers.
  - intros F T V. rewrite (P (NM T)). now apply cast_from_masks.
  - intros F T D V. destruct (M (proj1 T)) as [E|E]; [contradiction|]. rewrite E. now apply cast_to_masks.
  - intros F T C. destruct (M (proj1 T)) as [E|E]; [|rewrite E; now apply cast_masks].
    exfalso. clear - I S E F.
    assert (H : forallb (fun e => negb (vty_eqb (c_to e) m128x1)
                || forallb (fun s => negb (kind_eqb (vkind s) KMask)) (c_from e)) (cast_table pb) = true)
      by (vm_compute; reflexivity).
    rewrite forallb_forall in H. specialize (H e I). rewrite E in H. cbn in H.
    rewrite forallb_forall in H. specialize (H src S). destruct F as [KF _]. rewrite KF in H. discriminate.
Qed.

(** ** C20 *)

Theorem m128x1_cast pb e src x :
  In e (cast_table pb) -> c_to e = m128x1 -> In src (c_from e) -> is_vector src x ->
  exists p, x = [p] /\ cast (c_impl e) src m128x1 x = Ok [p] /\
    (canonical m128x1 [p] <-> p = 0 \/ p = 2 ^ 128 - 1).
Proof.
  intros I E S V.
  assert (H : forallb (fun e => negb (vty_eqb (c_to e) m128x1)
              || match c_impl e with PlainCast => forallb (fun s => vty_eqb s i128x1 || vty_eqb s u128x1) (c_from e)
                 | _ => false end) (cast_table pb) = true)
    by (vm_compute; reflexivity).
  rewrite forallb_forall in H. specialize (H e I). rewrite E in H.
  change (vty_eqb m128x1 m128x1) with true in H. cbn [negb orb] in H.
  destruct (c_impl e); [|discriminate].
  rewrite forallb_forall in H. specialize (H src S).
  assert (S' : src = i128x1 \/ src = u128x1)
    by (apply orb_true_iff in H as [H|H]; [left|right]; now apply vty_eqb_eq).
  pose proof V as [L F].
  destruct x as [|p [|q x]]; try (destruct S' as [-> | ->]; discriminate L).
  exists p. split; auto. split.
  - assert (P : pattern 16 p) by (inversion F; destruct S' as [-> | ->]; assumption).
    unfold cast, from_cast, from_cast_plain, simd_cast. cbn [map all_ok].
    replace (lane_cast (vkind src) (vb src) (vkind m128x1) (vb m128x1) p) with (Some p); [reflexivity|].
    unfold lane_cast. change (vkind m128x1) with KMask. change (vb m128x1) with 16%nat.
    destruct S' as [-> | ->]; symmetry; apply f_equal;
      [exact (wrap_ival KInt 16 p P)|exact (wrap_ival KUint 16 p P)].
  - split.
    + intros [_ C]. inversion C as [|? ? [D|D] _]; [right; exact D|left; exact D].
    + intros [-> | ->]; (split; [reflexivity|]); (constructor; [|constructor]); [now right|now left].
Qed.

(** ** C33: integers and masks *)

Definition from_pair_ok (t s : vty) : bool :=
  Nat.eqb (vn s) (vn t) &&
  match vkind s, vkind t with
  | KMask, KMask => true
  | KUint, KUint | KInt, KInt => Nat.leb (vb s) (vb t)
  | KUint, KInt => Nat.ltb (vb s) (vb t)
  | KInt, KFloat | KUint, KFloat => Nat.ltb (vb s) (vb t)
  | KFloat, KFloat => Nat.eqb (vb s) 4 && Nat.eqb (vb t) 8
  | _, _ => false
  end.
Lemma from_table_ok pb :
  forallb (fun d => forallb (from_pair_ok (d_ty d)) (d_from d)) (decls pb) = true.
Proof. vm_compute. reflexivity. Qed.

Lemma from_pair pb d src : In d (decls pb) -> In src (d_from d) -> from_pair_ok (d_ty d) src = true.
Proof.
  intros D S. pose proof (from_table_ok pb) as H. rewrite forallb_forall in H.
  specialize (H d D). rewrite forallb_forall in H. auto.
Qed.

Lemma pow_bits_le b b' : (b <= b')%nat -> modulus b <= modulus b'.
Proof. intros. apply Z.pow_le_mono_r; unfold bits; lia. Qed.
Lemma pow_half_le b b' : (0 < b)%nat -> (b <= b')%nat -> 2 ^ (bits b - 1) <= 2 ^ (bits b' - 1).
Proof. intros. apply Z.pow_le_mono_r; unfold bits; lia. Qed.
Lemma pow_mod_half b b' : (b < b')%nat -> modulus b <= 2 ^ (bits b' - 1).
Proof. intros. apply Z.pow_le_mono_r; unfold bits; lia. Qed.

Theorem from_integers pb d src x :
  In d (decls pb) -> In src (d_from d) ->
  integer_type src -> integer_type (d_ty d) -> is_vector src x ->
  exists r, from_vector src (d_ty d) x = Ok r /\
    lanewise1 (d_ty d) x r (fun a c => value (d_ty d) c = value src a).
Proof.
  intros D S F T V. pose proof (from_pair pb d src D S) as H. unfold from_pair_ok in H.
  apply andb_true_iff in H as [N H]. apply Nat.eqb_eq in N.
  destruct (cast_integers src (d_ty d) x F T N V) as (r & E & VR & L).
  exists r. split; auto. split; auto. intros i a A. destruct (L i a A) as (c & C & _ & K).
  exists c. split; auto. apply K.
  assert (P : pattern (vb src) a) by exact (is_vector_lane src x i a V A).
  pose proof (value_in_range src a F P) as R. pose proof (int_b src F) as Hb. pose proof (int_b _ T) as Hb'.
  unfold in_range, min_value, max_value in *. rewrite !width_bits in *.
  destruct (int_kind src F) as [KS|KS], (int_kind _ T) as [KT|KT]; rewrite KS, KT in *; try discriminate.
  - apply Nat.leb_le in H. pose proof (pow_half_le _ _ Hb H). lia.
  - apply Nat.ltb_lt in H. pose proof (pow_mod_half _ _ H) as M. unfold modulus in M.
    pose proof (half_pos _ Hb'). lia.
  - apply Nat.leb_le in H. pose proof (pow_bits_le _ _ H) as M. unfold modulus in M. lia.
Qed.

Theorem from_masks pb d src x :
  In d (decls pb) -> In src (d_from d) ->
  mask_type src -> canonical src x ->
  mask_type (d_ty d) /\
  exists r, from_vector src (d_ty d) x = Ok r /\ canonical (d_ty d) r /\
    lanewise1 (d_ty d) x r (fun a c => c = mask_lane (d_ty d) (truth a)).
Proof.
  intros D S F C. pose proof (from_pair pb d src D S) as H. unfold from_pair_ok in H.
  apply andb_true_iff in H as [N H]. apply Nat.eqb_eq in N. pose proof F as [K (Hb & Hn & Hn')].
  rewrite K in H. destruct (vkind (d_ty d)) eqn:KT; try discriminate.
  assert (T : mask_type (d_ty d)).
  { split; auto. split; [|split; [congruence|lia]].
    clear - D S KT. unfold decls in D.
    repeat (destruct D as [<-|D]; [first [cbn; lia | destruct S; fail]|]).
    destruct D. }
  split; auto. exists (map (mlane (vb (d_ty d))) (map truth x)). split; [|split].
  - unfold from_vector. rewrite (canonical_map_truth src x C) at 1.
    apply cast_mlanes; auto using mask_int_like.
  - apply canonical_mlanes. rewrite map_length. destruct (canonical_vector src x C). congruence.
  - now apply (map_mlane_lanewise src).
Qed.

(** ** C34 *)

Theorem array_round_trip be t :
  (forall a, length a = vn t -> Forall (fun p => 0 <= p < 2 ^ width t) a ->
     is_vector t (from_array be t a) /\
     (forall i p, lane (from_array be t a) i p <-> nth_error a i = Some p) /\
     into_array be t (from_array be t a) = a) /\
  (forall v, is_vector t v ->
     (forall i p, nth_error (into_array be t v) i = Some p <-> lane v i p) /\
     from_array be t (into_array be t v) = v).
Proof.
  assert (A : forall a, is_vector t a -> from_array be t a = a).
  { intros a V. exact (of_image_image be (vb t) (vn t) a V). }
  assert (B : forall a, is_vector t a -> into_array be t a = a).
  { intros a V. exact (of_image_image be (vb t) (vn t) a V). }
  split.
  - intros a L F. assert (V : is_vector t a) by (split; auto).
    rewrite A by auto. split; auto. split; [intros; reflexivity|]. now apply B.
  - intros v V. rewrite B by auto. split; [intros; reflexivity|]. now apply A.
Qed.

(** ** C35 *)

Definition bits_pair_ok (t s : vty) : bool :=
  Nat.eqb (vb s * vn s) (vb t * vn t) &&
  (negb (kind_eqb (vkind t) KMask) ||
   (kind_eqb (vkind s) KMask && Nat.ltb 0 (vb t) && Nat.eqb (vb s mod vb t) 0 && Nat.ltb 0 (vb s))).

Lemma bits_table_ok pb :
  (pb = 1 \/ pb = 2 \/ pb = 4 \/ pb = 8)%nat ->
  forallb (fun e => forallb (bits_pair_ok (b_to e)) (b_from e)) (bits_table pb) = true.
Proof. intros [-> | [-> | [-> | ->]]]; vm_compute; reflexivity. Qed.

Lemma bits_pair pb e src : (pb = 1 \/ pb = 2 \/ pb = 4 \/ pb = 8)%nat ->
  In e (bits_table pb) -> In src (b_from e) -> bits_pair_ok (b_to e) src = true.
Proof.
  intros P E S. pose proof (bits_table_ok pb P) as H. rewrite forallb_forall in H.
  specialize (H e E). rewrite forallb_forall in H. auto.
Qed.

Theorem bits_preserved be pb e src x :
  (pb = 1 \/ pb = 2 \/ pb = 4 \/ pb = 8)%nat ->
  In e (bits_table pb) -> In src (b_from e) -> is_vector src x ->
  width src * Z.of_nat (vn src) = width (b_to e) * Z.of_nat (vn (b_to e)) /\
  is_vector (b_to e) (into_bits be src (b_to e) x) /\
  image be (vb (b_to e)) (into_bits be src (b_to e) x) = image be (vb src) x /\
  into_bits be (b_to e) src (into_bits be src (b_to e) x) = x.
Proof.
  intros P E S V. pose proof (bits_pair pb e src P E S) as H. unfold bits_pair_ok in H.
  apply andb_true_iff in H as [H _]. apply Nat.eqb_eq in H.
  split; [unfold width; nia|]. split; [|split].
  - exact (transmute_wf be _ _ _ _ x V H).
  - exact (transmute_image be _ _ _ _ x V H).
  - exact (transmute_back be _ _ _ _ x V H).
Qed.

(** Lane i of the wide mask covers lanes i*r .. i*r+r-1 of the narrow one. *)
Lemma nth_error_spread {A} r (cs : list A) : forall i k, (k < r)%nat ->
  nth_error (spread r cs) (i * r + k) = nth_error cs i.
Proof.
  unfold spread. induction cs as [|c cs IH]; intros i k K; cbn [flat_map].
  - destruct i, k, r; auto; cbn; try (now rewrite ?nth_error_nil); destruct (_ + _)%nat; auto.
  - destruct i as [|i]; cbn [Nat.mul Nat.add nth_error].
    + rewrite nth_error_app1 by (rewrite repeat_length; lia). now apply nth_error_repeat.
    + rewrite nth_error_app2 by (rewrite repeat_length; lia). rewrite repeat_length.
      replace (r + i * r + k - r)%nat with (i * r + k)%nat by lia. now apply IH.
Qed.

Theorem bits_masks be pb e src x :
  (pb = 1 \/ pb = 2 \/ pb = 4 \/ pb = 8)%nat ->
  In e (bits_table pb) -> In src (b_from e) -> vkind (b_to e) = KMask ->
  vkind src = KMask /\
  (canonical src x ->
   canonical (b_to e) (into_bits be src (b_to e) x) /\
   exists r, vn (b_to e) = (vn src * r)%nat /\ vb src = (vb (b_to e) * r)%nat /\
     forall i p k, lane x i p -> (k < r)%nat ->
       lane (into_bits be src (b_to e) x) (i * r + k) (mask_lane (b_to e) (truth p))).
Proof.
  intros P E S K. pose proof (bits_pair pb e src P E S) as H. unfold bits_pair_ok in H.
  apply andb_true_iff in H as [N H]. apply Nat.eqb_eq in N. rewrite K in H. cbn [kind_eqb negb orb] in H.
  apply andb_true_iff in H as [H Hs]. apply andb_true_iff in H as [H Hm].
  apply andb_true_iff in H as [H Ht].
  apply Nat.ltb_lt in Hs. apply Nat.ltb_lt in Ht. apply Nat.eqb_eq in Hm.
  split; [destruct (vkind src); cbn in H; congruence|]. intros C.
  set (r := (vb src / vb (b_to e))%nat).
  assert (R : vb src = (vb (b_to e) * r)%nat).
  { unfold r. apply Nat.div_exact; lia. }
  assert (RN : vn (b_to e) = (vn src * r)%nat) by nia.
  pose proof (canonical_vector src x C) as [L _].
  assert (T : into_bits be src (b_to e) x = map (mlane (vb (b_to e))) (spread r (map truth x))).
  { unfold into_bits, from_bits. rewrite RN. rewrite (canonical_map_truth src x C) at 1.
    apply transmute_mlanes; auto. now rewrite map_length. }
  rewrite T. split.
  - apply canonical_mlanes. rewrite spread_length, map_length. lia.
  - exists r. split; auto. split; auto. intros i p k A KR. unfold lane.
    rewrite nth_error_map, nth_error_spread by auto.
    rewrite nth_error_map. unfold lane in A. rewrite A. reflexivity.
Qed.
