(** Casts and conversions from and to float vectors (C49, C33). *)
From Coq Require Import ZArith List Bool Lia Reals Lra.
From Coq.Floats Require Import SpecFloat.
From Flocq Require Import Core BinarySingleNaN.
From Verif.Model Require Import Base FloatLane Llvm Tables Minimal MaskReduce Ops Cmp Cast Float.
From Verif.Spec Require Import Spec Floats.
From Verif.Proofs Require Import Lib MinimalP OpsP OpsP2 MaskReduceP CmpP RotateP BitManipP CastP FloatP FloatOpsP FloatVecP FloatApiP.
Import ListNotations.
Open Scope Z_scope.

Lemma cast_total tf tt (g : Z -> Z) x :
  (forall a, lane_cast (vkind tf) (vb tf) (vkind tt) (vb tt) a = Some (g a)) ->
  simd_cast (vkind tf) (vb tf) (vkind tt) (vb tt) x = Ok (map g x).
Proof. intros H. apply all_ok_map_total. auto. Qed.

Lemma all_ok_inv {A} (l : list (option A)) : forall r, all_ok l = Ok r -> l = map Some r.
Proof.
  induction l as [|[a|] l IH]; intros r E; cbn in E.
  - injection E as <-. reflexivity.
  - destruct (all_ok l) as [r'| |]; try discriminate. injection E as <-. cbn. f_equal. auto.
  - discriminate.
Qed.

Theorem cast_int_float tf tt x :
  integer_type tf -> float_type tt -> vn tf = vn tt -> is_vector tf x ->
  exists r, cast PlainCast tf tt x = Ok r /\
    lanewise1 tt x r (fun a c => rounds_to (vb tt) (IZR (value tf a)) false (datum_of (vb tt) c)).
Proof.
  intros F T N V. pose proof (float_size tt T) as FT. pose proof T as (K & _).
  exists (map (fun p => fl_of_int (vb tt) (ival (vkind tf) (vb tf) p)) x). split.
  - apply (cast_total tf tt). intros a. rewrite K. destruct (int_kind tf F) as [-> | ->]; reflexivity.
  - apply (lanewise1_map tf tt); auto. intros a P. rewrite <- (value_ival tf a) by now apply int_kind.
    apply of_int_datum; auto.
Qed.

Theorem cast_mask_float tf tt x :
  mask_type tf -> float_type tt -> vn tf = vn tt -> canonical tf x ->
  exists r, cast PlainCast tf tt x = Ok r /\
    lanewise1 tt x r (fun a c => datum_of (vb tt) c = if truth a then Fin true (-1) else Fin false 0).
Proof.
  intros [KF (Hb & _)] T N C. pose proof (float_size tt T) as FT. pose proof T as (K & _).
  exists (map (fun p => fl_of_int (vb tt) (ival (vkind tf) (vb tf) p)) x). split.
  - apply (cast_total tf tt). intros a. rewrite K, KF. reflexivity.
  - assert (V : is_vector tt (map (fun p => fl_of_int (vb tt) (ival (vkind tf) (vb tf) p)) x)).
    { split; [rewrite map_length, (proj1 C); auto|]. apply Forall_forall. intros c I.
      apply in_map_iff in I as (a & <- & _). now apply of_int_datum. }
    split; [exact V|]. intros i a A. eexists. split.
    + unfold lane. rewrite nth_error_map, A. reflexivity.
    + assert (M : exists c, a = mlane (vb tf) c).
      { destruct (Forall_nth_error _ _ _ _ (proj2 C) A) as [-> | ->]; [exists true|exists false]; reflexivity. }
      destruct M as [c ->]. rewrite truth_mlane, ival_mlane by (auto; now rewrite KF).
      pose proof (lit_datum tt (-1) T eq_refl) as D1. pose proof (lit_datum tt 0 T eq_refl) as D0.
      rewrite lit_float in D1, D0 by auto. destruct c; assumption.
Qed.

Theorem cast_float_float tf tt x :
  float_type tf -> float_type tt -> vn tf = vn tt -> is_vector tf x ->
  exists r, cast PlainCast tf tt x = Ok r /\
    lanewise1 tt x r (fun a c => ieee_convert (vb tt) (datum_of (vb tf) a) (datum_of (vb tt) c) /\
      ((vb tf < vb tt)%nat -> datum_of (vb tt) c = datum_of (vb tf) a)).
Proof.
  intros F T N V. pose proof (float_size tt T) as FT. pose proof (float_size tf F) as FF.
  pose proof T as (K & _). pose proof F as (KF & _).
  exists (map (fl_convert (vb tf) (vb tt)) x). split.
  - apply (cast_total tf tt). intros a. rewrite K, KF. reflexivity.
  - apply (lanewise1_map tf tt); auto. intros a P. destruct (convert_datum _ _ a FF FT P) as [Q H].
    split; [exact Q|]. split; [exact H|]. intros L.
    destruct FF as [E|E], FT as [E'|E']; rewrite E, E' in *; try lia. now apply widen_datum.
Qed.

Lemma int_bounds t : integer_type t -> int_min (vkind t) (vb t) = min_value t /\ int_max (vkind t) (vb t) = max_value t.
Proof.
  intros T. unfold int_min, int_max, min_value, max_value, modulus.
  change (width t) with (bits (vb t)). destruct (int_kind t T) as [-> | ->]; auto.
Qed.

(** The lane of a float vector whose truncated value an integer lane can hold. *)
Definition fits (tt : vty) (d : datum) : Prop := exists s u, d = Fin s u /\ in_range tt (Ztrunc u).

Lemma float_int_lane tf tt a : float_type tf -> integer_type tt -> pattern (vb tf) a ->
  (lane_cast (vkind tf) (vb tf) (vkind tt) (vb tt) a = None <-> ~ fits tt (datum_of (vb tf) a)) /\
  forall c, lane_cast (vkind tf) (vb tf) (vkind tt) (vb tt) a = Some c ->
    pattern (vb tt) c /\ exists s u, datum_of (vb tf) a = Fin s u /\ value tt c = Ztrunc u.
Proof.
  intros F T P. pose proof (float_size tf F) as FF. pose proof F as (KF & _).
  pose proof (trunc_datum (vb tf) FF a P) as H. pose proof (int_bounds tt T) as [Bm BM].
  assert (E : lane_cast (vkind tf) (vb tf) (vkind tt) (vb tt) a =
    match SFtrunc (fdecode (vb tf) a) with
    | Some z => if (min_value tt <=? z) && (z <=? max_value tt) then Some (wrap (vb tt) z) else None
    | None => None
    end).
  { rewrite <- Bm, <- BM, KF. destruct (int_kind tt T) as [-> | ->]; reflexivity. }
  rewrite E. unfold fits. destruct (datum_of (vb tf) a) as [|s|s u]; rewrite H.
  - split; [|discriminate]. split; auto. intros _ (s & u & D & _). discriminate.
  - split; [|discriminate]. split; auto. intros _ (s' & u & D & _). discriminate.
  - unfold in_range. destruct (Z.leb_spec (min_value tt) (Ztrunc u)); [destruct (Z.leb_spec (Ztrunc u) (max_value tt))|]; cbn [andb].
    + split.
      * split; [discriminate|]. intros []. exists s, u. auto.
      * intros c [= <-]. split; [apply wrap_pattern|]. exists s, u. split; auto.
        apply (wraps_to_in_range tt); auto; [now apply wraps_to_pattern|split; auto].
    + split; [|discriminate]. split; auto. intros _ (s' & u' & [= <- <-] & R). lia.
    + split; [|discriminate]. split; auto. intros _ (s' & u' & [= <- <-] & R). lia.
Qed.

Theorem cast_float_int tf tt x :
  float_type tf -> integer_type tt -> vn tf = vn tt -> is_vector tf x ->
  let fits d := exists s u, d = Fin s u /\ in_range tt (Ztrunc u) in
  ((forall i a, lane x i a -> fits (datum_of (vb tf) a)) ->
     exists r, cast PlainCast tf tt x = Ok r /\
       lanewise1 tt x r (fun a c => exists s u, datum_of (vb tf) a = Fin s u /\ value tt c = Ztrunc u)) /\
  ((exists i a, lane x i a /\ ~ fits (datum_of (vb tf) a)) -> cast PlainCast tf tt x = UB).
Proof.
  intros F T N V ft. unfold cast, from_cast, from_cast_plain, simd_cast.
  destruct (all_ok_cases (map (lane_cast (vkind tf) (vb tf) (vkind tt) (vb tt)) x)) as [[I E]|[I [r E]]].
  - rewrite E. split; [|auto]. intros H. exfalso. apply in_map_iff in I as (a & L & I).
    apply In_nth_error in I as [i I]. apply (float_int_lane tf tt a F T (is_vector_lane tf x i a V I)) in L.
    apply L. exact (H i a I).
  - rewrite E. split.
    + intros _. exists r. split; auto. apply all_ok_inv in E.
      assert (L : forall i a, lane x i a -> exists c, lane r i c /\ lane_cast (vkind tf) (vb tf) (vkind tt) (vb tt) a = Some c).
      { intros i a A. assert (A' : nth_error (map (lane_cast (vkind tf) (vb tf) (vkind tt) (vb tt)) x) i =
            Some (lane_cast (vkind tf) (vb tf) (vkind tt) (vb tt) a)) by (now rewrite nth_error_map, A).
        rewrite E, nth_error_map in A'. unfold lane. destruct (nth_error r i) as [c|]; [|discriminate].
        injection A' as A'. exists c. auto. }
      assert (Len : length r = length x) by (rewrite <- (map_length Some r), <- E; apply map_length).
      split.
      * split; [rewrite Len, (proj1 V); auto|]. apply Forall_of_nth_error. intros i c C.
        destruct (nth_error x i) as [a|] eqn:A.
        -- destruct (L i a A) as (c' & C' & S). unfold lane in C'. rewrite C in C'. injection C' as <-.
           exact (proj1 (proj2 (float_int_lane tf tt a F T (is_vector_lane tf x i a V A)) c S)).
        -- apply nth_error_None in A. rewrite <- Len in A. apply nth_error_None in A. congruence.
      * intros i a A. destruct (L i a A) as (c & C & S). exists c. split; [exact C|].
        exact (proj2 (proj2 (float_int_lane tf tt a F T (is_vector_lane tf x i a V A)) c S)).
    + intros (i & a & A & Nf). exfalso. apply I. apply in_map_iff. exists a. split.
      * apply (float_int_lane tf tt a F T (is_vector_lane tf x i a V A)). exact Nf.
      * eapply nth_error_In; eauto.
Qed.

Theorem cast_float_mask tf tt x :
  float_type tf -> mask_type tt -> vn tf = vn tt -> is_vector tf x ->
  exists r, cast MaskCast tf tt x = Ok r /\ canonical tt r /\
    forall i a, lane x i a -> exists c, lane r i (mask_lane tt c) /\
      (c = true <-> ~ ieee_eq (datum_of (vb tf) a) (Fin false 0)).
Proof.
  intros F [K (Hb & _)] N V. pose proof (float_size tf F) as FF. pose proof F as (KF & _). pose proof V as [L _].
  destruct (float_vt tf F) as (Hbf & Hn & _).
  eexists. split; [apply from_cast_mask_val; auto|].
  assert (D : nth 0 (vdefault tf) 0 = lit (vkind tf) (vb tf) 0).
  { unfold vdefault, splat. destruct (vn tf); [lia|]. rewrite KF. reflexivity. }
  rewrite D. split.
  - rewrite <- (map_map (fun p => lane_ne (vkind tf) (vb tf) p _) (mlane (vb tt))).
    apply canonical_mlanes. rewrite map_length. congruence.
  - intros i a A. exists (lane_ne (vkind tf) (vb tf) a (lit (vkind tf) (vb tf) 0)). split.
    + unfold lane. rewrite nth_error_map, A. cbn [option_map]. now rewrite <- mlane_mask_lane.
    + pose proof (lit_datum tf 0 F eq_refl) as D0. cbn [Z.ltb Z.compare] in D0. rewrite <- D0.
      pose proof (lit_pattern tf 0 F) as P0. rewrite KF in *. cbn [lane_ne].
      apply fl_ne_iff; auto. exact (is_vector_lane tf x i a V A).
Qed.

(** C49 *)
Theorem float_casts pb e src x :
  In e (cast_table pb) -> In src (c_from e) ->
  let t := c_to e in let d := datum_of (vb t) in let ds := datum_of (vb src) in
  let fits a := exists s u, ds a = Fin s u /\ in_range t (Ztrunc u) in
  (integer_type src -> float_type t -> is_vector src x ->
     exists r, cast (c_impl e) src t x = Ok r /\
       lanewise1 t x r (fun a c => rounds_to (vb t) (IZR (value src a)) false (d c))) /\
  (mask_type src -> float_type t -> canonical src x ->
     exists r, cast (c_impl e) src t x = Ok r /\
       lanewise1 t x r (fun a c => d c = if truth a then Fin true (-1) else Fin false 0)) /\
  (float_type src -> float_type t -> is_vector src x ->
     exists r, cast (c_impl e) src t x = Ok r /\
       lanewise1 t x r (fun a c => ieee_convert (vb t) (ds a) (d c) /\ ((vb src < vb t)%nat -> d c = ds a))) /\
  (float_type src -> integer_type t -> is_vector src x ->
     ((forall i a, lane x i a -> fits a) ->
        exists r, cast (c_impl e) src t x = Ok r /\
          lanewise1 t x r (fun a c => exists s u, ds a = Fin s u /\ value t c = Ztrunc u)) /\
     ((exists i a, lane x i a /\ ~ fits a) -> cast (c_impl e) src t x = UB)) /\
  (float_type src -> mask_type t -> is_vector src x ->
     exists r, cast (c_impl e) src t x = Ok r /\ canonical t r /\
       forall i a, lane x i a -> exists c, lane r i (mask_lane t c) /\
         (c = true <-> ~ ieee_eq (ds a) (Fin false 0))).
Proof.
  intros I S t d ds fits'. destruct (cast_table_shape pb e src I S) as (N & P & M).
  assert (NI : integer_type t -> vkind t <> KMask)
    by (intros T; destruct (int_kind _ T) as [-> | ->]; discriminate).
  assert (NF : float_type t -> vkind t <> KMask) by (intros (-> & _); discriminate).
  split; [|split; [|split; [|split]]].
  - intros F T V. rewrite (P (NF T)). now apply cast_int_float.
  - intros F T C. rewrite (P (NF T)). now apply cast_mask_float.
  - intros F T V. rewrite (P (NF T)). now apply cast_float_float.
  - intros F T V. rewrite (P (NI T)). exact (cast_float_int src t x F T N V).
  - intros F T V. destruct (M (proj1 T)) as [E|E]; [|rewrite E; now apply cast_float_mask].
    exfalso. clear - I S E F. destruct F as (KF & _).
    assert (H : forallb (fun e => negb (vty_eqb (c_to e) m128x1)
                || forallb (fun s => negb (kind_eqb (vkind s) KFloat)) (c_from e)) (cast_table pb) = true)
      by (vm_compute; reflexivity).
    rewrite forallb_forall in H. specialize (H e I). rewrite E in H. cbn in H.
    rewrite forallb_forall in H. specialize (H src S). rewrite KF in H. discriminate.
Qed.

(** C33 *)
Theorem from_floats pb d src x :
  In d (decls pb) -> In src (d_from d) -> float_type (d_ty d) -> is_vector src x ->
  (integer_type src ->
     exists r, from_vector src (d_ty d) x = Ok r /\
       lanewise1 (d_ty d) x r (fun a c =>
         datum_of (vb (d_ty d)) c = Fin (value src a <? 0) (IZR (value src a)))) /\
  (float_type src ->
     exists r, from_vector src (d_ty d) x = Ok r /\
       lanewise1 (d_ty d) x r (fun a c => datum_of (vb (d_ty d)) c = datum_of (vb src) a)).
Proof.
  intros D S T V. pose proof (from_pair pb d src D S) as H. unfold from_pair_ok in H.
  apply andb_true_iff in H as [N H]. apply Nat.eqb_eq in N. set (t := d_ty d) in *.
  pose proof (float_size t T) as FT. pose proof T as (KT & _). rewrite KT in H. split.
  - intros F. assert (L : (vb src < vb t)%nat).
    { apply Nat.ltb_lt. destruct (int_kind src F) as [K|K]; rewrite K in H; exact H. }
    exists (map (fun p => fl_of_int (vb t) (ival (vkind src) (vb src) p)) x). split.
    + apply (cast_total src t). intros a. rewrite KT. destruct (int_kind src F) as [-> | ->]; reflexivity.
    + apply (lanewise1_map src t); auto. intros a P. rewrite <- (value_ival src a) by now apply int_kind.
      split; [now apply of_int_datum|]. apply of_small_int; auto.
      pose proof (value_in_range src a F P) as R.
      assert (B : Z.abs (value src a) < 2 ^ (8 * Z.of_nat (vb src)) ).
      { unfold in_range, min_value, max_value in R. rewrite !width_bits in R.
        change (bits (vb src)) with (8 * Z.of_nat (vb src)) in R.
        pose proof (int_b src F) as Hb. 
        assert (Q : 2 ^ (8 * Z.of_nat (vb src)) = 2 * 2 ^ (8 * Z.of_nat (vb src) - 1)).
        { rewrite <- Z.pow_succ_r by lia. f_equal. lia. }
        assert (Q0 : 0 < 2 ^ (8 * Z.of_nat (vb src) - 1)) by (apply Z.pow_pos_nonneg; lia).
        rewrite Q in *. set (h := 2 ^ (8 * Z.of_nat (vb src) - 1)) in *. clearbody h. clear - R Q0.
        destruct (vkind src); lia. }
      eapply Z.lt_le_trans; [exact B|].
      apply Z.pow_le_mono_r; [lia|].
      assert (CB : In (vb src) [1; 2; 4; 8; 16]%nat).
      { assert (HT : forallb (fun d => negb (kind_eqb (vkind (d_ty d)) KFloat) ||
          forallb (fun s => existsb (Nat.eqb (vb s)) [1; 2; 4; 8; 16]%nat) (d_from d)) (decls pb) = true)
          by (vm_compute; reflexivity).
        rewrite forallb_forall in HT. specialize (HT d D). fold t in HT. rewrite KT in HT. cbn [kind_eqb negb orb] in HT. rewrite forallb_forall in HT. specialize (HT src S).
        apply existsb_exists in HT as (k & I & E). apply Nat.eqb_eq in E. now rewrite E. }
      destruct FT as [E|E]; rewrite E in *; cbn in CB; unfold fprec; cbn [Nat.eqb];
        intuition (subst; lia).
  - intros F. pose proof F as (KF & _). rewrite KF in H. apply andb_true_iff in H as [H1 H2].
    apply Nat.eqb_eq in H1, H2.
    destruct (cast_float_float src t x F T (eq_trans N eq_refl) V) as (r & E & VR & L).
    exists r. split; [exact E|]. split; [exact VR|]. intros i a A. destruct (L i a A) as (c & C & _ & W).
    exists c. split; [exact C|]. apply W. lia.
Qed.
