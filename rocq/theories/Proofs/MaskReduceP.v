(** Mask reductions on every target (C21). *)
From Coq Require Import ZArith List Bool Lia ZifyBool ZifyNat Arith.
From Verif.Model Require Import Base Llvm Bytes Arch Minimal MaskReduce Tables.
From Verif.Spec Require Import Spec.
From Verif.Proofs Require Import Lib MinimalP OpsP OpsP2 RotateP BytesP.
Import ListNotations.
Open Scope Z_scope.

Definition all_true (cs : list bool) : bool := forallb (fun c => c) cs.
Definition any_true (cs : list bool) : bool := existsb (fun c => c) cs.

Lemma any_all_neg cs : any_true cs = negb (forallb negb cs).
Proof. apply existsb_forallb. Qed.

(** *** Leaves *)

Lemma bytes_all be b cs : (0 < b)%nat ->
  forallb (fun x => x =? 255) (image be b (map (mlane b) cs)) = all_true cs.
Proof.
  intros. rewrite image_mlanes. unfold all_true. induction cs; cbn; auto.
  rewrite forallb_app, forallb_repeat, IHcs by auto. now destruct a.
Qed.
Lemma bytes_none be b cs : (0 < b)%nat ->
  forallb (fun x => x =? 0) (image be b (map (mlane b) cs)) = negb (any_true cs).
Proof.
  intros. rewrite image_mlanes. unfold any_true. induction cs; cbn; auto.
  rewrite forallb_app, forallb_repeat, IHcs by auto. now destruct a.
Qed.

Lemma pack_nonneg l : 0 <= pack l.
Proof. induction l as [|[] l]; cbn [pack Z.b2z]; lia. Qed.

Lemma pack_bound l : pack l < 2 ^ Z.of_nat (length l).
Proof.
  induction l as [|c l IH]; [reflexivity|]. cbn [pack length].
  rewrite Nat2Z.inj_succ, Z.pow_succ_r by lia. destruct c; cbn [Z.b2z]; lia.
Qed.

Lemma pack_full l : (pack l =? 2 ^ Z.of_nat (length l) - 1) = all_true l.
Proof.
  unfold all_true. induction l as [|c l IH]; [reflexivity|]. cbn [pack length forallb].
  rewrite <- IH. rewrite Nat2Z.inj_succ, Z.pow_succ_r by lia.
  set (M := 2 ^ Z.of_nat (length l)). destruct c; cbn [Z.b2z andb]; lia.
Qed.

Lemma pack_zero l : (pack l =? 0) = negb (any_true l).
Proof.
  unfold any_true. induction l as [|c l IH]; [reflexivity|]. cbn [pack existsb].
  pose proof (pack_nonneg l). destruct c; cbn [Z.b2z orb negb]; [lia|]. rewrite <- IH. lia.
Qed.

Lemma msb_mlane b c : (0 < b)%nat -> msb b (mlane b c) = c.
Proof.
  intros. unfold msb. destruct c; cbn [mlane].
  - apply testbit_ones. unfold bits; lia.
  - apply Z.testbit_0_l.
Qed.

Lemma movemask_mlanes w cs : (0 < w)%nat -> movemask w (map (mlane w) cs) = pack cs.
Proof.
  intros. unfold movemask. rewrite map_map. f_equal.
  rewrite <- (map_id cs) at 2. apply map_ext. intros; now apply msb_mlane.
Qed.

Lemma pack_pattern4 cs : (length cs <= 32)%nat -> pattern 4 (pack cs).
Proof.
  intros. split; [apply pack_nonneg|]. eapply Z.lt_le_trans; [apply pack_bound|].
  apply Z.pow_le_mono_r; [lia|]. unfold bits; lia.
Qed.

Lemma sval4_pack_full cs : (length cs <= 32)%nat ->
  (sval 4 (pack cs) =? sval 4 (2 ^ Z.of_nat (length cs) - 1)) = all_true cs.
Proof.
  intros H. rewrite <- pack_full.
  assert (P : pattern 4 (2 ^ Z.of_nat (length cs) - 1)).
  { assert (0 < 2 ^ Z.of_nat (length cs)) by (apply Z.pow_pos_nonneg; lia).
    assert (2 ^ Z.of_nat (length cs) <= 2 ^ 32) by (apply Z.pow_le_mono_r; lia).
    unfold pattern. change (modulus 4) with (2 ^ 32). lia. }
  apply Bool.eq_iff_eq_true. rewrite !Z.eqb_eq. split; [|congruence].
  apply sval_inj; auto using pack_pattern4.
Qed.

Lemma sval4_pack_zero cs : (length cs <= 32)%nat ->
  negb (sval 4 (pack cs) =? 0) = any_true cs.
Proof.
  intros H. rewrite <- (Bool.negb_involutive (any_true cs)), <- pack_zero. f_equal.
  apply Bool.eq_iff_eq_true. rewrite !Z.eqb_eq. rewrite <- (sval_zero 4) at 1 by lia.
  split; [|intros ->; reflexivity].
  apply sval_inj; auto using pack_pattern4, zero_pattern.
Qed.

Lemma vminv_mlanes b cs : (0 < b)%nat -> (0 < length cs)%nat ->
  vminv (map (mlane b) cs) = mlane b (all_true cs).
Proof.
  intros Hb. pose proof (ones_pos b Hb) as P.
  destruct cs as [|c cs]; cbn [length map vminv]; [lia|intros _].
  change (all_true (c :: cs)) with (c && all_true cs). revert c.
  induction cs as [|d cs IH]; intros c; cbn [map fold_left].
  - unfold all_true. cbn. now rewrite Bool.andb_true_r.
  - replace (Z.min (mlane b c) (mlane b d)) with (mlane b (c && d)).
    + rewrite IH. unfold all_true. cbn. now rewrite Bool.andb_assoc.
    + destruct c, d; cbn [mlane andb]; lia.
Qed.
Lemma vmaxv_mlanes b cs : (0 < b)%nat -> (0 < length cs)%nat ->
  vmaxv (map (mlane b) cs) = mlane b (any_true cs).
Proof.
  intros Hb. pose proof (ones_pos b Hb) as P.
  destruct cs as [|c cs]; cbn [length map vmaxv]; [lia|intros _].
  change (any_true (c :: cs)) with (c || any_true cs). revert c.
  induction cs as [|d cs IH]; intros c; cbn [map fold_left].
  - unfold any_true. cbn. now rewrite Bool.orb_false_r.
  - replace (Z.max (mlane b c) (mlane b d)) with (mlane b (c || d)).
    + rewrite IH. unfold any_true. cbn. now rewrite Bool.orb_assoc.
    + destruct c, d; cbn [mlane orb]; lia.
Qed.

Fixpoint pairs_with (f : bool -> bool -> bool) (cs : list bool) : list bool :=
  match cs with
  | c :: d :: cs' => f c d :: pairs_with f cs'
  | _ => []
  end.

Lemma list_ind2 {A} (P : list A -> Prop) :
  P [] -> (forall x, P [x]) -> (forall x y l, P l -> P (x :: y :: l)) -> forall l, P l.
Proof.
  intros H0 H1 H2. fix F 1. intros [|x [|y l]]; [exact H0|apply H1|apply H2, F].
Qed.

Lemma pairwise_min b cs : (0 < b)%nat ->
  pairwise Z.min (map (mlane b) cs) = map (mlane b) (pairs_with andb cs).
Proof.
  intros Hb. pose proof (ones_pos b Hb). induction cs using list_ind2; cbn [map pairwise pairs_with]; auto.
  f_equal; auto. destruct x, y; cbn [mlane andb]; lia.
Qed.
Lemma pairwise_max b cs : (0 < b)%nat ->
  pairwise Z.max (map (mlane b) cs) = map (mlane b) (pairs_with orb cs).
Proof.
  intros Hb. pose proof (ones_pos b Hb). induction cs using list_ind2; cbn [map pairwise pairs_with]; auto.
  f_equal; auto. destruct x, y; cbn [mlane orb]; lia.
Qed.

Lemma pairs_length f cs n : length cs = (2 * n)%nat -> length (pairs_with f cs) = n.
Proof.
  revert n; induction cs using list_ind2; intros n H; cbn [length pairs_with] in *; try lia.
  rewrite (IHcs (n - 1)%nat) by lia. lia.
Qed.
Lemma pairs_all cs n : length cs = (2 * n)%nat -> all_true (pairs_with andb cs) = all_true cs.
Proof.
  unfold all_true. revert n; induction cs using list_ind2; intros n H; cbn [length pairs_with forallb] in *; try lia; auto.
  rewrite (IHcs (n - 1)%nat) by lia. now rewrite Bool.andb_assoc.
Qed.
Lemma pairs_any cs n : length cs = (2 * n)%nat -> any_true (pairs_with orb cs) = any_true cs.
Proof.
  unfold any_true. revert n; induction cs using list_ind2; intros n H; cbn [length pairs_with existsb] in *; try lia; auto.
  rewrite (IHcs (n - 1)%nat) by lia. now rewrite Bool.orb_assoc.
Qed.

Lemma union_halves_mlanes be b n cs :
  (n = 2 * (n / 2))%nat -> length cs = n ->
  union_halves be b n (map (mlane b) cs) =
  (map (mlane b) (firstn (n / 2) cs), map (mlane b) (skipn (n / 2) cs)).
Proof.
  intros Hn Hl. unfold union_halves. set (h := (n / 2)%nat) in *.
  assert (E : map (mlane b) cs = map (mlane b) (firstn h cs) ++ map (mlane b) (skipn h cs)).
  { now rewrite <- map_app, firstn_skipn. }
  assert (L1 : length (map (mlane b) (firstn h cs)) = h).
  { rewrite map_length, firstn_length. lia. }
  rewrite E, image_app.
  assert (L2 : length (image be b (map (mlane b) (firstn h cs))) = (b * h)%nat)
    by (rewrite image_length, L1; auto).
  f_equal.
  - rewrite firstn_app, L2, Nat.sub_diag, firstn_O, app_nil_r, firstn_all2 by lia.
    apply of_image_image. apply mlanes_wf. rewrite firstn_length. lia.
  - rewrite skipn_app, L2, Nat.sub_diag, skipn_O, skipn_all2 by lia. cbn [app].
    apply of_image_image. apply mlanes_wf. rewrite skipn_length. lia.
Qed.

Lemma forallb_ok_mlanes b cs : forallb (mask_lane_ok b) (map (mlane b) cs) = true.
Proof.
  rewrite forallb_map'. apply forallb_forall. intros [] _; cbn [mlane]; unfold mask_lane_ok.
  - now rewrite Z.eqb_refl, Bool.orb_true_r.
  - reflexivity.
Qed.

Lemma forallb_nonzero_mlanes b cs : (0 < b)%nat ->
  forallb (fun p => negb (p =? 0)) (map (mlane b) cs) = all_true cs.
Proof.
  intros. rewrite forallb_map'. apply forallb_ext_in. intros c _.
  rewrite mlane_eqb0 by auto. apply Bool.negb_involutive.
Qed.
Lemma existsb_nonzero_mlanes b cs : (0 < b)%nat ->
  existsb (fun p => negb (p =? 0)) (map (mlane b) cs) = any_true cs.
Proof.
  intros. unfold any_true. induction cs; cbn [map existsb]; auto. rewrite IHcs.
  rewrite mlane_eqb0 by auto. now rewrite Bool.negb_involutive.
Qed.

(** *** A checker for one target and one shape; sound by construction *)

Fixpoint check (fuel : nat) (t : target) (b n : nat) : bool :=
  match fuel with
  | O => false
  | S f =>
      (0 <? b)%nat && (0 <? n)%nat &&
      match mask_impl t b n with
      | None => false
      | Some (AsInts w) => (0 <? w)%nat && (b * n / w * w =? b * n)%nat
      | Some (ToOther b' n') =>
          (0 <? b')%nat && (b =? b' * (b / b'))%nat && (n' =? n * (b / b'))%nat && (0 <? b / b')%nat
          && check f t b' n'
      | Some RecurseHalf => (n =? 2 * (n / 2))%nat && check f t b (n / 2)
      | Some (Movemask w full) =>
          (0 <? w)%nat && (b =? w * (b / w))%nat && (b * n / w =? n * (b / w))%nat && (0 <? b / w)%nat
          && (n * (b / w) <=? 32)%nat && (full =? sval 4 (2 ^ Z.of_nat (n * (b / w)) - 1))
      | Some TestCZ => (b * n =? 32)%nat
      | Some Intrinsic => true
      | Some MinMaxV128 => true
      | Some MinMaxV64 => check f t b (2 * n)
      | Some PMin => (n =? 2 * (n / 2))%nat && check f t b (n / 2)
      end
  end.

Ltac split_check H :=
  repeat match type of H with
         | (_ && _) = true => let H' := fresh "C" in apply andb_prop in H; destruct H as [H H']
         end;
  repeat match goal with
         | H : (_ =? _)%nat = true |- _ => apply Nat.eqb_eq in H
         | H : (_ <? _)%nat = true |- _ => apply Nat.ltb_lt in H
         | H : (_ <=? _)%nat = true |- _ => apply Nat.leb_le in H
         | H : (_ =? _) = true |- _ => apply Z.eqb_eq in H
         end.

Lemma tr_one be b n cs : (b * n = 32)%nat -> length cs = n ->
  transmute be b 32 1 (map (mlane b) cs) = [lane_value be (image be b (map (mlane b) cs))].
Proof.
  intros E Hl. unfold transmute, of_image. cbn [groups map].
  rewrite firstn_all2; [reflexivity|]. rewrite image_length, map_length. lia.
Qed.

Lemma repeat_mlanes b n : repeat (ones b) n = map (mlane b) (repeat true n).
Proof. induction n; cbn [repeat map]; f_equal; auto. Qed.

Lemma image_all_true be b n :
  image be b (map (mlane b) (repeat true n)) = repeat 255 (b * n).
Proof.
  rewrite image_mlanes. induction n; cbn [repeat flat_map]; [now rewrite Nat.mul_0_r|].
  rewrite IHn, <- repeat_app. f_equal; lia.
Qed.

Lemma land_ones b p : pattern b p -> Z.land p (ones b) = p.
Proof.
  intros H. unfold ones, modulus. replace (2 ^ bits b - 1) with (Z.ones (bits b)) by (rewrite Z.ones_equiv; lia).
  rewrite Z.land_ones by (unfold bits; lia). now apply wrap_id.
Qed.

Lemma wrap_lnot b p : pattern b p -> wrap b (Z.lnot p) = ones b - p.
Proof.
  intros [H0 H1]. unfold wrap, ones. symmetry. apply Z.mod_unique with (-1); [lia|].
  unfold Z.lnot; lia.
Qed.

Lemma check_sound fuel : forall t b n, check fuel t b n = true ->
  forall cs, length cs = n ->
  run_all fuel t b n (map (mlane b) cs) = Ok (all_true cs) /\
  run_any fuel t b n (map (mlane b) cs) = Ok (any_true cs).
Proof.
  induction fuel as [|fuel IH]; intros t b n H cs Hl; [discriminate|].
  cbn [check run_all run_any] in *. set (be := t_big_endian t).
  apply andb_prop in H as [Hbn H]. apply andb_prop in Hbn as [Hb Hn].
  apply Nat.ltb_lt in Hb. apply Nat.ltb_lt in Hn.
  destruct (mask_impl t b n) as [i|]; [|discriminate].
  destruct i as [w|b' n'| |w full| | | | |].
  - (* AsInts *)
    split_check H. 
    unfold transmute.
    assert (L : length (image be b (map (mlane b) cs)) = (b * n / w * w)%nat)
      by (rewrite image_length, map_length; lia).
    rewrite of_image_all_ones, of_image_all_zero by (auto using image_byte).
    rewrite bytes_all, bytes_none by auto. now rewrite Bool.negb_involutive.
  - (* ToOther *)
    split_check H. subst n'.
    rewrite (transmute_mlanes be b b' (b / b') n cs) by auto.
    destruct (IH t b' (n * (b / b'))%nat C (spread (b / b') cs)) as [A E].
    { rewrite spread_length; lia. }
    rewrite A, E. unfold all_true, any_true. now rewrite forallb_spread, existsb_spread.
  - (* RecurseHalf *)
    split_check H.
    rewrite union_halves_mlanes by auto. cbn [fst snd].
    destruct (IH t b (n / 2)%nat C (firstn (n / 2) cs)) as [A1 E1]; [rewrite firstn_length; lia|].
    destruct (IH t b (n / 2)%nat C (skipn (n / 2) cs)) as [A2 E2]; [rewrite skipn_length; lia|].
    rewrite A1, A2, E1, E2. cbn [bind].
    rewrite <- (firstn_skipn (n / 2) cs) at 3 6. unfold all_true, any_true.
    rewrite forallb_app, existsb_app.
    destruct (forallb _ (firstn _ cs)), (existsb _ (firstn _ cs)); auto.
  - (* Movemask *)
    split_check H.
    rewrite C2. rewrite (transmute_mlanes be b w (b / w) n cs) by auto.
    rewrite movemask_mlanes by auto.
    assert (L : length (spread (b / w) cs) = (n * (b / w))%nat) by (rewrite spread_length; lia).
    rewrite C, <- L. rewrite sval4_pack_full, sval4_pack_zero by lia.
    unfold all_true, any_true. now rewrite forallb_spread, existsb_spread by auto.
  - (* TestCZ *)
    split_check H.
    rewrite repeat_mlanes. rewrite !(tr_one be b n) by (rewrite ?repeat_length; auto).
    rewrite image_all_true, H. rewrite lane_value_repeat255.
    set (V := lane_value be _).
    assert (PL : length (image be b (map (mlane b) cs)) = 32%nat).
    { rewrite image_length, map_length, Hl; auto. }
    assert (PV : pattern 32 V).
    { rewrite <- PL. apply lane_value_pattern, image_byte. }
    unfold testc, testz. cbn [map2 forallb].
    rewrite land_ones by apply wrap_pattern. rewrite wrap_lnot by auto.
    rewrite Z.land_diag.
    assert (E1 : (V =? ones 32) = all_true cs).
    { unfold V. rewrite <- PL. rewrite lane_value_all_ones by apply image_byte. now apply bytes_all. }
    assert (E2 : (V =? 0) = negb (any_true cs)).
    { unfold V. rewrite lane_value_zero by apply image_byte. now apply bytes_none. }
    replace (ones 32 - V =? 0) with (V =? ones 32) by lia.
    rewrite E1, E2. destruct (all_true cs), (any_true cs); auto.
  - (* Intrinsic *)
    unfold simd_reduce_all, simd_reduce_any. rewrite forallb_ok_mlanes.
    now rewrite forallb_nonzero_mlanes, existsb_nonzero_mlanes by auto.
  - (* MinMaxV128 *)
    rewrite transmute_id by (apply mlanes_wf; auto).
    rewrite vminv_mlanes, vmaxv_mlanes by lia. rewrite !mlane_eqb0 by auto.
    now rewrite !Bool.negb_involutive.
  - (* MinMaxV64 *)
    rewrite <- image_app, <- map_app.
    rewrite of_image_image by (apply mlanes_wf; rewrite app_length; lia).
    destruct (IH t b (2 * n)%nat H (cs ++ cs)) as [A E]; [rewrite app_length; lia|].
    rewrite A, E. unfold all_true, any_true. rewrite forallb_app, existsb_app.
    now rewrite Bool.andb_diag, Bool.orb_diag.
  - (* PMin *)
    split_check H.
    rewrite union_halves_mlanes by auto. cbn [fst snd].
    unfold vpmin, vpmax. rewrite <- map_app, firstn_skipn.
    rewrite pairwise_min, pairwise_max by auto.
    assert (L2 : length cs = (2 * (n / 2))%nat) by lia.
    destruct (IH t b (n / 2)%nat C (pairs_with andb cs)) as [A1 _]; [now apply pairs_length|].
    destruct (IH t b (n / 2)%nat C (pairs_with orb cs)) as [_ A2]; [now apply pairs_length|].
    rewrite A1, A2. now rewrite (pairs_all _ _ L2), (pairs_any _ _ L2).
Qed.

Lemma check_all t ty : In ty mask_types -> check mask_fuel t (vb ty) (vn ty) = true.
Proof.
  destruct t as [a be p sse sse2 s41 s42 sss avx avx2 neon v7 ca sl db].
  intros H. assert (E : forallb (fun ty => check mask_fuel
     {| t_arch := a; t_big_endian := be; t_ptr := p; t_sse := sse; t_sse2 := sse2; t_sse41 := s41;
        t_sse42 := s42; t_ssse3 := sss; t_avx := avx; t_avx2 := avx2; t_neon := neon; t_v7 := v7;
        t_core_arch := ca; t_sleef := sl; t_debug := db |} (vb ty) (vn ty)) mask_types = true).
  { clear H. destruct a; [destruct sse, sse2, avx, avx2|destruct sse, sse2, avx, avx2|destruct v7, neon, ca|destruct neon| | | |];
      vm_compute; reflexivity. }
  rewrite forallb_forall in E. now apply E.
Qed.

Lemma all_canonical_masks t ty m :
  In ty mask_types -> canonical ty m ->
  all t ty m = Ok (all_true (map truth m)) /\ any t ty m = Ok (any_true (map truth m)).
Proof.
  intros H Hm. rewrite (canonical_map_truth ty m Hm) at 1 3.
  apply check_sound; [now apply check_all|]. rewrite map_length. apply Hm.
Qed.

Lemma all_true_iff m : all_true (map truth m) = true <-> forall i p, lane m i p -> truth p = true.
Proof.
  unfold all_true. rewrite forallb_map', forallb_forall. split.
  - intros H i p L. apply H. eapply nth_error_In; eauto.
  - intros H p Hp. apply In_nth_error in Hp as [i Hi]. eapply H; eauto.
Qed.

Lemma any_true_iff m : any_true (map truth m) = true <-> exists i p, lane m i p /\ truth p = true.
Proof.
  unfold any_true. rewrite existsb_exists. split.
  - intros (c & Hc & Ht). apply in_map_iff in Hc as (p & <- & Hp).
    apply In_nth_error in Hp as [i Hi]. exists i, p; auto.
  - intros (i & p & L & Ht). exists true; split; auto. rewrite <- Ht. apply in_map.
    eapply nth_error_In; eauto.
Qed.

Theorem mask_reductions tg t m :
  In t mask_types -> canonical t m ->
  (exists r, all tg t m = Ok r /\ (r = true <-> forall i p, lane m i p -> truth p = true)) /\
  (exists r, any tg t m = Ok r /\ (r = true <-> exists i p, lane m i p /\ truth p = true)) /\
  (exists r, none tg t m = Ok r /\ (r = true <-> ~ exists i p, lane m i p /\ truth p = true)).
Proof.
  intros H Hm. destruct (all_canonical_masks tg t m H Hm) as [A E]. unfold none. rewrite A, E.
  split; [|split]; eexists; (split; [reflexivity|]).
  - apply all_true_iff.
  - apply any_true_iff.
  - rewrite <- any_true_iff. destruct (any_true (map truth m)); cbn; intuition congruence.
Qed.

(** msizexN goes through the same-shaped fixed-width mask. *)
Lemma msize_reduces tg n m :
  t_ptr tg = 4%nat \/ t_ptr tg = 8%nat ->
  canonical (V KMask (t_ptr tg) n) m ->
  msize_all tg n m = Some (all tg (V KMask (t_ptr tg) n) m) /\
  msize_any tg n m = Some (any tg (V KMask (t_ptr tg) n) m).
Proof.
  intros Hp Hm. unfold msize_all, msize_any, msize_other.
  pose proof (canonical_vector _ _ Hm) as Hv. apply is_vector_wf in Hv. cbn [vb vn] in Hv.
  destruct Hp as [E|E]; rewrite E in *; cbn [Nat.eqb vb]; rewrite transmute_id by auto; auto.
Qed.

Theorem msize_reductions tg n m :
  t_ptr tg = 4%nat \/ t_ptr tg = 8%nat -> n = 2%nat \/ n = 4%nat \/ n = 8%nat ->
  canonical (V KMask (t_ptr tg) n) m ->
  (exists r, msize_all tg n m = Some (Ok r) /\ (r = true <-> forall i p, lane m i p -> truth p = true)) /\
  (exists r, msize_any tg n m = Some (Ok r) /\ (r = true <-> exists i p, lane m i p /\ truth p = true)).
Proof.
  intros Hp Hn Hm. destruct (msize_reduces tg n m Hp Hm) as [-> ->].
  destruct (mask_reductions tg (V KMask (t_ptr tg) n) m) as ((r1 & A & B) & (r2 & C & D) & _); auto.
  { destruct Hp as [-> | ->], Hn as [-> |[-> | ->]]; vm_compute; tauto. }
  rewrite A, C. split; eauto.
Qed.
