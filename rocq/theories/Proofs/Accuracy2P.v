(** Accuracy of the sums of option prices. *)
From Coq Require Import ZArith List Bool Lia Reals Lra.
From Flocq Require Import Core.
From Verif.Model Require Import Base FloatLane Llvm Bytes Tables Minimal Ops Reduce Slice ExSum ExOptions.
From Verif.Spec Require Import Spec Memory Floats Examples Accuracy.
From Verif.Proofs Require Import Lib FloatP FloatVecP ExSumP ExOptionsDriverP ExOptionsTopP AccuracyP.
Import ListNotations.
Open Scope R_scope.

Lemma numbers_wide x xs : numbers 4 x xs -> numbers 8 (map f64_from x) xs.
Proof.
  induction 1 as [|p z x zs [P (s & D)] _ IH]; cbn [map]; constructor; [|exact IH].
  split; [apply (convert_datum 4 8 p); [now left|now right|exact P]|]. exists s. rewrite <- D. apply widen_datum. exact P.
Qed.
Lemma slice_scalar_accuracy x xs : numbers 4 x xs -> in_range 8 (length x - 1) xs 0 -> within 8 (length x - 1) xs 0 (slice_scalar x).
Proof.
  intros N H. unfold in_range in H. rewrite Rplus_0_r in H. unfold slice_scalar.
  assert (Q : forall l a, fold_left (fun s p => fl_add 8 s (f64_from p)) l a = fold_left (fl_add 8) (map f64_from l) a)
    by (induction l; intros; cbn [map fold_left]; auto).
  rewrite Q. pose proof (numbers_near 8 _ _ (numbers_wide x xs N)) as U.
  pose proof (scalar_sum_near 8 (length x - 1) (magnitudes xs) (or_intror eq_refl) H 0 _ _ U) as S. rewrite etot_exact, map_length in S.
  eapply near_within; [apply S; cbn; [lia|lra]|..]; cbn; lra.
Qed.
Lemma sum_slice_accuracy tg x xs r : sum_slice tg x = Ok r -> x <> [] -> numbers 4 x xs ->
  in_range 8 (length x / 8 + 6) xs 0 -> within 8 (length x / 8 + 6) xs 0 r.
Proof.
  intros E NE N H. destruct (Nat.eq_dec (length x mod 8) 0) as [M|M]; [|now rewrite sum_slice_panics in E].
  rewrite sum_slice_fold in E by exact M. pose proof (mod_div _ 8 ltac:(lia) M) as D.
  pose proof (Forall2_len _ _ _ N) as LL. unfold in_range in H. rewrite Rplus_0_r in H.
  assert (L0 : (length x <> 0)%nat) by (destruct x; [congruence|cbn [length]; lia]).
  set (n := (length x / 8)%nat) in *. set (K := (n + 6)%nat) in *.
  pose proof (numbers_near 8 _ _ (numbers_wide x xs N)) as U.
  assert (G : Forall2 (lanes_near f64x8 0) (groups n 8 (map f64_from x)) (parts n 8 (map est_of xs)))
    by (apply (groups_near f64x8 0); [exact U|rewrite map_length; cbn [vn f64x8]; lia]).
  assert (C : concat (parts n 8 (map est_of xs)) = map est_of xs)
    by (rewrite parts_flat by (rewrite map_length; lia); apply firstn_all2; rewrite map_length; lia).
  assert (LG : @length vec (groups n 8 (map f64_from x)) = n) by apply BytesP.groups_length.
  destruct (iter_sum_near f64x8 f64x8_type K (magnitudes xs) H _ _ 0 G) as (z & Z1 & Z2 & _);
    [rewrite LG; unfold K; lia|rewrite C, etot_exact; cbn; lra|].
  rewrite LG in Z1. replace (Nat.eqb n 0) with false in Z1 by (symmetry; apply Nat.eqb_neq; lia).
  destruct (fsum_near f64x8 f64x8_type K (magnitudes xs) H tg _ _ z Z1) as (r' & R1 & R2).
  - unfold K. change (vn f64x8) with 8%nat. lia.
  - rewrite Z2, C, etot_exact. cbn. lra.
  - assert (r' = r) as -> by congruence. rewrite Z2, C, etot_exact in R2. change (vn f64x8 - 1)%nat with 7%nat in R2.
    replace (0 + (n - 1) + 7)%nat with K in R2 by (unfold K; lia).
    eapply near_within; [exact R2|..]; cbn; lra.
Qed.
