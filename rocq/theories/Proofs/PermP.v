(** Permutations: numbering and flips. *)
From Coq Require Import ZArith List Bool Lia Arith Factorial Permutation.
From Verif.Spec Require Import Permutations.
From Verif.Proofs Require Import Lib.
Import ListNotations.
Open Scope nat_scope.

(** ** Rotations *)
Lemma rotl_length {A} d (l : list A) : length (rotl d l) = length l.
Proof.
  unfold rotl. rewrite app_length, skipn_length, firstn_length. lia.
Qed.
Lemma rotl_perm {A} d (l : list A) : Permutation (rotl d l) l.
Proof. unfold rotl. rewrite Permutation_app_comm. now rewrite firstn_skipn. Qed.
Lemma rotl_0 {A} (l : list A) : rotl 0 l = l.
Proof. unfold rotl. cbn. apply app_nil_r. Qed.
Lemma rotl_all {A} (l : list A) : rotl (length l) l = l.
Proof. unfold rotl. rewrite skipn_all, firstn_all. reflexivity. Qed.
Lemma rotl_1_cons {A} (x : A) l : rotl 1 (x :: l) = l ++ [x].
Proof. reflexivity. Qed.
Lemma rotl_app {A} (a b : list A) : rotl (length a) (a ++ b) = b ++ a.
Proof.
  unfold rotl. rewrite skipn_app, firstn_app, skipn_all, firstn_all, Nat.sub_diag. cbn. now rewrite app_nil_r.
Qed.
Lemma split_at {A} (l : list A) d : d < length l -> exists a y r, l = a ++ y :: r /\ length a = d.
Proof.
  intros H. exists (firstn d l). destruct (skipn d l) as [|y r] eqn:Q.
  - assert (L : length (skipn d l) = 0) by now rewrite Q. rewrite skipn_length in L. lia.
  - exists y, r. rewrite <- Q, firstn_skipn, firstn_length. split; [reflexivity|lia].
Qed.
Lemma rotl_1_rotl {A} d (l : list A) : d < length l -> rotl 1 (rotl d l) = rotl (S d) l.
Proof.
  intros H. destruct (split_at l d H) as (a & y & r & -> & <-). rewrite rotl_app.
  replace (a ++ y :: r) with ((a ++ [y]) ++ r) by now rewrite <- app_assoc.
  replace (S (length a)) with (length (a ++ [y])) by (rewrite app_length; cbn; lia).
  rewrite rotl_app. cbn [app rotl]. unfold rotl. cbn. now rewrite app_assoc.
Qed.

(** ** Arrangements by digits *)
Fixpoint arr {A} (n : nat) (d : nat -> nat) (l : list A) : list A :=
  match n with
  | O => l
  | S m => let r := rotl (d m) l in arr m d (firstn m r) ++ skipn m r
  end.
Definition digit (k m : nat) : nat := (k / fact m) mod S m.

Lemma fact_pos n : 0 < fact n.
Proof. apply lt_O_fact. Qed.
Lemma fact_S n : fact (S n) = S n * fact n.
Proof. reflexivity. Qed.
Lemma fact_multiple j m : j <= m -> exists c, fact m = c * fact j.
Proof.
  intros H. induction H as [|m H [c IH]]; [exists 1; lia|].
  exists (S m * c). rewrite fact_S, IH. lia.
Qed.
Lemma digit_lt k m : digit k m <= m.
Proof. unfold digit. pose proof (Nat.mod_upper_bound (k / fact m) (S m)). lia. Qed.
Lemma digit_top k m : k < fact (S m) -> digit k m = k / fact m.
Proof.
  intros H. unfold digit. apply Nat.mod_small. apply Nat.div_lt_upper_bound; [pose proof (fact_pos m); lia|].
  rewrite fact_S in H. rewrite Nat.mul_comm. exact H.
Qed.
Lemma digit_mod k m j : j < m -> digit (k mod fact m) j = digit k j.
Proof.
  intros H. unfold digit. destruct (fact_multiple (S j) m H) as [c C]. rewrite fact_S in C.
  pose proof (fact_pos j) as P. pose proof (fact_pos m) as PM.
  rewrite (Nat.div_mod k (fact m)) at 2 by lia.
  replace (fact m * (k / fact m) + k mod fact m) with (k mod fact m + (c * (k / fact m) * S j) * fact j) by (rewrite C at 3; ring).
  rewrite Nat.div_add by lia. rewrite Nat.mod_add by lia. reflexivity.
Qed.
Lemma arr_ext {A} n d d' : forall (l : list A), (forall j, j < n -> d j = d' j) -> arr n d l = arr n d' l.
Proof.
  induction n as [|m IH]; intros l H; [reflexivity|]. cbn [arr]. rewrite (H m) by lia. f_equal. apply IH. intros j J. apply H. lia.
Qed.
Lemma arrange_arr {A} n : forall k (l : list A), k < fact n -> arrange n k l = arr n (digit k) l.
Proof.
  induction n as [|m IH]; intros k l H; [reflexivity|]. cbn [arrange arr]. rewrite (digit_top k m H).
  f_equal. rewrite IH by (apply Nat.mod_upper_bound; pose proof (fact_pos m); lia).
  apply arr_ext. intros j J. now apply digit_mod.
Qed.
Lemma arr_perm {A} n d : forall l : list A, Permutation (arr n d l) l.
Proof.
  induction n as [|m IH]; intros l; [reflexivity|]. cbn [arr].
  transitivity (firstn m (rotl (d m) l) ++ skipn m (rotl (d m) l)).
  - apply Permutation_app_tail. apply IH.
  - rewrite firstn_skipn. apply rotl_perm.
Qed.
Lemma arr_length {A} n d (l : list A) : length (arr n d l) = length l.
Proof. apply Permutation_length, arr_perm. Qed.
Lemma arr_zero {A} n d : (forall j, j < n -> d j = 0) -> forall l : list A, arr n d l = l.
Proof.
  intros H. induction n as [|m IH]; intros l; [reflexivity|]. cbn [arr]. rewrite (H m), rotl_0 by lia.
  rewrite IH by (intros; apply H; lia). apply firstn_skipn.
Qed.

(** Rotate the first i + 1 elements. *)
Definition rot1 {A} (i : nat) (l : list A) : list A := rotl 1 (firstn (S i) l) ++ skipn (S i) l.
Definition bump (d : nat -> nat) (i : nat) : nat -> nat :=
  fun j => if j =? i then (if i <=? d i then 0 else S (d i)) else d j.

Lemma rot1_app {A} i (a b : list A) : length a = S i -> rot1 i (a ++ b) = rotl 1 a ++ b.
Proof.
  intros H. unfold rot1. rewrite firstn_app, skipn_app, <- H, Nat.sub_diag, firstn_all, skipn_all. cbn. now rewrite app_nil_r.
Qed.
Lemma rot1_app_le {A} i (a b : list A) : i < length a -> rot1 i (a ++ b) = rot1 i a ++ b.
Proof.
  intros H. unfold rot1. rewrite firstn_app, skipn_app.
  replace (S i - length a) with 0 by lia. cbn [firstn skipn]. rewrite app_nil_r, app_assoc. reflexivity.
Qed.
Lemma rot1_arr {A} i d n : forall l : list A, i < n -> length l = n -> (forall j, j < i -> d j = 0) -> d i <= i ->
  rot1 i (arr n d l) = arr n (bump d i) l.
Proof.
  induction n as [|m IH]; intros l I L Z D; [lia|]. cbn [arr].
  destruct (Nat.eq_dec i m) as [->|N].
  - rewrite arr_zero, firstn_skipn by exact Z.
    rewrite arr_zero, firstn_skipn.
    2:{ intros j J. unfold bump. destruct (Nat.eqb_spec j m); [lia|]. now apply Z. }
    unfold bump. rewrite Nat.eqb_refl.
    assert (R : rot1 m (rotl (d m) l) = rotl 1 (rotl (d m) l)).
    { rewrite <- (app_nil_r (rotl (d m) l)) at 1. rewrite rot1_app by (rewrite rotl_length; exact L). apply app_nil_r. }
    rewrite R, rotl_1_rotl by lia. destruct (Nat.leb_spec m (d m)) as [H|H]; [|reflexivity].
    replace (S (d m)) with (length l) by lia. now rewrite rotl_all, rotl_0.
  - assert (B : bump d i m = d m) by (unfold bump; destruct (Nat.eqb_spec m i); [lia|reflexivity]).
    rewrite B. rewrite rot1_app_le.
    2:{ rewrite arr_length, firstn_length, rotl_length. lia. }
    f_equal. apply IH; try assumption; [lia|]. rewrite firstn_length, rotl_length. lia.
Qed.

(** ** Counting *)
Lemma mod_split k j : k mod fact (S j) = digit k j * fact j + k mod fact j.
Proof.
  unfold digit. rewrite fact_S, (Nat.mul_comm (S j)). pose proof (fact_pos j).
  rewrite Nat.mod_mul_r by lia. rewrite (Nat.mul_comm (fact j)). apply Nat.add_comm.
Qed.
Lemma all_max k j : (forall i, i < j -> digit k i = i) <-> k mod fact j = fact j - 1.
Proof.
  induction j as [|j IH].
  - split; [reflexivity|intros _ i I; lia].
  - pose proof (fact_pos j) as P. rewrite mod_split. pose proof (digit_lt k j) as DL.
    assert (M : k mod fact j < fact j) by (apply Nat.mod_upper_bound; lia).
    change (fact (S j)) with (S j * fact j). split.
    + intros H. rewrite (H j) by lia. assert (Q : k mod fact j = fact j - 1) by (apply IH; intros; apply H; lia). nia.
    + intros Q. assert (D : digit k j = j) by nia.
      assert (R : k mod fact j = fact j - 1) by (rewrite D in Q; nia).
      intros i I. destruct (Nat.eq_dec i j) as [->|N]; [exact D|]. apply IH; [exact R|lia].
Qed.
Lemma digit_S_carry k j : (forall i, i < j -> digit k i = i) -> digit (S k) j = if j <=? digit k j then 0 else S (digit k j).
Proof.
  intros H. apply all_max in H. pose proof (fact_pos j) as P.
  assert (Q : S k / fact j = S (k / fact j)).
  { symmetry. apply (Nat.div_unique _ _ _ 0); [lia|]. pose proof (Nat.div_mod k (fact j)). lia. }
  pose proof (digit_lt k j) as DL. unfold digit in *. rewrite Q. pose proof (Nat.div_mod (k / fact j) (S j)) as DM.
  destruct (Nat.leb_spec j ((k / fact j) mod S j)) as [L|L].
  - symmetry. apply (Nat.mod_unique _ _ (S ((k / fact j) / S j))); nia.
  - symmetry. apply (Nat.mod_unique _ _ ((k / fact j) / S j)); nia.
Qed.
Lemma digit_S_same k j i : i < j -> digit k i < i -> digit (S k) j = digit k j.
Proof.
  intros I D. pose proof (fact_pos j) as P.
  assert (N : k mod fact j <> fact j - 1) by (intros Q; apply all_max with (i := i) in Q; [lia|exact I]).
  assert (M : k mod fact j < fact j) by (apply Nat.mod_upper_bound; lia).
  unfold digit. f_equal. symmetry. apply (Nat.div_unique _ _ _ (S (k mod fact j))); [lia|].
  pose proof (Nat.div_mod k (fact j)). lia.
Qed.
Lemma last_index k n : k < fact n -> (forall i, i < n -> digit k i = i) -> S k = fact n.
Proof. intros K H. apply all_max in H. rewrite Nat.mod_small in H by exact K. lia. Qed.
Lemma digit_0_index m : digit 0 m = 0.
Proof. unfold digit. rewrite Nat.div_0_l by (pose proof (fact_pos m); lia). apply Nat.mod_0_l. lia. Qed.
Lemma digit_high k n j : k < fact n -> n <= j -> digit k j = 0.
Proof.
  intros K J. unfold digit. rewrite Nat.div_small; [apply Nat.mod_0_l; lia|].
  apply Nat.lt_le_trans with (fact n); [exact K|]. apply fact_le. exact J.
Qed.

(** ** Every permutation has exactly one number *)
Lemma rotl_last {A} (l : list A) x : In x l -> exists d, d < length l /\ exists b, rotl d l = b ++ [x].
Proof.
  intros I. apply in_split in I as (a & b & ->). destruct b as [|y b].
  - exists 0. split; [rewrite app_length; cbn; lia|]. exists a. apply rotl_0.
  - exists (length (a ++ [x])). split; [rewrite !app_length; cbn; lia|].
    exists ((y :: b) ++ a). replace (a ++ x :: y :: b) with ((a ++ [x]) ++ y :: b) by now rewrite <- app_assoc.
    rewrite rotl_app. now rewrite app_assoc.
Qed.
Lemma last_split {A} (l : list A) m : length l = S m -> exists b x, l = b ++ [x] /\ length b = m.
Proof.
  intros L. destruct (split_at l m ltac:(lia)) as (a & y & r & E & La). subst l. rewrite app_length in L. cbn in L.
  destruct r; [|cbn in L; lia]. exists a, y. auto.
Qed.
Lemma firstn_last {A} (b : list A) x m : length b = m -> firstn m (b ++ [x]) = b /\ skipn m (b ++ [x]) = [x].
Proof.
  intros <-. rewrite firstn_app, skipn_app, firstn_all, skipn_all, Nat.sub_diag. cbn. now rewrite app_nil_r.
Qed.
Lemma arrange_onto {A} n : forall (l p : list A), length l = n -> Permutation p l -> exists k, k < fact n /\ arrange n k l = p.
Proof.
  induction n as [|m IH]; intros l p L P.
  - destruct l; [|discriminate]. apply Permutation_sym, Permutation_nil in P. subst p. exists 0. split; [cbn; lia|reflexivity].
  - destruct (last_split p m) as (q & x & -> & Q). { rewrite (Permutation_length P). exact L. }
    destruct (rotl_last l x) as (d & D & b & R).
    { apply (Permutation_in _ P). apply in_or_app. right. now left. }
    assert (B : length b = m). { pose proof (rotl_length d l) as RL. rewrite R, app_length in RL. cbn in RL. lia. }
    destruct (IH b q B) as (k & K & AK).
    { apply Permutation_app_inv_r with (l := [x]). rewrite P, <- R. symmetry. apply rotl_perm. }
    pose proof (fact_pos m). exists (d * fact m + k). split; [rewrite fact_S; nia|]. cbn [arrange].
    replace ((d * fact m + k) / fact m) with d by (apply (Nat.div_unique _ _ _ k); lia).
    replace ((d * fact m + k) mod fact m) with k by (apply (Nat.mod_unique _ _ d); lia).
    destruct (firstn_last b x m B) as [F S]. rewrite R, F, S, AK. reflexivity.
Qed.
Lemma arrange_inj {A} n : forall (l : list A) k k', length l = n -> NoDup l -> k < fact n -> k' < fact n ->
  arrange n k l = arrange n k' l -> k = k'.
Proof.
  induction n as [|m IH]; intros l k k' L N K K' E; [cbn in *; lia|]. cbn [arrange] in E.
  pose proof (fact_pos m) as P.
  assert (D : k / fact m < S m) by (apply Nat.div_lt_upper_bound; [lia|]; rewrite Nat.mul_comm; exact K).
  assert (D' : k' / fact m < S m) by (apply Nat.div_lt_upper_bound; [lia|]; rewrite Nat.mul_comm; exact K').
  pose proof (Nat.div_mod k (fact m) ltac:(lia)) as DM. pose proof (Nat.div_mod k' (fact m) ltac:(lia)) as DM'.
  assert (R : k mod fact m < fact m) by (apply Nat.mod_upper_bound; lia).
  assert (R' : k' mod fact m < fact m) by (apply Nat.mod_upper_bound; lia).
  set (d := k / fact m) in *. set (d' := k' / fact m) in *. set (r := k mod fact m) in *. set (r' := k' mod fact m) in *.
  clearbody d d' r r'.
  destruct (last_split (rotl d l) m) as (b & x & Q & B); [rewrite rotl_length; exact L|].
  destruct (last_split (rotl d' l) m) as (b' & x' & Q' & B'); [rewrite rotl_length; exact L|].
  destruct (firstn_last b x m B) as [F S]. destruct (firstn_last b' x' m B') as [F' S'].
  rewrite Q, Q', F, S, F', S' in E. apply app_inj_tail in E as [E <-].
  assert (DD : d = d').
  { clear - L N D D' Q Q'.
    assert (X : forall d b, d < S m -> rotl d l = b ++ [x] -> exists a c, l = a ++ x :: c /\ (d = S (length a) \/ (d = 0 /\ c = []))).
    { clear - L. intros d b D Q. destruct d as [|d].
      - rewrite rotl_0 in Q. exists b, []. auto.
      - destruct (split_at l d ltac:(lia)) as (a & y & r & E & LA).
        replace l with ((a ++ [y]) ++ r) in Q by (rewrite E, <- app_assoc; reflexivity).
        replace (S d) with (length (a ++ [y])) in Q by (rewrite app_length; cbn; lia).
        rewrite rotl_app, app_assoc in Q. apply app_inj_tail in Q as [_ ->]. exists a, r. rewrite E. auto. }
    destruct (X d b D Q) as (a & c & E1 & C1). destruct (X d' b' D' Q') as (a' & c' & E2 & C2).
    assert (AA : a = a' /\ c = c').
    { rewrite E1 in E2, N. clear - E2 N. revert a' E2. induction a as [|y a IH]; intros [|y' a'] E2; cbn in *.
      - inversion E2. auto.
      - inversion E2; subst. inversion N as [|? ? H _]; subst. exfalso. apply H, in_or_app. right. now left.
      - inversion E2; subst. inversion N as [|? ? H _]; subst. exfalso. apply H, in_or_app. right. now left.
      - injection E2 as <- E2. inversion N as [|? ? _ N']; subst. destruct (IH N' a' E2) as [-> ->]. auto. }
    destruct AA as [<- <-]. rewrite E1, app_length in L. cbn in L.
    destruct C1 as [C1|[C1 C1']], C2 as [C2|[C2 C2']]; subst; cbn in *; lia. }
  subst d'. rewrite Q in Q'. apply app_inj_tail in Q' as [<- _].
  assert (r = r'); [|lia]. apply (IH b r r' B); auto.
  assert (NB : NoDup (b ++ [x])) by (rewrite <- Q; eapply Permutation_NoDup; [symmetry; apply rotl_perm|exact N]).
  clear - NB. induction b as [|y b IH]; [constructor|]. cbn in NB. inversion NB as [|? ? NI NB']; subst.
  constructor; [|auto]. intros I. apply NI, in_or_app. now left.
Qed.
Lemma arrange_perm {A} n k (l : list A) : k < fact n -> Permutation (arrange n k l) l.
Proof. intros H. rewrite arrange_arr by exact H. apply arr_perm. Qed.

(** ** Flips *)
Lemma flips_fun l k : flips l k -> forall k', flips l k' -> k = k'.
Proof.
  induction 1 as [l H|l k H F IH]; intros k' F'; inversion F' as [l' H'|l' j H' F'']; subst; auto; try contradiction.
Qed.
Lemma flip_perm l : Permutation (flip l) l.
Proof.
  destruct l as [|h r]; [reflexivity|]. unfold flip.
  transitivity (firstn (S h) (h :: r) ++ skipn (S h) (h :: r)); [|now rewrite firstn_skipn].
  apply Permutation_app_tail. symmetry. apply Permutation_rev.
Qed.

(** The weight of the elements in their place. *)
Fixpoint weight (i : nat) (l : list nat) : nat :=
  match l with
  | [] => 0
  | x :: r => (if x =? i then 2 ^ i else 0) + weight (S i) r
  end.
Lemma weight_app i a b : weight i (a ++ b) = weight i a + weight (i + length a) b.
Proof.
  revert i. induction a as [|x a IH]; intros i; cbn [weight app length]; [now rewrite Nat.add_0_r|].
  rewrite IH. replace (S i + length a) with (i + S (length a)) by lia. lia.
Qed.
Lemma weight_bound i l : weight i l + 2 ^ i <= 2 ^ (i + length l).
Proof.
  revert i. induction l as [|x l IH]; intros i; cbn [weight length]; [rewrite Nat.add_0_r; lia|].
  specialize (IH (S i)). replace (i + S (length l)) with (S i + length l) by lia. cbn [Nat.pow] in IH.
  destruct (x =? i); lia.
Qed.
Lemma flip_weight h r : h <> 0 -> h < length (h :: r) -> NoDup (h :: r) -> weight 0 (h :: r) < weight 0 (flip (h :: r)).
Proof.
  intros H L N. unfold flip.
  set (a := firstn h r). set (b := skipn h r).
  assert (A : length a = h) by (unfold a; rewrite firstn_length; cbn in L; lia).
  change (firstn (S h) (h :: r)) with (h :: a). change (skipn (S h) (h :: r)) with b.
  cbn [rev]. rewrite <- app_assoc, weight_app. cbn [app]. rewrite rev_length, A. cbn [weight Nat.add].
  rewrite Nat.eqb_refl.
  assert (R : r = a ++ b) by (unfold a, b; now rewrite firstn_skipn).
  rewrite R, weight_app. cbn [weight]. destruct (Nat.eqb_spec h 0) as [|_]; [contradiction|].
  replace (S (length a)) with (1 + length a) by lia. rewrite A.
  destruct (last_split a (h - 1)) as (c & x & E & C); [lia|].
  assert (X : x <> h).
  { intros Q. subst x. apply NoDup_cons_iff in N as [NI _]. apply NI. rewrite R, E. apply in_or_app. left. apply in_or_app. right. now left. }
  rewrite E, weight_app, C. cbn [weight]. replace (1 + (h - 1)) with h by lia.
  destruct (Nat.eqb_spec x h) as [|_]; [contradiction|].
  pose proof (weight_bound 1 c) as WB. rewrite C in WB. replace (1 + (h - 1)) with h in WB by lia.
  cbn [Nat.pow] in WB. cbn [Nat.add]. change (h =? h) with (h =? h). lia.
Qed.

Lemma flips_exist n : forall l, Permutation l (seq 0 n) -> exists k, flips l k /\ k <= 2 ^ n.
Proof.
  intros l P.
  assert (X : forall g l, Permutation l (seq 0 n) -> 2 ^ n <= weight 0 l + g -> exists k, flips l k /\ k <= g).
  { clear. induction g as [|g IH]; intros l P G.
    - pose proof (weight_bound 0 l) as B. rewrite (Permutation_length P), seq_length in B. cbn [Nat.add Nat.pow] in B. lia.
    - destruct l as [|h r]; [exists 0; split; [now constructor|lia]|].
      destruct (Nat.eq_dec h 0) as [->|H]; [exists 0; split; [now constructor|lia]|].
      destruct (IH (flip (h :: r))) as (k & K & B).
      + rewrite <- P. apply flip_perm.
      + assert (W : weight 0 (h :: r) < weight 0 (flip (h :: r))); [|lia].
        apply flip_weight; [exact H| |].
        * rewrite (Permutation_length P), seq_length.
          assert (I : In h (seq 0 n)) by (apply (Permutation_in _ P); now left). apply in_seq in I. lia.
        * eapply Permutation_NoDup; [symmetry; exact P|apply seq_NoDup].
      + exists (S k). split; [|lia]. now constructor. }
  apply X; [exact P|]. lia.
Qed.
