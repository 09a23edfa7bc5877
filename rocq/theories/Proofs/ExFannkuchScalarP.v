(** The scalar version of the fannkuch redux example. *)
From Coq Require Import ZArith List Bool Lia ZifyBool ZifyNat Arith Factorial Permutation.
From Verif.Model Require Import Base Tables Arch Minimal ShuffleDyn ExFannkuch.
From Verif.Spec Require Import Spec Permutations.
From Verif.Proofs Require Import Lib ShuffleDynP PermP ExSumP ExFannkuchP.
Import ListNotations.
Open Scope nat_scope.

(** Elements count from one. *)
Definition enc (a : list nat) : list Z := map (fun x => Z.of_nat x + 1)%Z a.
Lemma enc_length a : length (enc a) = length a.
Proof. apply map_length. Qed.

(** ** Rotations *)
Lemma push_back_app l y p : push_back p (l ++ [y]) = p :: l.
Proof. revert p. induction l as [|x l IH]; intros p; [reflexivity|]. cbn [app push_back]. now rewrite IH. Qed.
Lemma rotate_ok x : x <> [] -> rotate x = Ok (rotl 1 x).
Proof.
  destruct x as [|h r]; [contradiction|]. intros _. unfold rotate. cbn [aget nth_error bind rev].
  now rewrite push_back_app, rotl_1_cons; cbn [rev]; rewrite rev_involutive.
Qed.
Lemma rotate_to_ok l i : i < length l -> rotate_to l i = Ok (rot1 i l).
Proof.
  intros H. unfold rotate_to. rewrite (proj2 (Nat.ltb_lt _ _) H). rewrite rotate_ok; [reflexivity|].
  destruct l; [cbn in H; lia|discriminate].
Qed.
Lemma rot1_enc i a : rot1 i (enc a) = enc (rot1 i a).
Proof. unfold rot1, rotl, enc. now rewrite !map_app, !skipn_map, !firstn_map, !skipn_map. Qed.

Definition digits_at (k i : nat) (c : list Z) : Prop :=
  length c = 16 /\ forall j, j < 16 -> nth_error c j = Some (Z.of_nat (low i (digit k) j)).

Lemma next_from_ok m : forall i k c, i + m = 16 -> (forall j, j < i -> digit k j = j) -> S k < fact 16 -> digits_at k i c ->
  exists c', next_from (seq i m) (enc (arr 16 (low i (digit k)) (seq 0 16))) c = Ok (enc (arr 16 (digit (S k)) (seq 0 16)), c') /\
    digits_at (S k) 1 c'.
Proof.
  induction m as [|m IH]; intros i k c EI MX K [LC CC].
  - exfalso. assert (Q : S k = fact 16); [|lia]. apply last_index; [lia|]. intros j J. apply MX. lia.
  - change (seq i (S m)) with (i :: seq (S i) m). cbn [next_from]. set (d := low i (digit k)).
    rewrite rotate_to_ok by (rewrite enc_length, arr_length, seq_length; lia). cbn [bind]. rewrite rot1_enc.
    assert (DI : d i = digit k i) by (unfold d, low; now rewrite Nat.ltb_irrefl).
    pose proof (digit_lt k i) as DL.
    rewrite rot1_arr; [|lia|apply seq_length| |lia].
    2: { intros j J. unfold d, low. apply Nat.ltb_lt in J. now rewrite J. }
    unfold aget. rewrite (CC i) by lia. cbn [bind]. fold d. rewrite DI.
    destruct (Z.leb_spec (Z.of_nat i) (Z.of_nat (digit k i))) as [LE|LT].
    + assert (D : digit k i = i) by lia.
      rewrite aset_ok by lia. cbn [bind].
      replace (arr 16 (bump d i) (seq 0 16)) with (arr 16 (low (S i) (digit k)) (seq 0 16)).
      2: { apply arr_ext. intros j _. symmetry. apply low_bump; auto. }
      apply IH; [lia| |exact K|].
      * intros j J. destruct (Nat.eq_dec j i) as [->|]; [exact D|]. apply MX. lia.
      * split; [rewrite update_len; exact LC|]. intros j J. rewrite nth_update by lia. destruct (Nat.eqb_spec j i) as [->|N].
        -- unfold low. rewrite (proj2 (Nat.ltb_lt i (S i))) by lia. reflexivity.
        -- rewrite CC by exact J. do 2 f_equal. unfold low. destruct (Nat.ltb_spec j i), (Nat.ltb_spec j (S i)); try lia; reflexivity.
    + rewrite aset_ok by lia. cbn [bind].
      assert (LT' : digit k i < i) by lia.
      eexists. split.
      * do 2 f_equal. apply f_equal. apply arr_ext. intros j _. now apply next_bump.
      * split; [rewrite update_len; exact LC|]. intros j J. rewrite nth_update by lia.
        rewrite low_1, <- (next_bump k i MX LT' j). fold d. unfold bump. destruct (Nat.eqb_spec j i) as [->|N].
        -- rewrite DI. destruct (Nat.leb_spec i (digit k i)); [lia|]. f_equal. unfold i32_add. rewrite i32_of_small; [lia|].
           assert (i < 16) by lia. lia.
        -- rewrite CC by exact J. reflexivity.
Qed.

(** ** Flips *)
Lemma flips_app n a k r : flips a k -> Permutation a (seq 0 n) -> a <> [] -> flips (a ++ r) k.
Proof.
  induction 1 as [a H|a k H F IH]; intros P NE.
  - apply flips_done. destruct a; [contradiction|exact H].
  - destruct a as [|h t]; [contradiction|]. apply flips_more; [exact H|].
    assert (HN : h < n) by (assert (X : In h (seq 0 n)) by (eapply Permutation_in; [exact P|now left]); apply in_seq in X; lia).
    assert (L : length (h :: t) = n) by (rewrite (Permutation_length P); apply seq_length).
    replace (flip ((h :: t) ++ r)) with (flip (h :: t) ++ r).
    + apply IH; [rewrite flip_perm; exact P|]. now apply flip_nonempty.
    + cbn [app flip]. change (h :: t ++ r) with ((h :: t) ++ r). rewrite firstn_app, skipn_app.
      replace (S h - length (h :: t)) with 0 by lia. rewrite firstn_O, skipn_O, app_nil_r, app_assoc. reflexivity.
Qed.
Lemma arr_high {A} m : forall n d (l r : list A), length l = n -> length r = m -> (forall j, n <= j -> d j = 0) ->
  arr (n + m) d (l ++ r) = arr n d l ++ r.
Proof.
  induction m as [|m IH]; intros n d l r L R D.
  - destruct r; [|discriminate]. now rewrite Nat.add_0_r, !app_nil_r.
  - rewrite Nat.add_succ_r. cbn [arr]. rewrite D, rotl_0 by lia.
    destruct (last_split r m R) as (b & x & -> & B). rewrite app_assoc.
    destruct (firstn_last (l ++ b) x (n + m)) as [E1 E2]; [rewrite app_length; lia|]. rewrite E1, E2.
    rewrite IH by assumption. now rewrite <- app_assoc.
Qed.
Lemma perm16 n k : n <= 16 -> k < fact n -> arr 16 (digit k) (seq 0 16) = permutation_number n k ++ seq n (16 - n).
Proof.
  intros N K. unfold permutation_number. rewrite arrange_arr by exact K.
  replace 16 with (n + (16 - n)) at 1 2 by lia. rewrite seq_app. apply arr_high; try apply seq_length.
  intros j J. now apply (digit_high k n).
Qed.

Lemma reverse_enc a : Permutation a (seq 0 16) -> reverse (enc a) (Z.to_nat (head (enc a))) = Ok (enc (flip a)).
Proof.
  intros P. assert (L : length a = 16) by (rewrite (Permutation_length P); reflexivity).
  destruct a as [|h r]; [discriminate|].
  assert (HN : h < 16) by (assert (X : In h (seq 0 16)) by (eapply Permutation_in; [exact P|now left]); apply in_seq in X; lia).
  unfold head. replace (nth 0 (enc (h :: r)) 0%Z) with (Z.of_nat h + 1)%Z by reflexivity.
  replace (Z.to_nat (Z.of_nat h + 1)) with (S h) by lia. unfold reverse. rewrite enc_length, L.
  rewrite (proj2 (Nat.leb_le (S h) 16)) by lia. f_equal. unfold flip, enc.
  now rewrite map_app, map_rev, firstn_map, skipn_map.
Qed.
Lemma head_enc a : a <> [] -> head (enc a) = (Z.of_nat (hd 0%nat a) + 1)%Z.
Proof. now destruct a. Qed.
Lemma count_flips_ok a k : flips a k -> Permutation a (seq 0 16) -> (Z.of_nat k <= 65536)%Z ->
  exists p, evals (fun f => count_flips f (enc a)) (p, Z.of_nat k).
Proof.
  intros F P B.
  enough (X : forall c, (Z.of_nat (c + k) <= 65536)%Z -> exists p, loops (fun st : list Z * Z => negb (head (fst st) =? 1)%Z) (fun _ st =>
    p <~ call (reverse (fst st) (Z.to_nat (head (fst st)))) ;;
    ret (p, i32_add (snd st) 1)) (enc a, Z.of_nat c) (p, Z.of_nat (c + k))).
  { destruct (X 0 B) as (p & L). exists p. apply loops_evals in L. exact L. }
  clear B. induction F as [a H|a k H F IH]; intros c B.
  - exists (enc a). rewrite Nat.add_0_r. apply loops_done. cbn [fst].
    rewrite head_enc, H by (intros ->; apply Permutation_length in P; discriminate P). reflexivity.
  - destruct (IH ltac:(rewrite flip_perm; exact P) (S c) ltac:(lia)) as (p & L). exists p.
    replace (c + S k) with (S c + k) by lia. eapply loops_step; [| |exact L].
    + cbn [fst]. rewrite head_enc by (intros ->; apply Permutation_length in P; discriminate P).
      destruct (Z.eqb_spec (Z.of_nat (hd 0 a) + 1) 1); [lia|reflexivity].
    + cbn [fst snd]. rewrite reverse_enc by exact P. unfold call. cbn [pbind]. rewrite i32_succ by lia. apply evals_ret.
Qed.

(** ** The table of factorials *)
Fixpoint zfact (n : nat) : Z := match n with O => 1%Z | S m => (Z.of_nat n * zfact m)%Z end.
Lemma zfact_ok n : Z.of_nat (fact n) = zfact n.
Proof. induction n as [|n IH]; [reflexivity|]. rewrite fact_S, Nat2Z.inj_mul, IH. reflexivity. Qed.
Definition table (n : nat) : list Z := map (fun i => if i <=? n then wrap 4 (zfact i) else 1%Z) (seq 0 16).
Lemma perm_new_ok n : n < 16 -> perm_new n = Ok (mkPerm (repeat 0%Z 16) (table n) n 0 (repeat 0%Z 16)).
Proof. intros H. do 16 (destruct n as [|n]; [vm_compute; reflexivity|]). lia. Qed.
Lemma table_get_ok n i : i <= n -> n < 16 -> aget (table n) i = Ok (wrap 4 (zfact i)).
Proof.
  intros I N. unfold aget, table. rewrite nth_error_map, (nth_error_nth' _ 0) by (rewrite seq_length; lia).
  rewrite seq_nth by lia. cbn [option_map Nat.add]. apply Nat.leb_le in I. now rewrite I.
Qed.
Lemma zfact_pos i : i < 16 -> (0 < i32_of (wrap 4 (zfact i)))%Z.
Proof. intros H. do 16 (destruct i as [|i]; [vm_compute; reflexivity|]). lia. Qed.
Lemma zfact_small i : i <= 12 -> i32_of (wrap 4 (zfact i)) = Z.of_nat (fact i).
Proof. intros H. rewrite zfact_ok. do 13 (destruct i as [|i]; [vm_compute; reflexivity|]). lia. Qed.
Lemma zfact_12 : (Z.of_nat (fact 12) < 2 ^ 31)%Z.
Proof. rewrite zfact_ok. vm_compute. reflexivity. Qed.

(** ** Perm::get *)
Lemma fill_ok (h : nat -> Z) (f : nat -> outcome Z) c : forall j p, j + c <= length p -> (forall i, j <= i < j + c -> f i = Ok (h i)) ->
  for_loop c j p (fun j p => x <- f j ;; aset p j x) = Ok (firstn j p ++ map h (seq j c) ++ skipn (j + c) p).
Proof.
  induction c as [|c IH]; intros j p L F.
  - cbn [for_loop seq map app]. rewrite Nat.add_0_r, firstn_skipn. reflexivity.
  - cbn [for_loop]. rewrite F by lia. cbn [bind]. rewrite aset_ok by lia. cbn [bind].
    destruct (split_at p j ltac:(lia)) as (a & y & r & E & La). subst p.
    assert (U : update (a ++ y :: r) j (h j) = a ++ h j :: r).
    { generalize (h j). intros v. subst j. clear. induction a as [|x a IH]; [reflexivity|]. cbn [app length update]. now rewrite IH. }
    rewrite U. rewrite IH.
    + f_equal. replace (a ++ h j :: r) with ((a ++ [h j]) ++ r) by now rewrite <- app_assoc.
      replace (a ++ y :: r) with ((a ++ [y]) ++ r) by now rewrite <- app_assoc.
      rewrite (firstn_app (S j)), (firstn_all2 (a ++ [h j])), app_length, La by (rewrite app_length; cbn [length]; lia). cbn [length].
      replace (S j - (j + 1)) with 0 by lia. rewrite firstn_O, app_nil_r.
      rewrite <- !app_assoc. rewrite firstn_app, La, Nat.sub_diag, firstn_O, app_nil_r, firstn_all2 by lia. f_equal.
      cbn [seq map app]. f_equal. f_equal. rewrite !skipn_app, La.
      rewrite !(skipn_all2 a) by lia. cbn [app]. replace (S j + c - j) with (S c) by lia. replace (j + S c - j) with (S c) by lia. reflexivity.
    + rewrite app_length in *. cbn [length] in *. lia.
    + intros i I. apply F. lia.
Qed.

Lemma seq_shift_by d c : seq d c = map (fun j => j + d) (seq 0 c).
Proof.
  revert d. induction c as [|c IH]; intros d; [reflexivity|]. cbn [seq map]. f_equal. rewrite IH, <- seq_shift, map_map.
  apply map_ext. intros a. lia.
Qed.
Lemma rot_fill (v : list Z) i d : length v = S i -> d <= i ->
  map (fun j => nth (if j + d <=? i then j + d else j + d - i - 1) v 0%Z) (seq 0 (S i)) = rotl d v.
Proof.
  intros L D. replace (S i) with ((S i - d) + d) by lia. rewrite seq_app, map_app. unfold rotl. f_equal.
  - transitivity (map (fun j => nth j v 0%Z) (seq d (S i - d))).
    + rewrite (seq_shift_by d), map_map. apply map_ext_in. intros j J. apply in_seq in J.
      rewrite (proj2 (Nat.leb_le (j + d) i)) by lia. reflexivity.
    + rewrite map_nth_seq by lia. apply firstn_all2. rewrite skipn_length. lia.
  - transitivity (map (fun j => nth j v 0%Z) (seq 0 d)).
    + rewrite (seq_shift_by (0 + (S i - d))), map_map. apply map_ext_in. intros j J. apply in_seq in J.
      destruct (Nat.leb_spec (j + (0 + (S i - d)) + d) i); [lia|]. f_equal. lia.
    + rewrite map_nth_seq by lia. reflexivity.
Qed.

Definition small (a : list nat) : Prop := Forall (fun x => x < 16) a.
Lemma wrap_enc a : small a -> map (wrap 1) (enc a) = enc a.
Proof.
  intros H. unfold enc. rewrite map_map. apply map_ext_in. intros x X. eapply Forall_forall in H; [|exact X]. cbv beta in H.
  unfold wrap, modulus, bits. change (2 ^ (8 * Z.of_nat 1))%Z with 256%Z. rewrite Z.mod_small; lia.
Qed.

Lemma get_round_ok fact_t i k f a r c :
  aget fact_t i = Ok f -> (0 < i32_of f)%Z -> (Z.of_nat (k mod fact (S i)) / i32_of f = Z.of_nat (digit k i))%Z ->
  (Z.of_nat (k mod fact (S i)) mod i32_of f = Z.of_nat (k mod fact i))%Z ->
  length a = S i -> small a -> i < 16 -> length (enc a ++ r) = 16 -> length c = 16 ->
  get_round fact_t i (c, enc a ++ r, Z.of_nat (k mod fact (S i))) =
    Ok (update c i (Z.of_nat (digit k i)), enc (rotl (digit k i) a) ++ r, Z.of_nat (k mod fact i)).
Proof.
  intros EF FP ED ER LA SA I LR LC. unfold get_round. cbn [fst snd]. rewrite EF. cbn [bind].
  unfold i32_div, i32_rem. replace (i32_of f =? 0)%Z with false by (symmetry; apply Z.eqb_neq; lia).
  replace (i32_of f =? -1)%Z with false by (symmetry; apply Z.eqb_neq; lia). rewrite andb_false_r. cbn [orb bind].
  rewrite Z.quot_div_nonneg, Z.rem_mod_nonneg by lia. rewrite ED, ER. rewrite aset_ok by lia. cbn [bind]. rewrite Nat2Z.id.
  pose proof (digit_lt k i) as DL. set (d := digit k i) in *.
  assert (FE : firstn (S i) (enc a ++ r) = enc a).
  { rewrite firstn_app, enc_length, LA, Nat.sub_diag, firstn_O, app_nil_r. apply firstn_all2. rewrite enc_length. lia. }
  assert (SE : skipn (S i) (enc a ++ r) = r).
  { rewrite skipn_app, enc_length, LA, Nat.sub_diag, skipn_O, skipn_all2 by (rewrite enc_length; lia). reflexivity. }
  rewrite FE, wrap_enc by exact SA.
  set (pp := enc a ++ repeat 0%Z (16 - S i)).
  assert (GET : forall j, j < S i -> aget pp j = Ok (nth j (enc a) 0%Z)).
  { intros j J. unfold aget, pp. rewrite nth_error_app1 by (rewrite enc_length; lia).
    rewrite (nth_error_nth' _ 0%Z) by (rewrite enc_length; lia). reflexivity. }
  rewrite (fill_ok (fun j => nth (if j + d <=? i then j + d else j + d - i - 1) (enc a) 0%Z)
    (fun j => if j + d <=? i then aget pp (j + d) else aget pp (j + d - i - 1))).
  - cbn [bind firstn app Nat.add]. rewrite SE, rot_fill by (rewrite ?enc_length; lia). do 2 f_equal. f_equal. f_equal.
    unfold rotl, enc. now rewrite map_app, skipn_map, firstn_map.
  - rewrite LR. lia.
  - intros j J. destruct (Nat.leb_spec (j + d) i); apply GET; lia.
Qed.

Lemma get_rounds_ok fact_t k m : forall a r c,
  (forall i, i < m -> exists f, aget fact_t i = Ok f /\ (0 < i32_of f)%Z /\ (Z.of_nat (k mod fact (S i)) / i32_of f = Z.of_nat (digit k i))%Z /\
  (Z.of_nat (k mod fact (S i)) mod i32_of f = Z.of_nat (k mod fact i))%Z) ->
  length a = m -> small a -> length (enc a ++ r) = 16 -> length c = 16 -> (forall j, j < m -> nth_error c j = Some 0%Z) ->
  exists c' x, get_rounds fact_t (rev (seq 1 (m - 1))) (c, enc a ++ r, Z.of_nat (k mod fact m)) = Ok (c', enc (arr m (digit k) a) ++ r, x) /\
    length c' = 16 /\ (forall j, nth_error c' j = if j <? m then Some (Z.of_nat (digit k j)) else nth_error c j).
Proof.
  induction m as [|m IH]; intros a r c T LA SA LR LC C0.
  - cbn [seq Nat.sub rev get_rounds arr]. eexists _, _. split; [reflexivity|]. split; [exact LC|]. reflexivity.
  - destruct m as [|m].
    + cbn [seq Nat.sub rev get_rounds]. eexists _, _. split.
      * do 2 f_equal. f_equal. f_equal. f_equal. symmetry. apply arr_zero. intros j J. replace j with 0 by lia.
        pose proof (digit_lt k 0). lia.
      * split; [exact LC|]. intros j. destruct (Nat.ltb_spec j 1) as [J|J]; [|reflexivity]. replace j with 0 by lia. rewrite (C0 0) by lia.
        pose proof (digit_lt k 0). replace (digit k 0) with 0 by lia. reflexivity.
    + replace (S (S m) - 1) with (S m) by lia. rewrite seq_S, rev_app_distr. change (rev [1 + m]) with [S m]. cbn [app get_rounds].
      assert (L16 : S m < 16) by (rewrite app_length, enc_length in LR; lia).
      destruct (T (S m) ltac:(lia)) as (f & EF & FP & ED & ER).
      rewrite (get_round_ok fact_t (S m) k f) by assumption. cbn [bind].
      set (b := rotl (digit k (S m)) a).
      assert (LB : length b = S (S m)) by (unfold b; now rewrite rotl_length).
      assert (EB : enc b ++ r = enc (firstn (S m) b) ++ (enc (skipn (S m) b) ++ r)).
      { rewrite app_assoc. f_equal. unfold enc. rewrite <- map_app, firstn_skipn. reflexivity. }
      rewrite EB.
      destruct (IH (firstn (S m) b) (enc (skipn (S m) b) ++ r) (update c (S m) (Z.of_nat (digit k (S m))))) as (c' & x & E & LC' & CC).
      * intros i I. apply T. lia.
      * rewrite firstn_length. lia.
      * assert (SB : small b) by (eapply Permutation_Forall; [apply Permutation_sym, rotl_perm|exact SA]).
        rewrite <- (firstn_skipn (S m) b) in SB. apply Forall_app in SB. apply SB.
      * rewrite <- EB, app_length, enc_length, LB. rewrite app_length, enc_length in LR. lia.
      * rewrite update_len. exact LC.
      * intros j J. rewrite nth_update by lia. destruct (Nat.eqb_spec j (S m)); [lia|]. apply C0. lia.
      * replace (S m - 1) with m in E by lia. exists c', x. split; [|split; [exact LC'|]].
        -- rewrite E. do 2 f_equal. f_equal. cbn [arr]. fold b. unfold enc. now rewrite app_assoc, <- map_app.
        -- intros j. rewrite CC. destruct (Nat.ltb_spec j (S m)) as [J|J].
           ++ rewrite (proj2 (Nat.ltb_lt j (S (S m)))) by lia. reflexivity.
           ++ rewrite nth_update by lia. destruct (Nat.eqb_spec j (S m)) as [->|N].
              ** rewrite (proj2 (Nat.ltb_lt (S m) (S (S m)))) by lia. reflexivity.
              ** destruct (Nat.ltb_spec j (S (S m))); [lia|reflexivity].
Qed.

Lemma perm_get_ok n k x : n < 16 -> k < fact n -> (n <= 12 \/ k = 0) -> perm_new n = Ok x ->
  exists c, perm_get x (Z.of_nat k) = Ok (mkPerm c (table n) n (Z.of_nat k) (enc (arr 16 (digit k) (seq 0 16)))) /\ digits_at k 1 c.
Proof.
  intros N K CASE E. rewrite perm_new_ok in E by exact N. assert (EX : mkPerm (repeat 0%Z 16) (table n) n 0 (repeat 0%Z 16) = x) by congruence. subst x. unfold perm_get. cbn [p_fact p_n p_cnt].
  replace (map (fun i => Z.of_nat i + 1)%Z (seq 0 16)) with (enc (seq 0 n) ++ enc (seq n (16 - n))).
  2: { unfold enc. rewrite <- map_app. f_equal. replace n with (0 + n) at 2 by lia. rewrite <- seq_app. f_equal. lia. }
  destruct (get_rounds_ok (table n) k n (seq 0 n) (enc (seq n (16 - n))) (repeat 0%Z 16)) as (c & y & EG & LC & CC).
  - intros i I. exists (wrap 4 (zfact i)). split; [apply table_get_ok; lia|]. pose proof (zfact_pos i ltac:(lia)) as FP.
    split; [exact FP|]. destruct CASE as [N12| ->].
    + rewrite zfact_small by lia. rewrite <- Nat2Z.inj_div, <- Nat2Z.inj_mod, mod_split. pose proof (fact_pos i) as PI.
      assert (M : k mod fact i < fact i) by (apply Nat.mod_upper_bound; lia).
      split; f_equal.
      * rewrite Nat.add_comm, Nat.div_add by lia. rewrite Nat.div_small by exact M. lia.
      * rewrite Nat.add_comm, Nat.mod_add by lia. now rewrite Nat.mod_mod by lia.
    + pose proof (fact_pos i). pose proof (fact_pos (S i)). rewrite !Nat.mod_0_l by lia. rewrite digit_0_index. cbn [Z.of_nat].
      rewrite Z.div_0_l, Z.mod_0_l by lia. split; reflexivity.
  - apply seq_length.
  - apply Forall_forall. intros j J. apply in_seq in J. lia.
  - rewrite app_length, !enc_length, !seq_length. lia.
  - reflexivity.
  - intros j J. apply nth_error_repeat. lia.
  - rewrite (Nat.mod_small k (fact n) K) in EG. rewrite EG. cbn [bind fst snd]. exists c. split.
    + f_equal. f_equal.
      * assert (BK : (Z.of_nat k < 2 ^ 32)%Z).
        { destruct CASE as [N12| ->]; [|reflexivity]. pose proof zfact_12. pose proof (fact_le n 12 N12). change (2 ^ 31)%Z with 2147483648%Z in *.
          change (2 ^ 32)%Z with 4294967296%Z. clear - H H0 K. remember (fact 12) as q. clear Heqq. lia. }
        unfold wrap, modulus, bits. change (8 * Z.of_nat 4)%Z with 32%Z. rewrite Z.mod_small; lia.
      * rewrite (perm16 n k) by (try lia; exact K). unfold enc. rewrite map_app. f_equal. f_equal. unfold permutation_number.
        now rewrite arrange_arr by exact K.
    + split; [exact LC|]. intros j J. rewrite CC, low_1. destruct (Nat.ltb_spec j n) as [JN|JN]; [reflexivity|].
      rewrite (digit_high k n) by assumption. apply nth_error_repeat. exact J.
Qed.

(** ** The loop over the permutations *)
Lemma fact_lt n m : n <= m -> 0 < m -> fact n < fact (S m).
Proof.
  intros H M. apply Nat.le_lt_trans with (fact m); [now apply fact_le|]. rewrite fact_S. pose proof (fact_pos m) as P.
  revert P. generalize (fact m). intros q P. destruct m; [lia|]. cbn [Nat.mul]. lia.
Qed.
Definition range (g : nat -> nat) (j c : nat) : list (bool * nat) := map (entry g) (seq j c).
Lemma range_S g j c : range g j (S c) = entry g j :: range g (S j) c.
Proof. reflexivity. Qed.

Lemma perm_next_ok k c t n : S k < fact 16 -> (Z.of_nat (S k) < 2 ^ 32)%Z -> digits_at k 1 c ->
  exists c', perm_next (mkPerm c t n (Z.of_nat k) (enc (arr 16 (digit k) (seq 0 16)))) =
    Ok (mkPerm c' t n (Z.of_nat (S k)) (enc (arr 16 (digit (S k)) (seq 0 16)))) /\ digits_at (S k) 1 c'.
Proof.
  intros K B D. unfold perm_next, next_permutation. cbn [p_perm p_cnt p_fact p_n p_count].
  rewrite enc_length, arr_length, seq_length.
  destruct (next_from_ok 15 1 k c eq_refl) as (c' & E & D'); [intros j J; replace j with 0 by lia; apply digit_0|exact K|exact D|].
  rewrite (arr_ext 16 (low 1 (digit k)) (digit k)) in E by (intros j _; apply low_1).
  change (16 - 1) with 15. rewrite E. cbn [bind fst snd]. exists c'. split; [|exact D'].
  replace (wrap 4 (Z.of_nat k + 1)) with (Z.of_nat (S k)); [reflexivity|].
  unfold wrap, modulus, bits. change (8 * Z.of_nat 4)%Z with 32%Z. rewrite Z.mod_small; lia.
Qed.

Lemma work_ok n x (g : nat -> nat) j c : n < 16 -> perm_new n = Ok x -> (n <= 12 \/ j = 0) -> j < fact n ->
  j + c <= fact n -> (Z.of_nat (j + c) < 2 ^ 32)%Z ->
  (forall k, k < j + c -> flips (permutation_number n k) (g k)) -> (forall k, Z.of_nat (g k) <= 65536)%Z ->
  evals (fun f => work f x (Z.of_nat j) (Z.of_nat (j + c))) (i32_of (contribs (range g j c)), Z.of_nat (most (range g j c))).
Proof.
  intros N E CASE J JC B G GB.
  assert (EJ : i32_of (Z.of_nat j) = Z.of_nat j).
  { apply i32_of_small. destruct CASE as [N12| ->]; [|split; [discriminate|reflexivity]].
    pose proof zfact_12 as Z12. pose proof (fact_le n 12 N12) as FL. clear - Z12 FL J. revert Z12 FL. generalize (fact 12). intros q Z12 FL. lia. }
  destruct (perm_get_ok n j x N J CASE E) as (c0 & EG & D0).
  unfold work. rewrite EJ, EG. unfold call at 1. cbn [pbind].
  enough (X : forall c j c0 M C, j + c <= fact n -> (Z.of_nat (j + c) < 2 ^ 32)%Z -> digits_at j 1 c0 ->
    (forall k, k < j + c -> flips (permutation_number n k) (g k)) ->
    exists w, loops (fun w => (p_count (w_perm w) <? wrap 4 (Z.of_nat (j + c)))%Z) (fun f w =>
    ff <~ count_flips f (w_p w) ;;
    let flips := snd ff in
    let checksum := i32_add (w_checksum w) (if p_count (w_perm w) mod 2 =? 0 then flips else i32_neg flips)%Z in
    let maxflips := Z.max (w_maxflips w) flips in
    perm <~ call (perm_next (w_perm w)) ;;
    ret (mkWork perm (p_perm perm) checksum maxflips))
      (mkWork (mkPerm c0 (table n) n (Z.of_nat j) (enc (arr 16 (digit j) (seq 0 16)))) (enc (arr 16 (digit j) (seq 0 16))) (i32_of C) (Z.of_nat M)) w /\
      w_checksum w = i32_of (C + contribs (range g j c)) /\ w_maxflips w = Z.of_nat (Nat.max M (most (range g j c)))).
  { destruct (X c j c0 0 0%Z JC B D0 G) as (w & L & EC & EM). apply loops_evals in L.
    eapply evals_bind; [exact L|]. cbv beta. rewrite EC, EM. apply evals_ret. }
  assert (W : forall v, (Z.of_nat v < 2 ^ 32)%Z -> wrap 4 (Z.of_nat v) = Z.of_nat v).
  { intros v V. unfold wrap, modulus, bits. change (8 * Z.of_nat 4)%Z with 32%Z. rewrite Z.mod_small; lia. }
  clear - N GB W. induction c as [|c IH]; intros j c0 M C JC B D G.
  - eexists. split.
    + apply loops_done. cbn [w_perm p_count]. rewrite W by exact B. apply Z.ltb_ge. lia.
    + cbn [w_checksum w_maxflips]. unfold range, most. cbn [seq map contribs fold_right list_max]. split; f_equal; lia.
  - assert (JK : j < fact n) by lia.
    assert (BJ : (Z.of_nat (S j) < 2 ^ 32)%Z) by lia.
    assert (K16 : S j < fact 16).
    { apply Nat.le_lt_trans with (fact n); [exact JK|]. apply (fact_lt n 15); lia. }
    destruct (perm_next_ok j c0 (table n) n K16 BJ D) as (c1 & EN & D1). clear K16.
    assert (PA : Permutation (arr 16 (digit j) (seq 0 16)) (seq 0 16)) by apply arr_perm.
    assert (FL : flips (arr 16 (digit j) (seq 0 16)) (g j)).
    { rewrite (perm16 n j) by (try lia; exact JK). destruct n as [|n'] eqn:EN0.
      - pose proof (G j ltac:(lia)) as F0. change (permutation_number 0 j) with (@nil nat) in *.
        rewrite (flips_fun _ _ F0 0 (flips_done [] eq_refl)). now apply flips_done.
      - apply (flips_app (S n')); [apply G; lia|apply arrange_perm; exact JK|].
        assert (LP : length (permutation_number (S n') j) = S n').
        { unfold permutation_number. rewrite (Permutation_length (arrange_perm (S n') j (seq 0 (S n')) JK)). apply seq_length. }
        intros Q. rewrite Q in LP. discriminate LP. }
    destruct (count_flips_ok _ _ FL PA (GB j)) as (p & EV).
    destruct (IH (S j) c1 (Nat.max M (g j)) (C + contrib (entry g j))%Z) as (w & L & EC & EM);
      [lia|replace (S j + c) with (j + S c) by lia; exact B|exact D1|intros k K; apply G; lia|].
    exists w. split.
    + replace (j + S c) with (S j + c) by lia. eapply loops_step; [| |exact L].
      * cbn [w_perm p_count]. rewrite W by (replace (S j + c) with (j + S c) by lia; exact B). apply Z.ltb_lt. lia.
      * cbv zeta. cbn [w_p w_perm w_checksum w_maxflips p_count].
        eapply evals_bind; [exact EV|]. cbv beta. cbn [snd]. rewrite EN. unfold call. cbn [pbind p_perm].
        replace (i32_add (i32_of C) (if (Z.of_nat j mod 2 =? 0)%Z then Z.of_nat (g j) else i32_neg (Z.of_nat (g j))))
          with (i32_of (C + contrib (entry g j))).
        -- replace (Z.max (Z.of_nat M) (Z.of_nat (g j))) with (Z.of_nat (Nat.max M (g j))) by lia. apply evals_ret.
        -- unfold i32_add. rewrite i32_of_idem. f_equal. f_equal. unfold contrib, entry. cbn [fst snd].
           pose proof (GB j) as GJ. unfold i32_neg. rewrite i32_of_small by lia.
           destruct (Nat.odd j) eqn:O; destruct (Z.eqb_spec (Z.of_nat j mod 2) 0) as [Q|Q]; try reflexivity; exfalso; clear - O Q.
           ++ apply Nat.odd_spec in O as [q ->]. lia.
           ++ rewrite <- Nat.negb_even in O. apply negb_false_iff, Nat.even_spec in O as [q ->]. lia.
    + rewrite EC, EM, range_S. cbn [contribs fold_right]. fold (contribs (range g (S j) c)).
      unfold most. cbn [map snd list_max fold_right entry]. fold (list_max (map snd (range g (S j) c))). split; f_equal; lia.
Qed.

(** The whole scalar version, also where the number of permutations has wrapped. *)
Definition counted (n : nat) : nat := Z.to_nat (Z.of_nat (fact n) mod 2 ^ 32).
Lemma counted_le n : counted n <= fact n.
Proof.
  unfold counted. assert (X : (0 <= Z.of_nat (fact n) mod 2 ^ 32 <= Z.of_nat (fact n))%Z).
  { split; [apply Z.mod_pos_bound; reflexivity|]. apply Z.mod_le; [lia|reflexivity]. }
  clear - X. revert X. generalize (Z.of_nat (fact n) mod 2 ^ 32)%Z. intros y X. lia.
Qed.
Lemma counted_12 n : n <= 12 -> counted n = fact n.
Proof.
  intros H. unfold counted. pose proof zfact_12 as Z12. pose proof (fact_le n 12 H) as FL.
  rewrite Z.mod_small; [lia|]. clear - Z12 FL. revert Z12 FL. generalize (fact 12). intros q Z12 FL. lia.
Qed.
Lemma scalar_ok n fs : n < 16 -> flips_of_first n (counted n) fs -> Forall (fun f => Z.of_nat f <= 65536)%Z fs ->
  evals (fun f => scalar_fannkuch f n) (i32_of (alternating fs), Z.of_nat (list_max fs)).
Proof.
  intros N [L F] B.
  set (g := fun k => nth k fs 0).
  assert (GB : forall k, (Z.of_nat (g k) <= 65536)%Z).
  { intros k. unfold g. destruct (Nat.lt_ge_cases k (length fs)).
    - eapply Forall_forall in B; [exact B|]. now apply nth_In.
    - rewrite nth_overflow by assumption. lia. }
  assert (EG : map g (seq 0 (counted n)) = fs) by (rewrite <- L; apply map_nth_all).
  assert (CB : (Z.of_nat (counted n) = Z.of_nat (fact n) mod 2 ^ 32)%Z).
  { unfold counted. rewrite Z2Nat.id; [reflexivity|]. apply Z.mod_pos_bound. reflexivity. }
  assert (CP : (0 < Z.of_nat (counted n))%Z).
  { rewrite CB, zfact_ok. clear - N. do 16 (destruct n as [|n]; [vm_compute; reflexivity|]). lia. }
  assert (CL : (Z.of_nat (counted n) < 2 ^ 32)%Z) by (rewrite CB; apply Z.mod_pos_bound; reflexivity).
  unfold scalar_fannkuch.
  replace (Z.to_nat (wrap 4 (Z.of_nat n))) with n.
  2: { unfold wrap, modulus, bits. change (2 ^ (8 * Z.of_nat 4))%Z with 4294967296%Z. rewrite Z.mod_small; lia. }
  eapply evals_bind; [apply evals_call, (perm_new_ok n N)|].
  eapply evals_bind; [apply evals_call; unfold perm_max; cbn [p_fact p_n]; apply table_get_ok; lia|].
  replace (wrap 4 (zfact n)) with (Z.of_nat (counted n)) by (rewrite CB, zfact_ok; reflexivity).
  rewrite (proj2 (Z.ltb_lt _ _) CP), Z.min_id.
  assert (W : evals (fun f => work f (mkPerm (repeat 0%Z 16) (table n) n 0 (repeat 0%Z 16)) 0 (Z.of_nat (counted n)))
    (i32_of (contribs (range g 0 (counted n))), Z.of_nat (most (range g 0 (counted n))))).
  { apply (work_ok n _ g 0 (counted n)); auto.
    - now apply perm_new_ok.
    - apply fact_pos.
    - apply counted_le.
    - intros k K. apply F. apply nth_error_nth'. rewrite L. exact K. }
  eapply evals_bind; [exact W|]. cbv beta. cbn [fst snd].
  change (range g 0 (counted n)) with (upto g (counted n)). rewrite most_upto, <- alternating_upto, EG.
  assert (E0 : i32_add 0 (i32_of (alternating fs)) = i32_of (alternating fs)).
  { unfold i32_add. rewrite Z.add_comm, i32_of_idem. f_equal. lia. }
  rewrite E0, Z.max_r by lia. apply evals_ret.
Qed.

(** Too large a size. *)
Lemma loop_first {A} c s (a : A) body : body s a = Panic -> for_loop (S c) s a body = Panic.
Proof. intros H. cbn [for_loop]. now rewrite H. Qed.
Lemma loop_split {A} c d s (a b : A) body : for_loop c s a body = Ok b -> for_loop (c + d) s a body = for_loop d (s + c) b body.
Proof.
  revert s a. induction c as [|c IH]; intros s a H.
  - cbn in *. injection H as ->. now rewrite Nat.add_0_r.
  - cbn [for_loop Nat.add] in *. destruct (body s a) as [a'| |]; cbn [bind] in *; try discriminate H.
    rewrite (IH (S s) a' H). f_equal. lia.
Qed.
Lemma simd_too_large f tg n : 16 < n -> simd_fannkuch f tg n = Some Panic.
Proof.
  intros H. unfold simd_fannkuch. rewrite popmasks_ok. unfold call at 1. cbn [pbind]. cbv zeta. cbn [fst snd].
  replace n with (16 + S (n - 17)) by lia.
  assert (E : exists s, for_loop 16 0 (map Z.of_nat (rot_ix 15)) (fun i s => aset s i (wrap 1 (Z.of_nat i))) = Ok s /\ length s = 16).
  { eexists. split; [vm_compute; reflexivity|reflexivity]. }
  destruct E as (s & E & L). rewrite (loop_split 16 _ _ _ _ _ E), loop_first; [reflexivity|].
  unfold aset. rewrite L. reflexivity.
Qed.
Lemma scalar_too_large f n : 16 <= n -> (Z.of_nat n < 2 ^ 32)%Z -> scalar_fannkuch f n = Some Panic.
Proof.
  intros H B. unfold scalar_fannkuch. replace (Z.to_nat (wrap 4 (Z.of_nat n))) with n.
  2: { unfold wrap, modulus, bits. change (8 * Z.of_nat 4)%Z with 32%Z. rewrite Z.mod_small; lia. }
  unfold perm_new. replace n with (15 + S (n - 16)) at 1 by lia.
  match goal with |- context [for_loop (15 + _) 1 ?a ?b] => assert (E : exists s, for_loop 15 1 a b = Ok s /\ length s = 16) end.
  { eexists. split; [vm_compute; reflexivity|reflexivity]. }
  destruct E as (s & E & L). rewrite (loop_split 15 _ _ _ _ _ E), loop_first; [reflexivity|].
  change (1 + 15) with 16. destruct (aget s (16 - 1)) as [v| |] eqn:Q; cbn [bind].
  - unfold aset. rewrite L. reflexivity.
  - reflexivity.
  - unfold aget in Q. destruct (nth_error s (16 - 1)); discriminate Q.
Qed.

(** ** The theorems *)
Lemma i32_of_as x r : as_i32 x r -> i32_of x = r.
Proof.
  intros [B M]. replace x with ((x - r) + r)%Z by lia. apply Z.div_exact in M; [|discriminate].
  rewrite M. generalize ((x - r) / 2 ^ 32)%Z. intros q. rewrite <- (i32_of_small r B) at 2.
  unfold i32_of. f_equal. unfold wrap, modulus, bits. change (2 ^ (8 * Z.of_nat 4))%Z with (2 ^ 32)%Z.
  rewrite Z.add_comm, Z.mul_comm. apply Z.mod_add. discriminate.
Qed.
Lemma as_i32_exists x : as_i32 x (i32_of x).
Proof.
  unfold as_i32, i32_of, sval, wrap, bits, modulus, bits. cbn [Z.of_nat Pos.of_succ_nat Z.mul Pos.mul Pos.succ Pos.add].
  change (2 ^ (32 - 1))%Z with 2147483648%Z. change (2 ^ 32)%Z with 4294967296%Z. change (2 ^ 31)%Z with 2147483648%Z.
  destruct (Z.ltb_spec (x mod 4294967296) 2147483648); lia.
Qed.
Lemma flips_of_first_fun n m fs fs' : flips_of_first n m fs -> flips_of_first n m fs' -> fs = fs'.
Proof.
  intros [L F] [L' F']. apply nth_error_ext; [congruence|]. intros k x y HX HY. eapply flips_fun; eauto.
Qed.
Lemma flips_bound n m fs : n <= 16 -> m <= fact n -> flips_of_first n m fs -> Forall (fun f => Z.of_nat f <= 65536)%Z fs.
Proof. intros N M F. destruct (flips_all n m N M) as (fs' & F' & B). now rewrite (flips_of_first_fun n m fs fs' F F'). Qed.

Lemma fannkuch_simd tg n checksum maxflips r : 0 < t_ptr tg -> n <= 16 -> is_fannkuch n checksum maxflips -> as_i32 checksum r ->
  exists F, forall fuel, F <= fuel -> simd_fannkuch fuel tg n = Some (Ok (r, Z.of_nat maxflips)).
Proof.
  intros P N (fs & F & -> & ->) R. rewrite <- (i32_of_as _ _ R). apply (simd_ok tg n fs P N F). now apply (flips_bound n (fact n)).
Qed.
Lemma fannkuch_scalar_first n fs r : n < 16 -> flips_of_first n (Z.to_nat (Z.of_nat (fact n) mod 2 ^ 32)) fs -> as_i32 (alternating fs) r ->
  exists F, forall fuel, F <= fuel -> scalar_fannkuch fuel n = Some (Ok (r, Z.of_nat (list_max fs))).
Proof.
  intros N F R. rewrite <- (i32_of_as _ _ R). apply (scalar_ok n fs N F). apply (flips_bound n (counted n)); [lia|apply counted_le|exact F].
Qed.
Lemma fannkuch_scalar n checksum maxflips r : n <= 12 -> is_fannkuch n checksum maxflips -> as_i32 checksum r ->
  exists F, forall fuel, F <= fuel -> scalar_fannkuch fuel n = Some (Ok (r, Z.of_nat maxflips)).
Proof.
  intros N (fs & F & -> & ->) R. apply fannkuch_scalar_first; [lia| |exact R].
  change (flips_of_first n (counted n) fs). rewrite counted_12 by exact N. exact F.
Qed.
Lemma fannkuch_exists n : n <= 16 -> exists checksum maxflips, is_fannkuch n checksum maxflips.
Proof. intros N. destruct (flips_all n (fact n) N (le_n _)) as (fs & F & _). exists (alternating fs), (list_max fs), fs. auto. Qed.
Lemma fannkuch_unique n c m c' m' : is_fannkuch n c m -> is_fannkuch n c' m' -> c = c' /\ m = m'.
Proof. intros (fs & F & -> & ->) (fs' & F' & -> & ->). now rewrite (flips_of_first_fun _ _ _ _ F F'). Qed.
Lemma fannkuch_agree tg n : 0 < t_ptr tg -> n <= 12 ->
  exists r F, forall fuel, F <= fuel -> simd_fannkuch fuel tg n = Some (Ok r) /\ scalar_fannkuch fuel n = Some (Ok r).
Proof.
  intros P N. destruct (fannkuch_exists n) as (c & m & X); [lia|].
  destruct (fannkuch_simd tg n c m _ P ltac:(lia) X (as_i32_exists c)) as [F A].
  destruct (fannkuch_scalar n c m _ N X (as_i32_exists c)) as [F' B].
  exists (i32_of c, Z.of_nat m), (F + F'). intros fuel L. split; [apply A|apply B]; lia.
Qed.

Lemma each_number n p : Permutation p (seq 0 n) -> exists! k, k < fact n /\ permutation_number n k = p.
Proof.
  intros P. destruct (arrange_onto n (seq 0 n) p (seq_length _ _) P) as (k & K & E). exists k. split; [auto|].
  intros k' [K' E']. apply (arrange_inj n (seq 0 n)); auto using seq_length, seq_NoDup. unfold permutation_number in E'. congruence.
Qed.
Lemma numbers_are_permutations n k : k < fact n -> Permutation (permutation_number n k) (seq 0 n).
Proof. apply arrange_perm. Qed.
Lemma list_max_in l : l <> [] -> In (list_max l) l.
Proof.
  induction l as [|x l IH]; [contradiction|]. intros _. cbn [list_max fold_right]. fold (list_max l). destruct l as [|y l].
  - left. cbn. lia.
  - destruct (Nat.max_spec x (list_max (y :: l))) as [[_ ->]|[_ ->]]; [right; apply IH; discriminate|now left].
Qed.
Lemma fannkuch_max n c m : is_fannkuch n c m ->
  (forall p f, Permutation p (seq 0 n) -> flips p f -> f <= m) /\ (exists p, Permutation p (seq 0 n) /\ flips p m).
Proof.
  intros (fs & [L F] & _ & ->). split.
  - intros p f P X. destruct (each_number n p P) as (k & [K E] & _).
    destruct (nth_error fs k) as [f'|] eqn:Q; [|apply nth_error_None in Q; lia].
    pose proof (F k f' Q) as X'. rewrite E in X'. rewrite (flips_fun p f X f' X').
    pose proof (proj1 (list_max_le fs (list_max fs)) (le_n _)) as A. eapply Forall_forall in A; [exact A|]. eapply nth_error_In; eauto.
  - assert (NE : fs <> []) by (intros ->; pose proof (fact_pos n); cbn in L; lia).
    apply list_max_in in NE. apply In_nth_error in NE as [k Q]. exists (permutation_number n k). split; [|now apply F].
    apply numbers_are_permutations. rewrite <- L. apply nth_error_Some. congruence.
Qed.

Lemma range_map (fs : list nat) j c : j + c <= length fs -> map (fun k => nth k fs 0) (seq j c) = firstn c (skipn j fs).
Proof.
  revert j. induction c as [|c IH]; intros j H; [reflexivity|]. cbn [seq map]. rewrite IH by lia.
  destruct (split_at fs j ltac:(lia)) as (a & y & r & -> & La).
  rewrite app_nth2, La, Nat.sub_diag by lia. rewrite !skipn_app, La, (skipn_all2 a), (skipn_all2 a) by lia.
  replace (S j - j) with 1 by lia. rewrite Nat.sub_diag. reflexivity.
Qed.
Lemma contribs_range g j c : (contribs (range g j c) = alternating (map g (seq 0 (j + c))) - alternating (map g (seq 0 j)))%Z.
Proof.
  rewrite !alternating_upto. unfold range, upto. rewrite seq_app, map_app, contribs_app. cbn [Nat.add]. lia.
Qed.
Lemma fannkuch_range n x j max fs r : n <= 12 -> perm_new n = Ok x -> j < max -> max <= fact n -> flips_of_first n (fact n) fs ->
  as_i32 (alternating (firstn max fs) - alternating (firstn j fs)) r ->
  exists F, forall fuel, F <= fuel -> work fuel x (Z.of_nat j) (Z.of_nat max) = Some (Ok (r, Z.of_nat (list_max (firstn (max - j) (skipn j fs))))).
Proof.
  intros N E J M F R. rewrite <- (i32_of_as _ _ R).
  pose proof (flips_bound n (fact n) fs ltac:(lia) (le_n _) F) as B. destruct F as [L F].
  assert (GB : forall k, (Z.of_nat (nth k fs 0%nat) <= 65536)%Z).
  { intros k. destruct (Nat.lt_ge_cases k (length fs)).
    - eapply Forall_forall in B; [exact B|]. now apply nth_In.
    - rewrite nth_overflow by assumption. lia. }
  replace max with (j + (max - j)) at 1 by lia.
  pose proof (work_ok n x (fun k => nth k fs 0) j (max - j) ltac:(lia) E (or_introl N) ltac:(lia) ltac:(lia)) as W.
  rewrite contribs_range in W. unfold most, range in W. rewrite map_map in W. cbn [snd entry] in W.
  rewrite !range_map in W by lia. cbn [skipn] in W. replace (j + (max - j)) with max in * by lia.
  apply W; [| |exact GB].
  - pose proof zfact_12 as Z12. pose proof (fact_le n 12 N) as FL. clear - Z12 FL M. revert Z12 FL. generalize (fact 12). intros q Z12 FL. lia.
  - intros k K. apply F. apply nth_error_nth'. lia.
Qed.
