(** The fannkuch redux example. *)
From Coq Require Import ZArith List Bool Lia ZifyBool ZifyNat Arith Factorial Permutation.
From Verif.Model Require Import Base Tables Arch Minimal ShuffleDyn ExFannkuch.
From Verif.Spec Require Import Spec Permutations.
From Verif.Proofs Require Import Lib ShuffleDynP PermP ExSumP.
Import ListNotations.
Open Scope nat_scope.

(** ** Programs that end *)
Definition evals {A} (p : nat -> prog A) (r : A) : Prop := exists F, forall f, F <= f -> p f = ret r.
Lemma evals_ret {A} (r : A) : evals (fun _ => ret r) r.
Proof. now exists 0. Qed.
Lemma evals_call {A} x (r : A) : x = Ok r -> evals (fun _ => call x) r.
Proof. intros ->. now exists 0. Qed.
Lemma evals_bind {A B} p (q : nat -> A -> prog B) a b : evals p a -> evals (fun f => q f a) b -> evals (fun f => pbind (p f) (q f)) b.
Proof.
  intros [F H] [G K]. exists (F + G). intros f L. rewrite H by lia. unfold ret. cbn [pbind]. apply K. lia.
Qed.
Definition loops {S} (cond : S -> bool) (body : nat -> S -> prog S) (s r : S) : Prop :=
  exists F, forall f g, F <= f -> F <= g -> while g cond (body f) s = ret r.
Lemma loops_done {S} cond body (s : S) : cond s = false -> loops cond body s s.
Proof. intros H. exists 0. intros f [|g] _ _; cbn [while]; now rewrite H. Qed.
Lemma loops_step {S} cond body (s s' r : S) : cond s = true -> evals (fun f => body f s) s' -> loops cond body s' r -> loops cond body s r.
Proof.
  intros H [F K] [G L]. exists (Datatypes.S (F + G)). intros f [|g] LF LG; [lia|]. cbn [while]. rewrite H, K by lia.
  unfold ret. cbn [pbind]. apply L; lia.
Qed.
Lemma loops_evals {S} cond body (s r : S) : loops cond body s r -> evals (fun f => while f cond (body f) s) r.
Proof. intros [F H]. exists F. intros f L. now apply H. Qed.

(** ** i32 *)
Lemma i32_of_small x : (- 2 ^ 31 <= x < 2 ^ 31)%Z -> i32_of x = x.
Proof.
  intros H. unfold i32_of, sval, wrap, bits, modulus, bits. cbn [Z.of_nat Pos.of_succ_nat Z.mul Pos.mul Pos.succ Pos.add].
  change (2 ^ (32 - 1))%Z with 2147483648%Z. change (2 ^ 32)%Z with 4294967296%Z. change (2 ^ 31)%Z with 2147483648%Z in H.
  destruct (Z.ltb_spec (x mod 4294967296) 2147483648); lia.
Qed.
Lemma i32_of_idem x y : i32_of (i32_of x + y) = i32_of (x + y).
Proof.
  unfold i32_of. f_equal. unfold sval, wrap, bits, modulus, bits. cbn [Z.of_nat Pos.of_succ_nat Z.mul Pos.mul Pos.succ Pos.add].
  change (2 ^ (32 - 1))%Z with 2147483648%Z. change (2 ^ 32)%Z with 4294967296%Z.
  destruct (Z.ltb_spec (x mod 4294967296) 2147483648); lia.
Qed.

(** ** Lists of numbers *)
Lemma map_nth_seq (v : list Z) a c : a + c <= length v -> map (fun j => nth j v 0%Z) (seq a c) = firstn c (skipn a v).
Proof.
  revert a. induction c as [|c IH]; intros a H; [reflexivity|]. cbn [seq map].
  rewrite IH by lia. destruct (skipn a v) as [|x r] eqn:Q.
  - assert (L : length (skipn a v) = 0) by now rewrite Q. rewrite skipn_length in L. lia.
  - cbn [firstn]. assert (X : nth a v 0%Z = x).
    { rewrite <- (firstn_skipn a v), Q, app_nth2; rewrite firstn_length; [|lia].
      replace (a - Nat.min a (length v)) with 0 by lia. reflexivity. }
    assert (Y : skipn (S a) v = r).
    { clear - Q. revert v Q. induction a as [|a IH]; intros [|y v] Q; try discriminate Q.
      - cbn in *. now inversion Q.
      - cbn [skipn] in *. now apply IH. }
    now rewrite X, Y.
Qed.

Definition bytes (v : list Z) : Prop := Forall (fun x => 0 <= x < 256)%Z v.

Lemma dyn_map tg v ix : 0 < t_ptr tg -> length v = 16 -> bytes v -> length ix = 16 -> Forall (fun j => j < 16) ix ->
  shuffle1_dyn tg false u8x16 v (map Z.of_nat ix) = Ok (map (fun j => nth j v 0%Z) ix).
Proof.
  intros P L B LI I.
  destruct (shuffle1_dyn_in_range tg false u8x16 v (map Z.of_nat ix) P) as (r & E & [LR _] & A).
  - vm_compute. repeat split; lia.
  - cbn. lia.
  - split; [exact L|]. exact B.
  - split; [cbn; rewrite map_length; exact LI|]. apply Forall_map. eapply Forall_impl; [|exact I].
    cbv beta. intros a Ha. cbn. lia.
  - intros k i H. unfold lane in H. rewrite nth_error_map in H. destruct (nth_error ix k) as [j|] eqn:J; [|discriminate].
    injection H as <-. assert (j < 16) by (eapply Forall_forall in I; [exact I|eapply nth_error_In; eauto]). cbn. lia.
  - rewrite E. f_equal. apply nth_error_ext.
    + rewrite map_length, LI. exact LR.
    + intros k x y HX HY. rewrite nth_error_map in HY. destruct (nth_error ix k) as [j|] eqn:J; [|discriminate].
      injection HY as <-.
      assert (JB : j < 16) by (eapply Forall_forall in I; [exact I|eapply nth_error_In; eauto]).
      assert (X : lane r k (nth j v 0%Z)).
      { apply (A k (Z.of_nat j)); unfold lane.
        - rewrite nth_error_map, J. reflexivity.
        - rewrite Nat2Z.id. apply nth_error_nth'. lia. }
      unfold lane in X. rewrite HX in X. now injection X.
Qed.

(** ** The sums *)
Definition contrib (e : bool * nat) : Z := if fst e then (- Z.of_nat (snd e))%Z else Z.of_nat (snd e).
Definition contribs (l : list (bool * nat)) : Z := fold_right (fun e a => contrib e + a)%Z 0%Z l.
Definition most (l : list (bool * nat)) : nat := list_max (map snd l).
Lemma contribs_app a b : contribs (a ++ b) = (contribs a + contribs b)%Z.
Proof.
  induction a as [|e a IH]; [reflexivity|]. cbn [app contribs fold_right]. fold (contribs (a ++ b)) (contribs a). lia.
Qed.
Lemma most_app a b : most (a ++ b) = Nat.max (most a) (most b).
Proof. unfold most. rewrite map_app. apply list_max_app. Qed.
Definition entry (g : nat -> nat) (k : nat) : bool * nat := (Nat.odd k, g k).
Definition upto (g : nat -> nat) (k : nat) : list (bool * nat) := map (entry g) (seq 0 k).
Lemma upto_S g k : upto g (S k) = upto g k ++ [entry g k].
Proof. unfold upto. rewrite seq_S, map_app. reflexivity. Qed.
Lemma contribs_S g k : contribs (upto g (S k)) = (contribs (upto g k) + contrib (entry g k))%Z.
Proof. rewrite upto_S, contribs_app. cbn [contribs fold_right]. lia. Qed.
Lemma most_S g k : most (upto g (S k)) = Nat.max (most (upto g k)) (g k).
Proof. rewrite upto_S, most_app. unfold most at 2. cbn [map list_max fold_right entry snd]. lia. Qed.
Lemma alternating_app a b : alternating (a ++ b) = (alternating a + if Nat.odd (length a) then - alternating b else alternating b)%Z.
Proof.
  induction a as [|x a IH]; [reflexivity|]. cbn [app alternating fold_right length].
  fold (alternating (a ++ b)) (alternating a). rewrite IH, Nat.odd_succ, <- Nat.negb_odd. destruct (Nat.odd (length a)); cbn [negb]; lia.
Qed.
Lemma alternating_upto g k : alternating (map g (seq 0 k)) = contribs (upto g k).
Proof.
  induction k as [|k IH]; [reflexivity|]. rewrite contribs_S, seq_S, map_app, alternating_app, IH, map_length, seq_length.
  cbn [map alternating fold_right Nat.add]. unfold contrib, entry. cbn [fst snd]. destruct (Nat.odd k); lia.
Qed.
Lemma most_upto g k : most (upto g k) = list_max (map g (seq 0 k)).
Proof. unfold most, upto, entry. now rewrite map_map. Qed.

(** The flips of all permutations exist. *)
Lemma flips_all n m : n <= 16 -> m <= fact n -> exists fs, flips_of_first n m fs /\ Forall (fun f => Z.of_nat f <= 65536)%Z fs.
Proof.
  intros N. induction m as [|m IH]; intros H.
  - exists []. split; [|constructor]. split; [reflexivity|]. intros [|k] f Q; discriminate Q.
  - destruct IH as (fs & [L F] & B); [lia|].
    destruct (flips_exist n (permutation_number n m)) as (f & FF & FB); [apply arrange_perm; lia|].
    exists (fs ++ [f]). split; [split|].
    + rewrite app_length, L. cbn. lia.
    + intros k x Q. destruct (Nat.lt_ge_cases k (length fs)) as [K|K].
      * rewrite nth_error_app1 in Q by exact K. now apply F.
      * rewrite nth_error_app2 in Q by exact K. destruct (k - length fs) as [|j] eqn:J; [|destruct j; discriminate Q].
        injection Q as <-. replace k with m by lia. exact FF.
    + apply Forall_app. split; [exact B|]. constructor; [|constructor].
      assert (X : 2 ^ n <= 2 ^ 16) by (apply Nat.pow_le_mono_r; lia). clear - FB X.
      apply Nat2Z.inj_le in X. rewrite (Nat2Z.inj_pow 2 16) in X. change (Z.of_nat 2 ^ Z.of_nat 16)%Z with 65536%Z in X.
      eapply Z.le_trans; [|exact X]. lia.
Qed.
Lemma map_nth_all (fs : list nat) : map (fun k => nth k fs 0) (seq 0 (length fs)) = fs.
Proof.
  induction fs as [|f fs IH]; [reflexivity|]. cbn [length seq map nth]. f_equal. rewrite <- seq_shift, map_map. exact IH.
Qed.

(** ** Arrays, digits and flips *)
Definition low (i : nat) (d : nat -> nat) (j : nat) : nat := if j <? i then 0 else d j.
Lemma digit_0 k : digit k 0 = 0.
Proof. pose proof (digit_lt k 0). lia. Qed.
Lemma nth_update {A} (l : list A) i x j : i < length l -> nth_error (update l i x) j = if j =? i then Some x else nth_error l j.
Proof.
  revert i j. induction l as [|y l IH]; intros i j H; [cbn in H; lia|].
  destruct i as [|i], j as [|j]; cbn [update nth_error Nat.eqb]; try reflexivity. apply IH. cbn in H. lia.
Qed.
Lemma aset_ok {A} (l : list A) i x : i < length l -> aset l i x = Ok (update l i x).
Proof. intros H. unfold aset. apply Nat.ltb_lt in H. now rewrite H. Qed.
Lemma update_len {A} (l : list A) i x : length (update l i x) = length l.
Proof. revert i. induction l as [|y l IH]; intros [|i]; cbn [update length]; auto. Qed.
Lemma low_bump k i : digit k i <= i -> (forall j, j < i -> digit k j = j) -> digit k i = i ->
  forall j, bump (low i (digit k)) i j = low (S i) (digit k) j.
Proof.
  intros _ H D j. unfold bump, low. rewrite Nat.ltb_irrefl, D, Nat.leb_refl.
  destruct (Nat.eqb_spec j i) as [->|N]; [now rewrite (proj2 (Nat.ltb_lt i (S i))) by lia|].
  destruct (Nat.ltb_spec j i), (Nat.ltb_spec j (S i)); try lia; reflexivity.
Qed.
Lemma next_bump k i : (forall j, j < i -> digit k j = j) -> digit k i < i ->
  forall j, bump (low i (digit k)) i j = digit (S k) j.
Proof.
  intros H D j. unfold bump, low. rewrite Nat.ltb_irrefl. destruct (Nat.leb_spec i (digit k i)); [lia|].
  destruct (Nat.eqb_spec j i) as [->|N].
  - rewrite digit_S_carry by exact H. destruct (Nat.leb_spec i (digit k i)); [lia|reflexivity].
  - destruct (Nat.ltb_spec j i).
    + rewrite digit_S_carry by (intros j' J; apply H; lia). rewrite (H j) by assumption. now rewrite Nat.leb_refl.
    + symmetry. apply (digit_S_same k j i); [lia|exact D].
Qed.
Lemma low_1 k j : low 1 (digit k) j = digit k j.
Proof.
  unfold low. destruct (Nat.ltb_spec j 1); [|reflexivity]. replace j with 0 by lia. symmetry. apply digit_0.
Qed.
Lemma flip_nonempty a : a <> [] -> flip a <> [].
Proof.
  intros H Q. assert (L : length (flip a) = length a) by apply Permutation_length, flip_perm.
  rewrite Q in L. destruct a; [contradiction|discriminate].
Qed.
Lemma i32_succ c : (Z.of_nat c < 2 ^ 31 - 1)%Z -> i32_add (Z.of_nat c) 1 = Z.of_nat (S c).
Proof. intros H. unfold i32_add. rewrite i32_of_small; lia. Qed.
Lemma hd_flip h r : h < length (h :: r) -> hd 0 (flip (h :: r)) = nth h (h :: r) 0.
Proof.
  intros H. unfold flip. destruct (split_at (h :: r) h H) as (a & y & r' & E & La). rewrite E.
  replace (firstn (S h) (a ++ y :: r')) with (a ++ [y]).
  - rewrite rev_app_distr. cbn [rev app hd]. rewrite app_nth2 by lia. replace (h - length a) with 0 by lia. reflexivity.
  - replace (a ++ y :: r') with ((a ++ [y]) ++ r') by now rewrite <- app_assoc.
    rewrite firstn_app, firstn_all2 by (rewrite app_length; cbn [length]; lia).
    replace (S h - length (a ++ [y])) with 0 by (rewrite app_length; cbn [length]; lia). cbn [firstn]. now rewrite app_nil_r.
Qed.
Lemma flips_0 a : hd 0 a = 0 -> flips a 0.
Proof. apply flips_done. Qed.
Lemma aget_app {A} (a : list A) x r : aget (a ++ x :: r) (length a) = Ok x.
Proof. unfold aget. now rewrite nth_error_app2, Nat.sub_diag by lia. Qed.

(** ** The vector version *)
Definition flip_ix (i : nat) : list nat := rev (seq 0 (S i)) ++ seq (S i) (15 - i).
Definition rot_ix (i : nat) : list nat := seq 1 i ++ 0 :: seq (S i) (15 - i).
Definition flip_table : list vec := map (fun i => map Z.of_nat (flip_ix i)) (seq 0 16).
Definition rot_table : list vec := map (fun i => map Z.of_nat (rot_ix i)) (seq 0 16).
Lemma popmasks_ok : popmasks = Ok (map Z.of_nat (rot_ix 15), flip_table, rot_table).
Proof. vm_compute. reflexivity. Qed.

Lemma table_get {A} (f : nat -> A) i : i < 16 -> aget (map f (seq 0 16)) i = Ok (f i).
Proof.
  intros H. unfold aget. rewrite nth_error_map, (nth_error_nth' _ 0) by (rewrite seq_length; exact H).
  rewrite seq_nth by exact H. reflexivity.
Qed.

Section Vector.
Variable tg : target.
Hypothesis P : 0 < t_ptr tg.

Lemma flip_dyn_ok v h : length v = 16 -> bytes v -> h < 16 ->
  flip_dyn tg flip_table v (Z.of_nat h) = Ok (rev (firstn (S h) v) ++ skipn (S h) v).
Proof.
  intros L B H. unfold flip_dyn. rewrite Nat2Z.id. unfold flip_table. rewrite table_get by exact H. cbn [bind].
  rewrite dyn_map; auto.
  - f_equal. unfold flip_ix. rewrite map_app, map_rev, !map_nth_seq by lia. f_equal.
    apply firstn_all2. rewrite skipn_length. lia.
  - unfold flip_ix. rewrite app_length, rev_length, !seq_length. lia.
  - unfold flip_ix. apply Forall_app. split.
    + apply Forall_rev, Forall_forall. intros x X. apply in_seq in X. lia.
    + apply Forall_forall. intros x X. apply in_seq in X. lia.
Qed.
Lemma rotate_dyn_ok v i : length v = 16 -> bytes v -> i < 16 -> rotate_dyn tg rot_table v i = Ok (rot1 i v).
Proof.
  intros L B H. unfold rotate_dyn, rot_table. rewrite table_get by exact H. cbn [bind]. rewrite dyn_map; auto.
  - f_equal. unfold rot_ix, rot1, rotl. rewrite map_app. cbn [map]. rewrite !map_nth_seq by lia.
    destruct v as [|x v]; [discriminate|]. cbn [skipn firstn nth]. rewrite <- app_assoc. cbn [app]. f_equal. f_equal.
    apply firstn_all2. rewrite skipn_length. cbn in L. lia.
  - unfold rot_ix. rewrite app_length. cbn [length]. rewrite !seq_length. lia.
  - unfold rot_ix. apply Forall_app. split; [|constructor; [lia|]];
      apply Forall_forall; intros x X; apply in_seq in X; lia.
Qed.

Variable n : nat.
Hypothesis N16 : n <= 16.

(** A vector whose first n bytes are a permutation. *)
Definition V (a : list nat) (z : list Z) : vec := map Z.of_nat a ++ z.
Definition tail_ok (z : list Z) : Prop := length z = 16 - n /\ bytes z.
Definition perm_ok (a : list nat) : Prop := Permutation a (seq 0 n).

Lemma perm_length a : perm_ok a -> length a = n.
Proof. intros H. rewrite (Permutation_length H). apply seq_length. Qed.
Lemma perm_lt a x : perm_ok a -> In x a -> x < n.
Proof. intros H I. apply (Permutation_in _ H) in I. apply in_seq in I. lia. Qed.
Lemma V_length a z : perm_ok a -> tail_ok z -> length (V a z) = 16.
Proof. intros A [Z _]. unfold V. rewrite app_length, map_length, (perm_length a A), Z. lia. Qed.
Lemma V_bytes a z : perm_ok a -> tail_ok z -> bytes (V a z).
Proof.
  intros A [_ Z]. apply Forall_app. split; [|exact Z]. apply Forall_map, Forall_forall. intros x X.
  pose proof (perm_lt a x A X). lia.
Qed.
Lemma flip_ok a : perm_ok a -> perm_ok (flip a).
Proof. intros H. unfold perm_ok. rewrite flip_perm. exact H. Qed.

Lemma flip_V a z : perm_ok a -> tail_ok z -> hd 0 a <> 0 ->
  flip_dyn tg flip_table (V a z) (Z.of_nat (hd 0 a)) = Ok (V (flip a) z).
Proof.
  intros A Z H. destruct a as [|h r]; [contradiction|]. cbn [hd] in *.
  assert (HN : h < n) by (apply (perm_lt _ h A); now left).
  rewrite flip_dyn_ok; [|now apply V_length|now apply V_bytes|lia].
  f_equal. pose proof (perm_length _ A) as L. unfold V.
  rewrite firstn_app, skipn_app, map_length. replace (S h - length (h :: r)) with 0 by lia. rewrite firstn_O, skipn_O.
  rewrite app_nil_r, app_assoc. f_equal. unfold flip. now rewrite map_app, map_rev, firstn_map, skipn_map.
Qed.
Lemma extract_V a z : perm_ok a -> tail_ok z -> a <> [] -> extract u8x16 (V a z) 0 = Ok (Z.of_nat (hd 0 a)).
Proof.
  intros A Z NE. destruct a as [|h r]; [contradiction|]. reflexivity.
Qed.

(** One step of the loops. *)
Definition one_body (st : vec * Z * Z) : prog (vec * Z * Z) :=
  perm <~ call (flip_dyn tg flip_table (fst (fst st)) (snd (fst st))) ;;
  toterm <~ call (extract u8x16 perm 0) ;;
  ret (perm, toterm, i32_add (snd st) 1).
Lemma hd_nonempty a : hd 0 a <> 0 -> a <> [].
Proof. now intros H ->. Qed.
Lemma one_step a z c : perm_ok a -> tail_ok z -> hd 0 a <> 0 -> (Z.of_nat c < 2 ^ 31 - 1)%Z ->
  one_body (V a z, Z.of_nat (hd 0 a), Z.of_nat c) = ret (V (flip a) z, Z.of_nat (hd 0 (flip a)), Z.of_nat (S c)).
Proof.
  intros A Z H C. unfold one_body. cbn [fst snd]. rewrite flip_V by assumption. unfold call. cbn [pbind].
  rewrite extract_V; [|now apply flip_ok|assumption|now apply flip_nonempty, hd_nonempty]. cbn [pbind].
  now rewrite i32_succ.
Qed.
Lemma flip_one_ok a k : flips a k -> forall z c, perm_ok a -> tail_ok z -> a <> [] ->
  (Z.of_nat c + Z.of_nat k < 2 ^ 31 - 1)%Z ->
  exists a', evals (fun f => flip_one f tg flip_table (V a z, Z.of_nat (hd 0 a), Z.of_nat c)) (V a' z, 0%Z, Z.of_nat (c + k)).
Proof.
  intros F z c A ZT NE B.
  assert (X : exists a', loops (fun st : vec * Z * Z => negb (snd (fst st) =? 0)%Z) (fun _ => one_body)
    (V a z, Z.of_nat (hd 0 a), Z.of_nat c) (V a' z, 0%Z, Z.of_nat (c + k))).
  { revert c A NE B. induction F as [a H|a k H F IH]; intros c A NE B.
    - exists a. rewrite H, Nat.add_0_r. apply loops_done. reflexivity.
    - destruct (IH (S c)) as (a' & L); [now apply flip_ok|now apply flip_nonempty|lia|].
      exists a'. eapply loops_step; [| |replace (c + S k) with (S c + k) by lia; exact L].
      + cbn [fst snd]. destruct (Z.eqb_spec (Z.of_nat (hd 0 a)) 0); [lia|reflexivity].
      + rewrite one_step by (auto; lia). apply evals_ret. }
  destruct X as (a' & X). exists a'. apply loops_evals in X. exact X.
Qed.

Lemma flip_two_ok a k : flips a k -> forall z c b j y d, flips b j ->
  perm_ok a -> tail_ok z -> a <> [] -> perm_ok b -> tail_ok y -> b <> [] ->
  (Z.of_nat c + Z.of_nat k < 2 ^ 31 - 1)%Z -> (Z.of_nat d + Z.of_nat j < 2 ^ 31 - 1)%Z ->
  exists a' b' k' j' c' d', flips a' k' /\ flips b' j' /\ perm_ok a' /\ perm_ok b' /\ a' <> [] /\ b' <> [] /\
    c' + k' = c + k /\ d' + j' = d + j /\
    evals (fun f => flip_two f tg flip_table
      ((V a z, Z.of_nat (hd 0 a), Z.of_nat c), (V b y, Z.of_nat (hd 0 b), Z.of_nat d)))
      ((V a' z, Z.of_nat (hd 0 a'), Z.of_nat c'), (V b' y, Z.of_nat (hd 0 b'), Z.of_nat d')).
Proof.
  intros F z c b j y d G A ZT NE A' YT NE' B B'.
  set (body := fun st : (vec * Z * Z) * (vec * Z * Z) =>
    perm1 <~ call (flip_dyn tg flip_table (fst (fst (fst st))) (snd (fst (fst st)))) ;;
    perm2 <~ call (flip_dyn tg flip_table (fst (fst (snd st))) (snd (fst (snd st)))) ;;
    toterm1 <~ call (extract u8x16 perm1 0) ;;
    toterm2 <~ call (extract u8x16 perm2 0) ;;
    ret ((perm1, toterm1, i32_add (snd (fst st)) 1), (perm2, toterm2, i32_add (snd (snd st)) 1))).
  assert (X : exists a' b' k' j' c' d', flips a' k' /\ flips b' j' /\ perm_ok a' /\ perm_ok b' /\ a' <> [] /\ b' <> [] /\
    c' + k' = c + k /\ d' + j' = d + j /\
    loops (fun st : (vec * Z * Z) * (vec * Z * Z) => negb (snd (fst (fst st)) =? 0)%Z && negb (snd (fst (snd st)) =? 0)%Z) (fun _ => body)
      ((V a z, Z.of_nat (hd 0 a), Z.of_nat c), (V b y, Z.of_nat (hd 0 b), Z.of_nat d))
      ((V a' z, Z.of_nat (hd 0 a'), Z.of_nat c'), (V b' y, Z.of_nat (hd 0 b'), Z.of_nat d'))).
  { revert b j c d G A NE A' NE' B B'. induction F as [a H|a k H F IH]; intros b j c d G A NE A' NE' B B'.
    - exists a, b, 0, j, c, d. repeat (split; [first [assumption|reflexivity|now constructor]|]).
      apply loops_done. cbn [fst snd]. rewrite H. reflexivity.
    - inversion G as [b0 H'|b0 j0 H' G']; subst.
      + exists a, b, (S k), 0, c, d. repeat (split; [first [assumption|reflexivity|now constructor]|]).
        apply loops_done. cbn [fst snd]. rewrite H'. now rewrite andb_false_r.
      + destruct (IH (flip b) j0 (S c) (S d)) as (a' & b' & k' & j' & c' & d' & FA & FB & PA & PB & NA & NB & EC & ED & L);
          auto using flip_ok, flip_nonempty; try lia.
        exists a', b', k', j', c', d'. repeat (split; [first [assumption|lia]|]).
        eapply loops_step; [| |exact L].
        * cbn [fst snd]. destruct (Z.eqb_spec (Z.of_nat (hd 0 a)) 0), (Z.eqb_spec (Z.of_nat (hd 0 b)) 0); try lia; reflexivity.
        * unfold body. cbn [fst snd]. rewrite !flip_V by assumption. unfold call. cbn [pbind].
          rewrite !extract_V by (auto using flip_ok, flip_nonempty). cbn [pbind].
          rewrite !i32_succ by lia. apply evals_ret. }
  destruct X as (a' & b' & k' & j' & c' & d' & FA & FB & PA & PB & NA & NB & EC & ED & L).
  exists a', b', k', j', c', d'. repeat (split; [assumption|]). apply loops_evals in L. exact L.
Qed.

(** What was collected: each entry has a permutation, with its sign and its flips. *)
Definition pend (p : pending) (e : bool * nat) : Prop :=
  exists a z, p = mkPending (V a z) (Z.of_nat (hd 0 a)) (if fst e then 65535 else 0)%Z /\
    perm_ok a /\ tail_ok z /\ a <> [] /\ flips a (snd e) /\ (Z.of_nat (snd e) <= 65536)%Z.
Lemma new_max_ok m f : new_max (Z.of_nat m) (Z.of_nat f) = Z.of_nat (Nat.max m f).
Proof. unfold new_max. destruct (Z.ltb_spec (Z.of_nat m) (Z.of_nat f)); lia. Qed.
Lemma new_sum_ok p e c : pend p e -> new_sum (i32_of c) p (Z.of_nat (snd e)) = i32_of (c + contrib e).
Proof.
  intros (a & z & -> & _ & _ & _ & _ & B). unfold new_sum, contrib, i32_neg, i32_add. cbn [q_odd].
  destruct (fst e); cbn [Z.eqb]; [rewrite (i32_of_small (- _)) by lia|]; apply i32_of_idem.
Qed.

Lemma pairs_ok N : forall pr lr pd m c, length pr <= N -> Forall2 pend pr lr ->
  exists pd' pr' lr' m' c', pd ++ pr = pd' ++ pr' /\ Forall2 pend pr' lr' /\
    Nat.max m' (most lr') = Nat.max m (most lr) /\ (c' + contribs lr' = c + contribs lr)%Z /\
    evals (fun f => pairs f tg flip_table (pd ++ pr) (length pd, Z.of_nat m, i32_of c)) (length pd', Z.of_nat m', i32_of c').
Proof.
  intros pr lr pd m c LN F.
  enough (X : exists pd' pr' lr' m' c', pd ++ pr = pd' ++ pr' /\ Forall2 pend pr' lr' /\
    Nat.max m' (most lr') = Nat.max m (most lr) /\ (c' + contribs lr' = c + contribs lr)%Z /\
    loops (fun st : nat * Z * Z => Nat.ltb (fst (fst st)) (Nat.max 1 (length (pd ++ pr)) - 1)) (fun f st =>
    let k := fst (fst st) in
    pk <~ call (aget (pd ++ pr) k) ;;
    pk1 <~ call (aget (pd ++ pr) (k + 1)) ;;
    both <~ flip_two f tg flip_table ((q_perm pk, q_start pk, 0%Z), (q_perm pk1, q_start pk1, 0%Z)) ;;
    r1 <~ flip_one f tg flip_table (fst both) ;;
    r2 <~ flip_one f tg flip_table (snd both) ;;
    let f1 := snd r1 in
    let f2 := snd r2 in
    let m := new_max (new_max (snd (fst st)) f1) f2 in
    let c := new_sum (new_sum (snd st) pk f1) pk1 f2 in
    ret ((k + 2)%nat, m, c)) (length pd, Z.of_nat m, i32_of c) (length pd', Z.of_nat m', i32_of c')).
  { destruct X as (pd' & pr' & lr' & m' & c' & E & F' & M & C & L).
    exists pd', pr', lr', m', c'. repeat (split; [assumption|]). apply loops_evals in L. exact L. }
  revert pr lr pd m c LN F. induction N as [N IH] using lt_wf_ind. intros pr lr pd m c LN F.
  destruct F as [|p e pr1 lr1 P1 F]; [|destruct F as [|p2 e2 pr2 lr2 P2 F]].
  1,2: exists pd; eexists; eexists; exists m, c; split; [reflexivity|]; split; [constructor; eauto|];
    split; [reflexivity|]; split; [reflexivity|]; apply loops_done; cbn [fst snd];
    apply Nat.ltb_ge; rewrite app_length; cbn [length]; lia.
  cbn [length] in LN.
  destruct (IH (N - 2) ltac:(lia) pr2 lr2 (pd ++ [p; p2]) (Nat.max (Nat.max m (snd e)) (snd e2)) (c + contrib e + contrib e2)%Z
    ltac:(lia) F) as (pd' & pr' & lr' & m' & c' & E & F' & M & C & L).
  rewrite <- app_assoc in E, L. cbn [app] in E, L.
  exists pd', pr', lr', m', c'. split; [exact E|]. split; [exact F'|].
  split; [rewrite M; unfold most; cbn [map list_max fold_right]; fold (list_max (map snd lr2)); lia|].
  split; [rewrite C; cbn [contribs fold_right]; fold (contribs lr2); lia|].
  eapply loops_step; [| |exact L].
  - cbn [fst snd]. apply Nat.ltb_lt. rewrite app_length. cbn [length]. lia.
  - cbv zeta. cbn [fst snd].
    rewrite aget_app. replace (aget (pd ++ p :: p2 :: pr2) (length pd + 1)) with (Ok p2).
    2: { unfold aget. rewrite nth_error_app2 by lia. replace (length pd + 1 - length pd) with 1 by lia. reflexivity. }
    unfold call. cbn [pbind].
    pose proof (new_sum_ok p e c P1) as S1. pose proof (new_sum_ok p2 e2 (c + contrib e) P2) as S2.
    destruct P1 as (a & z & EP & A & Z1 & NE & FA & B). destruct P2 as (b & y & EP2 & A2 & Z2 & NE2 & FB & B2).
    destruct (flip_two_ok a (snd e) FA z 0 b (snd e2) y 0 FB) as (a' & b' & k' & j' & c1 & d1 & FA' & FB' & PA & PB & NA & NB & EC & ED & EV);
      auto; try lia.
    destruct (flip_one_ok a' k' FA' z c1) as (a'' & EA); auto; try lia.
    destruct (flip_one_ok b' j' FB' y d1) as (b'' & EB); auto; try lia.
    replace (q_perm p) with (V a z) by now rewrite EP. replace (q_start p) with (Z.of_nat (hd 0 a)) by now rewrite EP.
    replace (q_perm p2) with (V b y) by now rewrite EP2. replace (q_start p2) with (Z.of_nat (hd 0 b)) by now rewrite EP2.
    eapply evals_bind; [exact EV|]. eapply evals_bind; [exact EA|]. eapply evals_bind; [exact EB|]. cbn [fst snd].
    replace (c1 + k') with (snd e) by lia. replace (d1 + j') with (snd e2) by lia.
    rewrite !new_max_ok, S1, S2. rewrite app_length. cbn [length]. apply evals_ret.
Qed.

Lemma singles_ok pr : forall lr pd m c, Forall2 pend pr lr ->
  evals (fun f => singles f tg flip_table (pd ++ pr) (length pd, Z.of_nat m, i32_of c))
    (length (pd ++ pr), Z.of_nat (Nat.max m (most lr)), i32_of (c + contribs lr)).
Proof.
  intros lr pd m c F.
  enough (X : loops (fun st : nat * Z * Z => Nat.ltb (fst (fst st)) (length (pd ++ pr))) (fun f st =>
    let k := fst (fst st) in
    pk <~ call (aget (pd ++ pr) k) ;;
    r <~ flip_one f tg flip_table (q_perm pk, q_start pk, 0%Z) ;;
    ret ((k + 1)%nat, new_max (snd (fst st)) (snd r), new_sum (snd st) pk (snd r)))
    (length pd, Z.of_nat m, i32_of c) (length (pd ++ pr), Z.of_nat (Nat.max m (most lr)), i32_of (c + contribs lr))).
  { apply loops_evals in X. exact X. }
  revert lr pd m c F. induction pr as [|p pr IH]; intros lr pd m c F.
  - inversion F; subst. cbn [most map list_max fold_right contribs]. unfold most. cbn [map list_max fold_right].
    rewrite Nat.max_0_r, Z.add_0_r, app_nil_r. apply loops_done. cbn [fst snd]. apply Nat.ltb_irrefl.
  - inversion F as [|p0 e pr0 lr0 P1 F']; subst.
    specialize (IH lr0 (pd ++ [p]) (Nat.max m (snd e)) (c + contrib e)%Z F'). rewrite <- app_assoc in IH. cbn [app] in IH.
    replace (Nat.max m (most (e :: lr0))) with (Nat.max (Nat.max m (snd e)) (most lr0))
      by (unfold most; cbn [map list_max fold_right]; fold (list_max (map snd lr0)); lia).
    replace (c + contribs (e :: lr0))%Z with (c + contrib e + contribs lr0)%Z
      by (cbn [contribs fold_right]; fold (contribs lr0); lia).
    eapply loops_step; [| |exact IH].
    + cbn [fst snd]. apply Nat.ltb_lt. rewrite app_length. cbn [length]. lia.
    + cbv zeta. cbn [fst snd]. rewrite aget_app. unfold call. cbn [pbind].
      pose proof (new_sum_ok p e c P1) as S1. destruct P1 as (a & z & EP & A & Z1 & NE & FA & B).
      destruct (flip_one_ok a (snd e) FA z 0) as (a'' & EA); auto; try lia.
      replace (q_perm p) with (V a z) by now rewrite EP. replace (q_start p) with (Z.of_nat (hd 0 a)) by now rewrite EP.
      eapply evals_bind; [exact EA|]. cbn [fst snd Nat.add].
      rewrite new_max_ok, S1. rewrite app_length. cbn [length]. apply evals_ret.
Qed.

Variable g : nat -> nat.
Hypothesis G : forall k, k < fact n -> flips (permutation_number n k) (g k).
Hypothesis GB : forall k, (Z.of_nat (g k) <= 65536)%Z.
Variable z : list Z.
Hypothesis ZT : tail_ok z.

Definition results (k : nat) (t : tk_t) : Prop :=
  exists M C l, k_max t = Z.of_nat M /\ k_sum t = i32_of C /\ Forall2 pend (k_perms t) l /\
    Nat.max M (most l) = most (upto g (S k)) /\ (C + contribs l = contribs (upto g (S k)))%Z.
Definition Inv (k i : nat) (t : tk_t) : Prop :=
  i <= n /\ k < fact n /\ (forall j, j < i -> digit k j = j) /\
  k_s t = V (arr n (low i (digit k)) (seq 0 n)) z /\
  length (k_c t) = 16 /\ (forall j, j < n -> nth_error (k_c t) j = Some (Z.of_nat (low i (digit k) j))) /\
  k_i t = i /\ k_odd t = (if Nat.odd k then 65535 else 0)%Z /\ results k t.

Lemma arr_ok d : perm_ok (arr n d (seq 0 n)).
Proof. apply arr_perm. Qed.
Lemma rot1_V a i : perm_ok a -> i < n -> rot1 i (V a z) = V (rot1 i a) z.
Proof.
  intros A I. unfold V. rewrite rot1_app_le by (rewrite map_length, (perm_length a A); exact I). f_equal.
  unfold rot1, rotl. now rewrite !map_app, !skipn_map, !firstn_map, !skipn_map.
Qed.

Lemma next_in_range k i : k < fact n -> i < n -> digit k i < i -> S k < fact n.
Proof.
  intros K I D. destruct (Nat.eq_dec (S k) (fact n)) as [Q|Q]; [|lia].
  assert (M : k mod fact n = fact n - 1) by (rewrite Nat.mod_small; lia).
  apply all_max with (i := i) in M; [lia|exact I].
Qed.

Lemma head_V a : a <> [] -> head (V a z) = Z.of_nat (hd 0 a).
Proof. now destruct a. Qed.

Lemma collect_ok k i t : Inv k i t -> i < n ->
  exists t', collect tg rot_table t = Ok t' /\ (Inv k (S i) t' \/ (S k < fact n /\ Inv (S k) 1 t')).
Proof.
  intros (IN & K & MX & ES & LC & CC & EI & EO & R) I.
  set (d := low i (digit k)) in *.
  assert (DI : d i = digit k i) by (unfold d, low; now rewrite Nat.ltb_irrefl).
  pose proof (digit_lt k i) as DL.
  assert (RS : rot1 i (k_s t) = V (arr n (bump d i) (seq 0 n)) z).
  { rewrite ES, rot1_V by (auto using arr_ok). f_equal. apply rot1_arr; [exact I|apply seq_length| |lia].
    intros j J. unfold d, low. apply Nat.ltb_lt in J. now rewrite J. }
  unfold collect. rewrite EI.
  rewrite rotate_dyn_ok; [|rewrite ES; apply V_length; auto using arr_ok|rewrite ES; apply V_bytes; auto using arr_ok|lia].
  cbn [bind]. unfold aget at 1. rewrite (CC i I). cbn [bind]. rewrite Nat2Z.id, RS, DI.
  destruct (Nat.leb_spec i (digit k i)) as [LE|LT].
  - rewrite aset_ok by lia. cbn [bind]. eexists. split; [reflexivity|]. left.
    assert (D : digit k i = i) by lia.
    split; [lia|]. split; [exact K|]. split; [intros j J; destruct (Nat.eq_dec j i) as [->|]; [exact D|apply MX; lia]|].
    cbn [k_s k_c k_i k_odd]. split; [f_equal; apply arr_ext; intros j _; now apply low_bump|].
    split; [rewrite update_len; exact LC|]. split.
    + intros j J. rewrite nth_update by lia. destruct (Nat.eqb_spec j i) as [->|N].
      * unfold low. rewrite (proj2 (Nat.ltb_lt i (S i))) by lia. reflexivity.
      * rewrite CC by exact J. do 2 f_equal. unfold d, low. destruct (Nat.ltb_spec j i), (Nat.ltb_spec j (S i)); try lia; reflexivity.
    + split; [lia|]. split; [exact EO|]. exact R.
  - assert (K' : S k < fact n) by (apply (next_in_range k i); auto).
    set (a := arr n (bump d i) (seq 0 n)).
    assert (EA : a = arr n (low 1 (digit (S k))) (seq 0 n)).
    { apply arr_ext. intros j _. rewrite low_1. now apply next_bump. }
    assert (EN : a = permutation_number n (S k)).
    { unfold permutation_number. rewrite arrange_arr by exact K'. rewrite EA. apply arr_ext. intros j _. apply low_1. }
    assert (PA : perm_ok a) by apply arr_ok.
    assert (NE : a <> []) by (intros Q; pose proof (perm_length a PA) as LA; rewrite Q in LA; cbn in LA; lia).
    pose proof (G (S k) K') as GF. rewrite <- EN in GF.
    rewrite aset_ok by lia. cbn [bind].
    assert (ED : wrap 1 (Z.of_nat (digit k i) + 1) = Z.of_nat (S (digit k i))).
    { unfold wrap, modulus, bits. cbn [Z.of_nat Pos.of_succ_nat Z.mul Pos.mul]. change (2 ^ 8)%Z with 256%Z. rewrite Z.mod_small; lia. }
    assert (EO' : (65535 - k_odd t)%Z = (if Nat.odd (S k) then 65535 else 0)%Z).
    { rewrite EO, Nat.odd_succ, <- Nat.negb_odd. destruct (Nat.odd k); reflexivity. }
    assert (CC' : forall j, j < n -> nth_error (update (k_c t) i (wrap 1 (Z.of_nat (digit k i) + 1))) j = Some (Z.of_nat (low 1 (digit (S k)) j))).
    { intros j J. rewrite nth_update by lia. rewrite low_1, <- (next_bump k i MX LT j). fold d. unfold bump.
      destruct (Nat.eqb_spec j i) as [->|N].
      - rewrite DI. destruct (Nat.leb_spec i (digit k i)); [lia|]. rewrite ED. reflexivity.
      - rewrite CC by exact J. reflexivity. }
    assert (INV : forall m c ps, results (S k) (mkTk (V a z) (update (k_c t) i (wrap 1 (Z.of_nat (digit k i) + 1))) 1 (65535 - k_odd t) m c ps) ->
      Inv (S k) 1 (mkTk (V a z) (update (k_c t) i (wrap 1 (Z.of_nat (digit k i) + 1))) 1 (65535 - k_odd t) m c ps)).
    { intros m c ps RR. split; [lia|]. split; [exact K'|]. split; [intros j J; replace j with 0 by lia; apply digit_0|].
      cbn [k_s k_c k_i k_odd]. split; [now rewrite <- EA|]. split; [rewrite update_len; exact LC|].
      split; [exact CC'|]. split; [reflexivity|]. split; [exact EO'|exact RR]. }
    destruct R as (M & C & l & EM & ECS & F & MM & CS).
    rewrite head_V by exact NE.
    destruct (Z.eqb_spec (Z.of_nat (hd 0 a)) 0) as [H0|H0].
    + eexists. split; [reflexivity|]. right. split; [exact K'|]. apply INV.
      assert (G0 : g (S k) = 0) by (apply (flips_fun a); [exact GF|apply flips_0; lia]).
      exists M, C, l. cbn [k_max k_sum k_perms]. repeat (split; [assumption|]).
      rewrite (most_S g (S k)), (contribs_S g (S k)), MM, CS. unfold contrib, entry. cbn [fst snd]. rewrite G0.
      split; [lia|]. destruct (Nat.odd (S k)); lia.
    + rewrite Nat2Z.id.
      assert (HN : hd 0 a < n).
      { apply (perm_lt a); [exact PA|]. destruct a; [contradiction|now left]. }
      assert (AG : aget (V a z) (hd 0 a) = Ok (Z.of_nat (nth (hd 0 a) a 0))).
      { unfold aget, V. rewrite nth_error_app1 by (rewrite map_length, (perm_length a PA); exact HN).
        rewrite nth_error_map, (nth_error_nth' a 0) by (rewrite (perm_length a PA); exact HN). reflexivity. }
      rewrite AG. cbn [bind].
      destruct (Z.eqb_spec (Z.of_nat (nth (hd 0 a) a 0)) 0) as [H1|H1].
      * eexists. split; [reflexivity|]. right. split; [exact K'|]. apply INV.
        assert (G1 : g (S k) = 1).
        { apply (flips_fun a); [exact GF|]. apply flips_more; [lia|]. apply flips_done.
          pose proof (perm_length a PA) as LA. destruct a as [|h r]; [contradiction|]. cbn [hd] in *. rewrite hd_flip by (rewrite LA; exact HN). lia. }
        exists (Nat.max M 1), (C + contrib (entry g (S k)))%Z, l. cbn [k_max k_sum k_perms].
        split; [rewrite EM; destruct (Z.eqb_spec (Z.of_nat M) 0); lia|].
        split.
        { rewrite ECS. unfold i32_add. rewrite i32_of_idem. f_equal. f_equal. rewrite EO'. unfold contrib, entry. cbn [fst snd]. rewrite G1.
          destruct (Nat.odd (S k)); reflexivity. }
        split; [assumption|]. rewrite (most_S g (S k)), (contribs_S g (S k)). split; [rewrite <- MM, G1; lia|]. lia.
      * eexists. split; [reflexivity|]. right. split; [exact K'|]. apply INV.
        exists M, C, (l ++ [entry g (S k)]). cbn [k_max k_sum k_perms].
        split; [assumption|]. split; [assumption|]. split.
        { apply Forall2_app; [exact F|]. constructor; [|constructor]. exists a, z. unfold entry. cbn [fst snd]. rewrite EO'.
          repeat (split; [first [reflexivity|assumption]|]). apply GB. }
        rewrite (most_S g (S k)), (contribs_S g (S k)), most_app, contribs_app. unfold most at 2. cbn [map list_max fold_right contribs entry snd].
        fold (contribs (upto g (S k))). split; [rewrite <- MM; lia|]. change (Nat.odd (S k), g (S k)) with (entry g (S k)). lia.
Qed.

Definition measure (k i : nat) : nat := (fact n - k) * (n + 1) + (n - i).
Lemma measure_i k i : i < n -> measure k (S i) < measure k i.
Proof. unfold measure. intros I. generalize ((fact n - k) * (n + 1)). intros q. lia. Qed.
Lemma measure_k k i : S k < fact n -> measure (S k) 1 < measure k i.
Proof.
  unfold measure. intros K. replace (fact n - k) with (S (fact n - S k)) by lia.
  generalize (fact n - S k). intros q. replace (S q * (n + 1)) with (q * (n + 1) + (n + 1)) by lia. generalize (q * (n + 1)). intros r. lia.
Qed.

Definition more (t : tk_t) : bool := Nat.ltb (k_i t) n && Nat.ltb (length (k_perms t)) 60.
Lemma inner_ok N : forall k i t, measure k i <= N -> Inv k i t ->
  exists k' i' t', loops more (fun _ t => call (collect tg rot_table t)) t t' /\ Inv k' i' t' /\ more t' = false /\
    measure k' i' <= measure k i /\ (more t = true -> measure k' i' < measure k i).
Proof.
  induction N as [N IH] using lt_wf_ind. intros k i t LM H. destruct (more t) eqn:Q.
  2: { exists k, i, t. split; [apply loops_done; exact Q|]. repeat (split; [auto|]). congruence. }
  assert (I : i < n).
  { apply andb_prop in Q as [Q _]. apply Nat.ltb_lt in Q. destruct H as (_ & _ & _ & _ & _ & _ & EI & _). lia. }
  destruct (collect_ok k i t H I) as (t' & E & HH).
  assert (X : exists k1 i1, Inv k1 i1 t' /\ measure k1 i1 < measure k i).
  { destruct HH as [HH|[K HH]]; [exists k, (S i)|exists (S k), 1]; split; auto using measure_i, measure_k. }
  destruct X as (k1 & i1 & H1 & M1).
  destruct (IH (measure k1 i1) ltac:(lia) k1 i1 t' (le_n _) H1) as (k' & i' & t'' & L & H' & D & ML & _).
  exists k', i', t''. split; [eapply loops_step; [exact Q| |exact L]; apply evals_call; exact E|].
  repeat (split; [assumption|]). split; [lia|]. intros _. lia.
Qed.

Lemma tk_ok N : forall k i t, measure k i <= N -> Inv k i t -> k_perms t = [] ->
  exists k' t', evals (fun f => tk f tg flip_table rot_table n t) t' /\ Inv k' n t' /\ k_perms t' = [].
Proof.
  intros k i t LM H E.
  enough (X : exists k' t', loops (fun t => Nat.ltb (k_i t) n) (fun f t =>
    t <~ while f more (fun t => call (collect tg rot_table t)) t ;;
    r <~ pairs f tg flip_table (k_perms t) (0%nat, k_max t, k_sum t) ;;
    r <~ singles f tg flip_table (k_perms t) r ;;
    ret (mkTk (k_s t) (k_c t) (k_i t) (k_odd t) (snd (fst r)) (snd r) [])) t t' /\ Inv k' n t' /\ k_perms t' = []).
  { destruct X as (k' & t' & L & R). exists k', t'. split; [|exact R]. apply loops_evals in L. exact L. }
  revert k i t LM H E. induction N as [N IH] using lt_wf_ind. intros k i t LM H E.
  destruct (Nat.ltb_spec i n) as [I|I].
  2: { assert (i = n) by (destruct H; lia). subst i. exists k, t. split; [|auto]. apply loops_done.
       destruct H as (_ & _ & _ & _ & _ & _ & EI & _). rewrite EI. apply Nat.ltb_irrefl. }
  assert (Q : more t = true).
  { unfold more. rewrite E. destruct H as (_ & _ & _ & _ & _ & _ & EI & _). rewrite EI. apply Nat.ltb_lt in I. now rewrite I. }
  destruct (inner_ok (measure k i) k i t (le_n _) H) as (k1 & i1 & t1 & L & H1 & _ & _ & ML). specialize (ML Q).
  pose proof H1 as (IN & K & MX & ES & LC & CC & EI & EO & (M & C & l & EM & ECS & F & MM & CS)).
  destruct (pairs_ok (length (k_perms t1)) (k_perms t1) l [] M C (le_n _) F) as (pd & pr & lr & m & c & EP & F' & EMX & ECX & EV).
  cbn [app length] in EP, EV.
  pose proof (singles_ok pr lr pd m c F') as ES2. rewrite <- EP in ES2.
  set (t2 := mkTk (k_s t1) (k_c t1) (k_i t1) (k_odd t1) (Z.of_nat (Nat.max m (most lr))) (i32_of (c + contribs lr)) []).
  assert (H2 : Inv k1 i1 t2).
  { repeat (split; [assumption|]). exists (Nat.max m (most lr)), (c + contribs lr)%Z, []. cbn [k_max k_sum k_perms t2].
    split; [reflexivity|]. split; [reflexivity|]. split; [constructor|].
    split; [rewrite EMX, MM; unfold most; cbn [map list_max fold_right]; lia|]. cbn [contribs fold_right]. lia. }
  destruct (IH (measure k1 i1) ltac:(lia) k1 i1 t2 (le_n _) H2 eq_refl) as (k' & t' & L2 & R).
  exists k', t'. split; [|exact R]. eapply loops_step; [| |exact L2].
  - destruct H as (_ & _ & _ & _ & _ & _ & EI0 & _). rewrite EI0. now apply Nat.ltb_lt.
  - apply loops_evals in L. eapply evals_bind; [exact L|]. rewrite EM, ECS. eapply evals_bind; [exact EV|].
    eapply evals_bind; [exact ES2|]. cbn [fst snd]. apply evals_ret.
Qed.
End Vector.

(** The whole vector version. *)
Lemma simd_ok tg n fs : 0 < t_ptr tg -> n <= 16 -> flips_of_first n (fact n) fs -> Forall (fun f => Z.of_nat f <= 65536)%Z fs ->
  evals (fun f => simd_fannkuch f tg n) (i32_of (alternating fs), Z.of_nat (list_max fs)).
Proof.
  intros P N [L F] B.
  set (g := fun k => nth k fs 0).
  assert (G : forall k, k < fact n -> flips (permutation_number n k) (g k)).
  { intros k K. apply F. apply nth_error_nth'. lia. }
  assert (GB : forall k, (Z.of_nat (g k) <= 65536)%Z).
  { intros k. unfold g. destruct (Nat.lt_ge_cases k (length fs)).
    - eapply Forall_forall in B; [exact B|]. now apply nth_In.
    - rewrite nth_overflow by assumption. lia. }
  assert (EG : map g (seq 0 (fact n)) = fs) by (rewrite <- L; apply map_nth_all).
  set (z := skipn n (map Z.of_nat (rot_ix 15))).
  assert (ZT : tail_ok n z).
  { unfold z. split; [rewrite skipn_length; reflexivity|]. apply Forall_forall. intros x X.
    assert (Y : In x (map Z.of_nat (rot_ix 15))).
    { rewrite <- (firstn_skipn n). apply in_or_app. now right. }
    clear - Y. apply in_map_iff in Y as (y & <- & Y). unfold rot_ix in Y.
    apply in_app_iff in Y as [Y|[Y|Y]]; [apply in_seq in Y; lia|lia|apply in_seq in Y; lia]. }
  assert (S0 : for_loop n 0 (map Z.of_nat (rot_ix 15)) (fun i s => aset s i (wrap 1 (Z.of_nat i))) = Ok (V (seq 0 n) z)).
  { unfold z. clear - N. do 17 (destruct n as [|n]; [vm_compute; reflexivity|]). lia. }
  set (t0 := mkTk (V (seq 0 n) z) (repeat 0%Z 16) 0 0 0 0 []).
  assert (I0 : Inv n g z 0 0 t0).
  { pose proof (fact_pos n) as FP. split; [lia|]. split; [exact FP|]. split; [intros j J; lia|]. cbn [k_s k_c k_i k_odd t0].
    assert (LZ : forall j, low 0 (digit 0) j = 0) by (intros j; unfold low; cbn [Nat.ltb Nat.leb]; apply digit_0_index).
    split; [rewrite arr_zero by (intros; apply LZ); reflexivity|]. split; [reflexivity|].
    split.
    { intros j J. rewrite LZ. apply nth_error_repeat. lia. }
    split; [reflexivity|]. split; [reflexivity|].
    assert (G0 : g 0 = 0).
    { apply (flips_fun _ _ (G 0 FP)). apply flips_done. unfold permutation_number. rewrite arrange_arr by exact FP.
      rewrite arr_zero by (intros; apply digit_0_index). now destruct n. }
    exists 0, 0%Z, []. cbn [k_max k_sum k_perms t0]. repeat (split; [first [reflexivity|constructor]|]).
    rewrite most_S, contribs_S. unfold contrib, entry. cbn [fst snd Nat.odd Nat.even negb]. rewrite G0. split; reflexivity. }
  destruct (tk_ok tg P n N g G GB z ZT (measure n 0 0) 0 0 t0 (le_n _) I0 eq_refl) as (k' & t' & EV & (_ & K & MX & _ & _ & _ & _ & _ & R) & EP).
  pose proof (last_index k' n K MX) as LK.
  destruct R as (M & C & l & EM & EC & FL & MM & CC). rewrite EP in FL. inversion FL; subst l.
  rewrite LK, most_upto, EG in MM. rewrite LK, <- alternating_upto, EG in CC.
  unfold simd_fannkuch. eapply evals_bind; [apply evals_call, popmasks_ok|]. cbv zeta. cbn [fst snd].
  eapply evals_bind; [apply evals_call, S0|]. eapply evals_bind; [exact EV|]. cbv beta.
  replace (k_sum t') with (i32_of (alternating fs)).
  - replace (k_max t') with (Z.of_nat (list_max fs)); [apply evals_ret|].
    rewrite EM. f_equal. rewrite <- MM. unfold most. cbn [map list_max fold_right]. lia.
  - rewrite EC. f_equal. rewrite <- CC. cbn [contribs fold_right]. lia.
Qed.
