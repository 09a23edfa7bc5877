(** The loops of the option pricing example. *)
From Coq Require Import ZArith List Bool Lia Reals Permutation.
From Flocq Require Import Core.
From Verif.Model Require Import Base FloatLane Llvm Bytes Tables MathTables Math Minimal Ops Cast Reduce Float ExSum ExStencil ExGeometry ExOptions.
From Verif.Spec Require Import Spec Floats MathSpec Examples Stencil Rays Occlusion Formulas Pricing.
From Verif.Proofs Require Import Lib MinimalP BytesP SliceP FloatP FloatOpsP FloatVecP FloatApiP FloatApi2P FloatCastP ExactP ExSumP ExPacketP ExImageP.
Import ListNotations.
Open Scope Z_scope.
Local Notation pat := (pattern 4).
Local Notation dat := f32_datum.
Local Opaque fl_add fl_sub fl_mul fl_div fl_sqrt fl_lt fl_gt fl_ge fl_abs fl_max f32_neg fl_of_int fl_convert BINOMIAL_NUM roll_back.

Lemma at_some {A} (l : list A) i x : nth_error l i = Some x -> at_ l i = Ok x.
Proof. unfold at_. now intros ->. Qed.
Lemma at_none {A} (l : list A) i : (length l <= i)%nat -> at_ l i = Panic.
Proof. unfold at_. intros H. now rewrite (proj2 (nth_error_None l i) H). Qed.
Lemma nth_in {A} (l : list A) i : (i < length l)%nat -> exists x, nth_error l i = Some x.
Proof. intros H. destruct (nth_error l i) eqn:E; eauto. apply nth_error_None in E. lia. Qed.

(** ** A loop that fails *)
Lemma foreach_fails {A S} (I : S -> Prop) (F : outcome S) (body : A -> S -> outcome S) l :
  (forall k : S -> outcome S, bind F k = F) ->
  (forall a s, In a l -> I s -> (exists s', body a s = Ok s' /\ I s') \/ body a s = F) ->
  (exists a, In a l /\ forall s, I s -> body a s = F) ->
  forall s, I s -> foreach l s body = F.
Proof.
  intros HF. induction l as [|b l IH]; intros H (a & Ia & Ha) s Is; [contradiction|]. cbn [foreach].
  destruct (H b s (or_introl eq_refl) Is) as [(s' & E & Is')|E].
  - destruct Ia as [->|Ia].
    + now rewrite (Ha s Is), HF.
    + rewrite E. cbn [bind]. apply IH; auto. intros c u Ic Iu. apply H; [now right|exact Iu]. eauto.
  - now rewrite E, HF.
Qed.
Lemma foreach_not_ok {A S} (I : S -> Prop) (body : A -> S -> outcome S) l :
  (forall a s s', In a l -> I s -> body a s = Ok s' -> I s') ->
  (exists a, In a l /\ forall s s', I s -> body a s <> Ok s') ->
  forall s r, I s -> foreach l s body <> Ok r.
Proof.
  induction l as [|b l IH]; intros H (a & Ia & Ha) s r Is; [contradiction|]. cbn [foreach].
  destruct (body b s) as [s'| |] eqn:E; cbn [bind]; try discriminate.
  destruct Ia as [->|Ia]; [exfalso; now apply (Ha s s' Is)|].
  apply IH; eauto. intros c u u' Ic. apply H. now right.
  apply (H b s); auto. now left.
Qed.

(** ** The scalar loop *)
Section Loop.
  Variables (price : Z -> Z -> Z -> Z -> Z -> outcome Z) (g : Z -> Z -> Z -> Z -> Z -> Z).
  Hypothesis HG : forall s x t r v, price s x t r v = Ok (g s x t r v).
  Variables sa xa ta ra va : list Z.
  Let body i result :=
    s <- at_ sa i ;; x <- at_ xa i ;; t <- at_ ta i ;; r <- at_ ra i ;; v <- at_ va i ;; p <- price s x t r v ;; put result i p.

  Lemma rounds result n : inputs_have n sa xa ta ra va -> (n <= length result)%nat ->
    exists new, foreach (seq 0 n) result body = Ok new /\ length new = length result /\
      (forall i, (i < n)%nat -> exists s x t r v, nth_error sa i = Some s /\ nth_error xa i = Some x /\ nth_error ta i = Some t /\
         nth_error ra i = Some r /\ nth_error va i = Some v /\ nth_error new i = Some (g s x t r v)) /\
      (forall i, (n <= i)%nat -> nth_error new i = nth_error result i).
  Proof.
    unfold inputs_have. intros HI HR. induction n as [|n IH].
    - exists result. cbn. repeat split; auto. lia.
    - destruct IH as (new & E & Ln & H1 & H2); [lia|lia|]. rewrite seq_S, foreach_app, E. cbn [bind foreach Nat.add].
      destruct (nth_in sa n ltac:(lia)) as [s Es], (nth_in xa n ltac:(lia)) as [x Ex], (nth_in ta n ltac:(lia)) as [t Et],
        (nth_in ra n ltac:(lia)) as [r Er], (nth_in va n ltac:(lia)) as [v Ev].
      exists (Base.update new n (g s x t r v)). split.
      { unfold body. rewrite (at_some _ _ _ Es), (at_some _ _ _ Ex), (at_some _ _ _ Et), (at_some _ _ _ Er), (at_some _ _ _ Ev).
        cbn [bind]. rewrite HG. cbn [bind]. unfold put. rewrite (proj2 (Nat.ltb_lt n (length new))) by lia. reflexivity. }
      split; [now rewrite update_length|]. split.
      + intros i Hi. destruct (Nat.eq_dec i n) as [->|N].
        * exists s, x, t, r, v. rewrite nth_error_update_same by lia. auto 10.
        * rewrite nth_error_update_other by lia. apply H1. lia.
      + intros i Hi. rewrite nth_error_update_other by lia. apply H2. lia.
  Qed.

  Lemma scalar_loop_ok result n : inputs_have n sa xa ta ra va -> (n <= length result)%nat ->
    exists new, scalar_loop price sa xa ta ra va result n = Ok new /\ length new = length result /\
      (forall i, (i < n)%nat -> exists s x t r v, nth_error sa i = Some s /\ nth_error xa i = Some x /\ nth_error ta i = Some t /\
         nth_error ra i = Some r /\ nth_error va i = Some v /\ nth_error new i = Some (g s x t r v)) /\
      (forall i, (n <= i)%nat -> nth_error new i = nth_error result i).
  Proof. exact (rounds result n). Qed.

  Lemma scalar_loop_fails result n : ~ (inputs_have n sa xa ta ra va /\ (n <= length result)%nat) ->
    scalar_loop price sa xa ta ra va result n = Panic.
  Proof.
    unfold inputs_have. intros H.
    set (m := Nat.min (length sa) (Nat.min (length xa) (Nat.min (length ta) (Nat.min (length ra) (Nat.min (length va) (length result)))))).
    assert (M : (m < n)%nat) by (unfold m; lia).
    destruct (rounds result m) as (new & E & Ln & _); [unfold inputs_have, m; lia|unfold m; lia|].
    change (scalar_loop price sa xa ta ra va result n) with (foreach (seq 0 n) result body).
    replace n with (m + S (n - m - 1))%nat by lia. rewrite seq_app, foreach_app, E. cbn [bind seq foreach Nat.add].
    assert (B : body m new = Panic).
    { assert (D : (m = length sa \/ m = length xa \/ m = length ta \/ m = length ra \/ m = length va \/ m = length new)%nat)
        by (rewrite Ln; unfold m; clear; lia).
      clearbody m. clear E. unfold body.
      destruct (nth_error sa m) as [s|] eqn:Es; [rewrite (at_some _ _ _ Es); cbn [bind]|unfold at_; now rewrite Es].
      destruct (nth_error xa m) as [x|] eqn:Ex; [rewrite (at_some _ _ _ Ex); cbn [bind]|unfold at_; now rewrite Ex].
      destruct (nth_error ta m) as [t|] eqn:Et; [rewrite (at_some _ _ _ Et); cbn [bind]|unfold at_; now rewrite Et].
      destruct (nth_error ra m) as [r|] eqn:Er; [rewrite (at_some _ _ _ Er); cbn [bind]|unfold at_; now rewrite Er].
      destruct (nth_error va m) as [v|] eqn:Ev; [rewrite (at_some _ _ _ Ev); cbn [bind]|unfold at_; now rewrite Ev].
      rewrite HG. cbn [bind]. unfold put.
      assert (forall (l : list Z) y, nth_error l m = Some y -> (m < length l)%nat) by (intros l y Y; apply nth_error_Some; congruence).
      pose proof (H0 _ _ Es). pose proof (H0 _ _ Ex). pose proof (H0 _ _ Et). pose proof (H0 _ _ Er). pose proof (H0 _ _ Ev).
      rewrite (proj2 (Nat.ltb_ge m (length new))) by lia. reflexivity. }
    now rewrite B.
  Qed.
End Loop.

(** ** Writing chunks *)
Definition wr (i : nat) (p result : list Z) : list Z := firstn (8 * i) result ++ p ++ skipn (8 * i + 8) result.
Lemma wr_length i p result : length p = 8%nat -> (8 * i + 8 <= length result)%nat -> length (wr i p result) = length result.
Proof. intros P H. unfold wr. rewrite !app_length, firstn_length, skipn_length. lia. Qed.
Lemma wr_in i p result j : length p = 8%nat -> (8 * i + 8 <= length result)%nat -> (j < 8)%nat ->
  nth_error (wr i p result) (8 * i + j) = nth_error p j.
Proof.
  intros P H J. unfold wr. rewrite nth_error_app2; rewrite firstn_length; [|lia].
  rewrite nth_error_app1 by lia. f_equal. lia.
Qed.
Lemma wr_out i p result j : length p = 8%nat -> (8 * i + 8 <= length result)%nat -> (j < 8 * i \/ 8 * i + 8 <= j)%nat ->
  nth_error (wr i p result) j = nth_error result j.
Proof.
  intros P H [J|J]; unfold wr.
  - rewrite nth_error_app1 by (rewrite firstn_length; lia). now apply nth_error_firstn'.
  - rewrite nth_error_app2; rewrite firstn_length; [|lia]. rewrite nth_error_app2 by lia. rewrite nth_error_skipn. f_equal. lia.
Qed.

Definition fail {A} (debug : bool) : outcome A := if debug then Panic else UB.
Lemma fail_bind {A B} debug (k : A -> outcome B) : bind (fail debug) k = fail debug.
Proof. now destruct debug. Qed.

Lemma read_at debug l o : (o <= length l)%nat ->
  (l' <- from l o ;; read_unchecked debug l') = if (o + 8 <=? length l)%nat then Ok (firstn 8 (skipn o l)) else fail debug.
Proof.
  intros H. unfold from. rewrite (proj2 (Nat.leb_le _ _) H). cbn [bind]. unfold read_unchecked. rewrite skipn_length.
  destruct (Nat.leb_spec (o + 8) (length l)), (Nat.leb_spec 8 (length l - o)); try lia; reflexivity.
Qed.
Lemma read_beyond debug l o : (length l < o)%nat -> (l' <- from l o ;; read_unchecked debug l') = Panic.
Proof. intros H. unfold from. now rewrite (proj2 (Nat.leb_gt _ _) H). Qed.

Section Chunks.
  Variables (debug : bool) (k : kernel) (price : datum -> datum -> datum -> datum -> datum -> datum -> Prop).
  Hypothesis HK : prices k price.
  Variables sa xa ta ra va : list Z.
  Hypotheses (Fs : are_f32 sa) (Fx : are_f32 xa) (Ft : are_f32 ta) (Fr : are_f32 ra) (Fv : are_f32 va).
  Local Notation get := (read_and_price debug k sa xa ta ra va).

  Lemma part_vector l o : are_f32 l -> (o + 8 <= length l)%nat -> is_vector f32x8 (firstn 8 (skipn o l)).
  Proof.
    clear. intros F H. split; [change (vn f32x8) with 8%nat; rewrite firstn_length, skipn_length; lia|].
    apply Forall_firstn', Forall_skipn'. exact F.
  Qed.
  Lemma part_lane l o j : (o + 8 <= length l)%nat -> (j < 8)%nat -> exists x, nth_error l (o + j) = Some x /\ lane (firstn 8 (skipn o l)) j x.
  Proof.
    clear. intros H J. destruct (nth_in l (o + j) ltac:(lia)) as [x E]. exists x. split; [exact E|].
    unfold lane. now rewrite nth_error_firstn', nth_error_skipn by exact J.
  Qed.

  Lemma get_ok o : inputs_have (o + 8) sa xa ta ra va ->
    exists p, get o = Ok p /\ is_vector f32x8 p /\
      forall j, (j < 8)%nat -> exists s x t r v c, nth_error sa (o + j) = Some s /\ nth_error xa (o + j) = Some x /\
        nth_error ta (o + j) = Some t /\ nth_error ra (o + j) = Some r /\ nth_error va (o + j) = Some v /\
        nth_error p j = Some c /\ is_f32 c /\ price (dat s) (dat x) (dat t) (dat r) (dat v) (dat c).
  Proof.
    intros (Hs & Hx & Ht & Hr & Hv). unfold read_and_price.
    rewrite !read_at by lia. rewrite !(proj2 (Nat.leb_le _ _)) by assumption. cbn [bind].
    destruct (HK (firstn 8 (skipn o sa)) (firstn 8 (skipn o xa)) (firstn 8 (skipn o ta)) (firstn 8 (skipn o ra)) (firstn 8 (skipn o va)))
      as (p & E & V & Q); try (apply part_vector; assumption).
    exists p. split; [exact E|]. split; [exact V|]. intros j J.
    destruct (part_lane sa o j Hs J) as (s & Es & Ls), (part_lane xa o j Hx J) as (x & Ex & Lx), (part_lane ta o j Ht J) as (t & Et & Lt),
      (part_lane ra o j Hr J) as (r & Er & Lr), (part_lane va o j Hv J) as (v & Ev & Lv).
    destruct (Q j s x t r v Ls Lx Lt Lr Lv) as (c & Lc & P). exists s, x, t, r, v, c.
    do 5 (split; [assumption|]). split; [exact Lc|]. split; [|exact P].
    exact (Forall_nth_error _ _ _ _ (proj2 V) Lc).
  Qed.

  Lemma get_fails o : inputs_have o sa xa ta ra va -> ~ inputs_have (o + 8) sa xa ta ra va -> get o = fail debug.
  Proof.
    intros (Hs & Hx & Ht & Hr & Hv) N. unfold inputs_have in N. unfold read_and_price. rewrite !read_at by lia.
    destruct (Nat.leb_spec (o + 8) (length sa)); [cbn [bind]|apply fail_bind].
    destruct (Nat.leb_spec (o + 8) (length xa)); [cbn [bind]|apply fail_bind].
    destruct (Nat.leb_spec (o + 8) (length ta)); [cbn [bind]|apply fail_bind].
    destruct (Nat.leb_spec (o + 8) (length ra)); [cbn [bind]|apply fail_bind].
    destruct (Nat.leb_spec (o + 8) (length va)); [lia|apply fail_bind].
  Qed.
  Lemma get_not_ok o : ~ inputs_have (o + 8) sa xa ta ra va -> get o = Panic \/ (debug = false /\ get o = UB).
  Proof.
    intros N. unfold inputs_have in N. unfold read_and_price.
    assert (R : forall l (B : Type) (c : vec -> outcome B), (forall x, (o + 8 <= length l)%nat -> c x = Panic \/ debug = false /\ c x = UB) ->
       bind (l' <- from l o ;; read_unchecked debug l') c = Panic \/ debug = false /\ bind (l' <- from l o ;; read_unchecked debug l') c = UB).
    { intros l B c H. destruct (Nat.le_gt_cases o (length l)) as [L|L]; [|rewrite read_beyond by lia; now left].
      rewrite read_at by lia. destruct (Nat.leb_spec (o + 8) (length l)) as [M|M]; [cbn [bind]; auto|]. rewrite fail_bind.
      destruct debug; [now left|right; auto]. }
    apply R. intros s Hs. apply R. intros x Hx. apply R. intros t Ht. apply R. intros r Hr. apply R. intros v Hv. lia.
  Qed.

  (** What chunk [i] is filled with. *)
  Variable off : nat -> nat.
  Definition filled (i : nat) : vec := match get (off i) with Ok p => p | _ => [] end.

  Lemma chunks_ok (body : nat -> list Z -> outcome (list Z)) (n : nat) order :
    NoDup order ->
    (forall i, In i order -> inputs_have (off i + 8) sa xa ta ra va /\ (8 * i + 8 <= n)%nat) ->
    (forall i res p, In i order -> length res = n -> get (off i) = Ok p -> length p = 8%nat -> body i res = Ok (wr i p res)) ->
    forall result, length result = n -> exists new, foreach order result body = Ok new /\ length new = n /\
      (forall i j, In i order -> (j < 8)%nat -> nth_error new (8 * i + j) = nth_error (filled i) j) /\
      (forall j, ~ In (j / 8)%nat order -> nth_error new j = nth_error result j).
  Proof.
    intros ND. induction order as [|i order IH]; intros HI HB result HR.
    - exists result. cbn. repeat split; auto. contradiction.
    - apply NoDup_cons_iff in ND as [NI ND]. destruct (HI i (or_introl eq_refl)) as [Hi Hn].
      destruct (get_ok (off i) Hi) as (p & E & V & _). pose proof (proj1 V) as Lp. change (vn f32x8) with 8%nat in Lp.
      cbn [foreach]. rewrite (HB i result p (or_introl eq_refl) HR E Lp). cbn [bind].
      destruct (IH ND) with (result := wr i p result) as (new & E' & Ln & H1 & H2).
      + intros a A. apply HI. now right.
      + intros a res q A. apply HB. now right.
      + rewrite wr_length; lia.
      + exists new. split; [exact E'|]. split; [exact Ln|]. split.
        * intros a j [<-|A] J; [|now apply H1]. rewrite H2.
          -- rewrite wr_in by lia. unfold filled. now rewrite E.
          -- replace ((8 * i + j) / 8)%nat with i; [exact NI|]. apply Nat.div_unique with j; lia.
        * intros j J. rewrite H2 by (intros A; apply J; now right). apply wr_out; [lia|lia|].
          assert (j / 8 <> i)%nat by (intros <-; apply J; now left).
          pose proof (Nat.div_mod_eq j 8). pose proof (Nat.mod_upper_bound j 8). lia.
  Qed.

  Lemma filled_priced i : inputs_have (off i + 8) sa xa ta ra va -> forall j, (j < 8)%nat ->
    exists s x t r v c, nth_error sa (off i + j) = Some s /\ nth_error xa (off i + j) = Some x /\
        nth_error ta (off i + j) = Some t /\ nth_error ra (off i + j) = Some r /\ nth_error va (off i + j) = Some v /\
        nth_error (filled i) j = Some c /\ is_f32 c /\ price (dat s) (dat x) (dat t) (dat r) (dat v) (dat c).
  Proof. intros H j J. destruct (get_ok _ H) as (p & E & _ & Q). unfold filled. rewrite E. now apply Q. Qed.
End Chunks.

(** ** Sums *)
Lemma folds_accumulates d l r : folds 8 (ieee_add 8) d l r -> accumulates d (map (datum_of 8) l) r.
Proof. induction 1 as [d|d p l e r A _ IH]; cbn [map]; [constructor|]. econstructor; eauto. Qed.
Lemma widened x : are_f32 x -> map (datum_of 8) (map f64_from x) = map dat x.
Proof. intros F. rewrite map_map. apply map_ext_in. intros p P. unfold are_f32 in F. rewrite Forall_forall in F. apply widen_datum. now apply F. Qed.
Lemma wide_pats x : are_f32 x -> Forall (pattern 8) (map f64_from x).
Proof.
  intros F. apply Forall_forall. intros c C. apply in_map_iff in C as (p & <- & P). unfold are_f32 in F. rewrite Forall_forall in F.
  apply (convert_datum 4 8 p); [now left|now right|now apply F].
Qed.
Lemma f64x8_type : float_type f64x8.
Proof. repeat split; auto; cbn; lia. Qed.
Lemma zero_datum8 : datum_of 8 (fl_of_int 8 0) = zero.
Proof. pose proof (lit_datum f64x8 0 f64x8_type) as H. exact (H eq_refl). Qed.

Lemma slice_scalar_sum x : are_f32 x -> is_f64 (slice_scalar x) /\ accumulates zero (map dat x) (datum_of 8 (slice_scalar x)).
Proof.
  intros F. unfold slice_scalar.
  assert (E : forall l a, fold_left (fun s p => fl_add 8 s (f64_from p)) l a = fold_left (fl_add 8) (map f64_from l) a)
    by (induction l; intros; cbn [map fold_left]; auto).
  rewrite E. destruct (fold_folds 8 (fl_add 8) (ieee_add 8)) with (l := map f64_from x) (p := fl_of_int 8 0) as [A B].
  - intros p q P Q. apply add_pattern; auto. now right.
  - apply (zero_units 8 0). now right.
  - now apply wide_pats.
  - split; [exact A|]. rewrite zero_datum8 in B. rewrite <- widened by exact F. now apply folds_accumulates.
Qed.

Lemma sum_slice_fold tg x : (length x mod 8)%nat = 0%nat ->
  sum_slice tg x = fsum tg f64x8 (iter_sum f64x8 (groups (length x / 8) 8 (map f64_from x))).
Proof.
  intros M. unfold sum_slice. change (lanes f32x8) with 8%nat. change (lanes f64x8) with 8%nat. rewrite M. cbn [Nat.eqb assert bind].
  pose proof (mod_div _ 8 ltac:(lia) M) as D.
  assert (B : by_8 (length x) = map (fun i => (8 * i)%nat) (seq 0 (length x / 8))).
  { unfold by_8. do 2 f_equal. rewrite <- D at 1. rewrite Nat.div_add_l by lia. rewrite Nat.add_0_r. reflexivity. }
  rewrite B. clear B M.
  assert (E : forall c s acc, (8 * (s + c) <= length x)%nat ->
    foreach (map (fun i => (8 * i)%nat) (seq s c)) acc (fun i sum => l <- from x i ;; v <- read_unchecked (t_debug tg) l ;;
      w <- cast PlainCast f32x8 f64x8 v ;; Ok (add f64x8 sum w)) =
    Ok (fold_left (add f64x8) (groups c 8 (skipn (8 * s) (map f64_from x))) acc)).
  { induction c as [|c IH]; intros s acc H; [reflexivity|]. cbn [seq map foreach groups fold_left].
    unfold from at 1. rewrite (proj2 (Nat.leb_le _ _)) by lia. cbn [bind]. unfold read_unchecked at 1. rewrite skipn_length.
    rewrite (proj2 (Nat.leb_le 8 (length x - 8 * s))) by lia. cbn [bind].
    change (cast PlainCast f32x8 f64x8) with (simd_cast KFloat 4 KFloat 8).
    rewrite (cast_total f32x8 f64x8 f64_from) by reflexivity. cbn [bind].
    rewrite IH by lia. rewrite skipn_add. replace (8 * s + 8)%nat with (8 * S s)%nat by lia.
    now rewrite <- firstn_map, <- skipn_map. }
  rewrite E by lia. cbn [bind]. unfold iter_sum. rewrite lit_float by apply f64x8_type. reflexivity.
Qed.

Lemma sum_slice_columns tg x : are_f32 x -> (length x mod 8)%nat = 0%nat ->
  exists r, sum_slice tg x = Ok r /\ is_f64 r /\ sum_by_columns (t_arch tg) (map dat x) (datum_of 8 r).
Proof.
  intros F M. rewrite sum_slice_fold by exact M. pose proof (mod_div _ 8 ltac:(lia) M) as D.
  set (y := map f64_from x). assert (Ly : length y = length x) by apply map_length.
  assert (Vs : Forall (is_vector f64x8) (groups (length x / 8) 8 y))
    by (apply (groups_vectors f64x8); [exact (wide_pats x F)|cbn [vn f64x8]; lia]).
  destruct (float_iter_reductions f64x8 _ f64x8_type Vs) as (V & _ & Q). change (vn f64x8) with 8%nat in Q.
  set (cs := iter_sum f64x8 (groups (length x / 8) 8 y)) in *.
  destruct (float_reductions tg f64x8 _ f64x8_type V) as ((r & E & B & R1 & R2) & _).
  exists r. split; [exact E|]. split; [exact B|].
  pose proof (proj1 V) as Lc. change (vn f64x8) with 8%nat in Lc.
  assert (C : forall j d, nth_error (map (datum_of 8) cs) j = Some d -> exists column,
     (8 * length column = length (map dat x))%nat /\
     (forall k, (k < length column)%nat -> nth_error column k = nth_error (map dat x) (8 * k + j)) /\ accumulates zero column d).
  { intros j d Hd. assert (J : (j < 8)%nat) by (rewrite <- Lc, <- (map_length (datum_of 8)); apply nth_error_Some; congruence).
    destruct (column_lanes (length x / 8) y j J) as (ps & P1 & P2 & P3); [lia|].
    destruct (Q j ps J P1) as ((c & C1 & C2) & _). unfold lane in C1. rewrite nth_error_map, C1 in Hd. injection Hd as <-.
    exists (map (datum_of 8) ps). rewrite !map_length. split; [lia|]. split.
    - intros k K. rewrite <- widened by exact F. fold y. rewrite nth_error_map, (P3 k) by lia. symmetry. apply nth_error_map.
    - apply folds_accumulates. exact C2. }
  destruct cs as [|c cs']; [discriminate|]. cbn [map] in C.
  exists (datum_of 8 c), (map (datum_of 8) cs'). split; [cbn [length] in *; now rewrite map_length|]. split; [exact C|]. split.
  - intros N. apply (folds_accumulates _ (c :: cs')). exact (R1 N).
  - intros A. destruct (R2 A) as (p & l & [= -> ->] & G). now apply folds_accumulates.
Qed.

Lemma sum_slice_panics tg x : (length x mod 8)%nat <> 0%nat -> sum_slice tg x = Panic.
Proof.
  intros M. apply Nat.eqb_neq in M. unfold sum_slice. change (lanes f32x8) with 8%nat. change (lanes f64x8) with 8%nat. now rewrite M.
Qed.

(** Exact sums. *)
Lemma unit_wide e : unit_exponent 4 e -> unit_exponent 8 e.
Proof. unfold unit_exponent. change (bias 4) with 127. change (sig_width 4) with 23. change (bias 8) with 1023. change (sig_width 8) with 52. lia. Qed.
Lemma units_wide e x zs : Forall2 (units 4 e) x zs -> Forall2 (units 8 e) (map f64_from x) zs.
Proof.
  induction 1 as [|p z x zs [P (s & D)] _ IH]; cbn [map]; constructor; [|exact IH].
  split; [apply (convert_datum 4 8 p); [now left|now right|exact P]|]. exists s. rewrite <- D. apply widen_datum. exact P.
Qed.
Lemma slice_scalar_exact e x zs : unit_exponent 4 e -> Forall2 (units 4 e) x zs -> total_abs zs <= 2 ^ 53 -> units 8 e (slice_scalar x) (total zs).
Proof.
  intros E U T. unfold slice_scalar.
  assert (Q : forall l a, fold_left (fun s p => fl_add 8 s (f64_from p)) l a = fold_left (fl_add 8) (map f64_from l) a)
    by (induction l; intros; cbn [map fold_left]; auto).
  rewrite Q. apply (fold_units 8 e (or_intror eq_refl) (unit_wide e E) _ zs _ 0); [apply zero_units; now right|now apply units_wide|exact T].
Qed.
Lemma sum_slice_exact tg e x zs : unit_exponent 4 e -> Forall2 (units 4 e) x zs -> total_abs zs <= 2 ^ 53 -> (length x mod 8)%nat = 0%nat ->
  exists r, sum_slice tg x = Ok r /\ units 8 e r (total zs).
Proof.
  intros E U T M. rewrite sum_slice_fold by exact M. pose proof (mod_div _ 8 ltac:(lia) M) as D.
  pose proof (units_wide e x zs U) as W. pose proof (Forall2_len _ _ _ U) as LL.
  assert (G : Forall2 (grid f64x8 e) (groups (length x / 8) 8 (map f64_from x)) (groups (length x / 8) 8 zs))
    by (apply (groups_grid f64x8 e); [exact W|cbn [vn f64x8]; rewrite map_length; lia]).
  assert (C : concat (groups (length x / 8) 8 zs) = zs) by (apply groups_concat; lia).
  destruct (iter_sum_units f64x8 e f64x8_type (unit_wide e E) _ _ G) as (z & Z1 & Z2 & Z3); [now rewrite C|].
  rewrite C in *. destruct (fsum_units f64x8 e f64x8_type (unit_wide e E) tg _ z Z1) as (r & R1 & R2).
  - change (top (vb f64x8)) with (2 ^ 53). lia.
  - exists r. split; [exact R1|]. now rewrite <- Z2.
Qed.
