(** The programs of the option pricing example. *)
From Coq Require Import ZArith List Bool Lia Reals Lra Permutation.
From Flocq Require Import Core.
From Verif.Model Require Import Base FloatLane Llvm Bytes Tables MathTables Math Minimal Ops Cast Reduce Float ExSum ExStencil ExGeometry ExOptions.
From Verif.Spec Require Import Spec Floats MathSpec Examples Stencil Rays Occlusion Formulas Pricing.
From Verif.Proofs Require Import Lib MinimalP BytesP SliceP FloatP FloatOpsP FloatVecP FloatApiP FloatApi2P FloatCastP ExactP ExSumP ExPacketP ExImageP ExIntersectMainP ExOptionsP ExOptionsKernelP ExOptionsDriverP.
Import ListNotations.
Open Scope Z_scope.
Local Notation pat := (pattern 4).
Local Notation dat := f32_datum.
Local Opaque fl_add fl_sub fl_mul fl_div fl_sqrt fl_lt fl_gt fl_ge fl_abs fl_max f32_neg fl_of_int fl_convert tree BINOMIAL_NUM roll_back.

Definition pricing := datum -> datum -> datum -> datum -> datum -> datum -> Prop.

Lemma priced_f32 (price : pricing) option n sa xa ta ra va old new : are_f32 old -> priced price option n sa xa ta ra va old new -> are_f32 new.
Proof.
  intros F (L & H1 & H2). apply Forall_forall. intros c I. apply In_nth_error in I as [i E].
  destruct (Nat.lt_ge_cases i n) as [A|A].
  - destruct (H1 i A) as (s & x & t & r & v & c' & _ & _ & _ & _ & _ & E' & P & _). congruence.
  - rewrite H2 in E by exact A. exact (Forall_nth_error _ _ _ _ F E).
Qed.

(** ** Scalar programs *)
Section Scalar.
  Variables (g : Z -> Z -> Z -> Z -> Z -> Z) (f : Z -> Z -> Z -> Z -> Z -> outcome Z) (price : pricing).
  Hypothesis HF : forall s x t r v, f s x t r v = Ok (g s x t r v).
  Hypothesis HP : forall s x t r v, pat s -> pat x -> pat t -> pat r -> pat v ->
    pat (g s x t r v) /\ price (dat s) (dat x) (dat t) (dat r) (dat v) (dat (g s x t r v)).
  Definition scalar_program sa xa ta ra va result count :=
    result <- scalar_loop f sa xa ta ra va result count ;; Ok (slice_scalar result, result).
  Lemma scalar_program_ok sa xa ta ra va result count :
    are_f32 sa -> are_f32 xa -> are_f32 ta -> are_f32 ra -> are_f32 va -> are_f32 result ->
    inputs_have count sa xa ta ra va -> (count <= length result)%nat ->
    exists r new, scalar_program sa xa ta ra va result count = Ok (r, new) /\
      priced price (fun i => i) count sa xa ta ra va result new /\
      is_f64 r /\ accumulates zero (map dat new) (datum_of 8 r).
  Proof.
    intros Fs Fx Ft Fr Fv Fo HI HR. destruct (scalar_loop_ok f g HF sa xa ta ra va result count HI HR) as (new & E & L & H1 & H2).
    exists (slice_scalar new), new. unfold scalar_program. rewrite E. cbn [bind]. split; [reflexivity|].
    assert (P : priced price (fun i => i) count sa xa ta ra va result new).
    { split; [exact L|]. split; [|exact H2]. intros i Hi. destruct (H1 i Hi) as (s & x & t & r & v & Es & Ex & Et & Er & Ev & En).
      exists s, x, t, r, v, (g s x t r v). do 6 (split; [assumption|]).
      apply HP; [exact (Forall_nth_error _ _ _ _ Fs Es)|exact (Forall_nth_error _ _ _ _ Fx Ex)|exact (Forall_nth_error _ _ _ _ Ft Et)
        |exact (Forall_nth_error _ _ _ _ Fr Er)|exact (Forall_nth_error _ _ _ _ Fv Ev)]. }
    split; [exact P|]. apply slice_scalar_sum. now apply priced_f32 in P.
  Qed.
  Lemma scalar_program_fails sa xa ta ra va result count :
    ~ (inputs_have count sa xa ta ra va /\ (count <= length result)%nat) -> scalar_program sa xa ta ra va result count = Panic.
  Proof. intros H. unfold scalar_program. now rewrite (scalar_loop_fails f g HF sa xa ta ra va result count H). Qed.
End Scalar.

(** ** Serial programs *)
Lemma by_8_eq n : (n mod 8)%nat = 0%nat -> by_8 n = map (fun i => (8 * i)%nat) (seq 0 (n / 8)).
Proof.
  intros M. pose proof (mod_div _ 8 ltac:(lia) M) as D. unfold by_8. do 2 f_equal.
  rewrite <- D at 1. rewrite Nat.div_add_l by lia. rewrite Nat.add_0_r. reflexivity.
Qed.
Lemma seq_in c i : In i (seq 0 c) <-> (i < c)%nat.
Proof. rewrite in_seq. lia. Qed.
Lemma div8 i : (i = 8 * (i / 8) + i mod 8 /\ i mod 8 < 8)%nat.
Proof. split; [apply Nat.div_mod_eq|apply Nat.mod_upper_bound; lia]. Qed.

Section Drivers.
  Variables (tg : target) (k : kernel) (price : pricing).
  Hypothesis HK : prices k price.
  Variables sa xa ta ra va : list Z.
  Hypotheses (Fs : are_f32 sa) (Fx : are_f32 xa) (Ft : are_f32 ta) (Fr : are_f32 ra) (Fv : are_f32 va).
  Local Notation debug := (t_debug tg).
  Local Notation get := (read_and_price debug k sa xa ta ra va).
  Local Notation have n := (inputs_have n sa xa ta ra va).

  Lemma have_le n m : (m <= n)%nat -> have n -> have m.
  Proof. clear. unfold inputs_have. lia. Qed.

  Lemma have_dec n : {have n} + {~ have n}.
  Proof.
    clear. unfold inputs_have.
    destruct (le_dec n (length sa)), (le_dec n (length xa)), (le_dec n (length ta)), (le_dec n (length ra)), (le_dec n (length va));
      try (right; lia); left; lia.
  Qed.

  Lemma chunks_priced off order c result new : (forall i, In i order <-> (i < c)%nat) ->
    (forall i, (i < c)%nat -> have (off i + 8)) -> length new = length result ->
    (forall i j, In i order -> (j < 8)%nat -> nth_error new (8 * i + j) = nth_error (filled debug k sa xa ta ra va off i) j) ->
    (forall j, ~ In (j / 8)%nat order -> nth_error new j = nth_error result j) ->
    priced price (fun i => off (i / 8) + i mod 8)%nat (8 * c) sa xa ta ra va result new.
  Proof.
    intros HO HH L H1 H2. split; [exact L|]. split.
    - intros i Hi. destruct (div8 i) as [E B]. assert (C : (i / 8 < c)%nat) by (clear - E B Hi; lia).
      destruct (filled_priced debug k price HK sa xa ta ra va Fs Fx Ft Fr Fv off (i / 8) (HH _ C) (i mod 8) B)
        as (s & x & t & r & v & p & Es & Ex & Et & Er & Ev & Ep & P).
      exists s, x, t, r, v, p. do 5 (split; [assumption|]). split; [|exact P].
      rewrite E at 1. rewrite H1; [exact Ep|now apply HO|exact B].
    - intros j J. apply H2. rewrite HO. destruct (div8 j) as [E B]. clear - E B J. lia.
  Qed.

  Definition serial_body i result :=
    p <- get i ;; tail <- from result i ;; tail <- write_unchecked debug tail p ;; Ok (firstn i result ++ tail).
  Lemma serial_unfold result count : serial tg k sa xa ta ra va result count =
    (_ <- assert (Nat.eqb (count mod 8) 0) ;; result <- foreach (by_8 count) result serial_body ;; sum <- sum_slice tg result ;; Ok (sum, result)).
  Proof. reflexivity. Qed.
  Lemma serial_write i p res : get (8 * i) = Ok p -> length p = 8%nat -> (8 * i + 8 <= length res)%nat -> serial_body (8 * i) res = Ok (wr i p res).
  Proof.
    clear. intros E P H. unfold serial_body. rewrite E. cbn [bind]. unfold from. rewrite (proj2 (Nat.leb_le _ _)) by lia. cbn [bind].
    unfold write_unchecked. rewrite skipn_length, (proj2 (Nat.leb_le _ _)) by lia. cbn [bind]. now rewrite skipn_add.
  Qed.
  Lemma serial_rounds result c : (8 * c <= length result)%nat -> have (8 * c) ->
    exists new, foreach (seq 0 c) result (fun i => serial_body (8 * i)) = Ok new /\ length new = length result /\
      priced price (fun i => i) (8 * c) sa xa ta ra va result new.
  Proof.
    intros HR HI.
    destruct (chunks_ok debug k price HK sa xa ta ra va Fs Fx Ft Fr Fv (fun i => 8 * i)%nat (fun i => serial_body (8 * i)) (length result) (seq 0 c))
      with (result := result) as (new & E & L & H1 & H2); auto using seq_NoDup.
    - intros i I. apply seq_in in I. split; [apply (have_le (8 * c)); [lia|exact HI]|lia].
    - intros i res p I Lr E P. apply seq_in in I. apply serial_write; [exact E|exact P|lia].
    - exists new. split; [exact E|]. split; [exact L|].
      destruct (chunks_priced (fun i => 8 * i)%nat (seq 0 c) c result new (seq_in c)) as (Q0 & Q1 & Q2); auto.
      + intros i I. apply (have_le (8 * c)); [lia|exact HI].
      + split; [exact Q0|]. split; [|exact Q2]. intros i I. specialize (Q1 i I). now rewrite <- (Nat.div_mod_eq i 8) in Q1.
  Qed.

  Lemma serial_ok result count : are_f32 result -> (count mod 8)%nat = 0%nat -> (length result mod 8)%nat = 0%nat ->
    have count -> (count <= length result)%nat ->
    exists r new, serial tg k sa xa ta ra va result count = Ok (r, new) /\
      priced price (fun i => i) count sa xa ta ra va result new /\
      is_f64 r /\ sum_by_columns (t_arch tg) (map dat new) (datum_of 8 r).
  Proof.
    intros Fo M MR HI HR. pose proof (mod_div _ 8 ltac:(lia) M) as D.
    assert (D' : (count = 8 * (count / 8))%nat) by lia.
    destruct (serial_rounds result (count / 8)) as (new & E & L & P); [lia|now rewrite <- D'|].
    rewrite <- D' in P. pose proof (priced_f32 _ _ _ _ _ _ _ _ _ _ Fo P) as Fn.
    destruct (sum_slice_columns tg new Fn) as (r & ES & B & C); [now rewrite L|].
    exists r, new. split; [|auto]. rewrite serial_unfold, M. cbn [Nat.eqb assert bind]. rewrite by_8_eq by exact M.
    rewrite foreach_map, E. cbn [bind]. rewrite ES. reflexivity.
  Qed.

  Lemma serial_panics result count : (count mod 8)%nat <> 0%nat -> serial tg k sa xa ta ra va result count = Panic.
  Proof. clear. intros M. apply Nat.eqb_neq in M. rewrite serial_unfold, M. reflexivity. Qed.
  Lemma serial_sum_panics result count : (count mod 8)%nat = 0%nat -> (length result mod 8)%nat <> 0%nat ->
    have count -> (count <= length result)%nat -> serial tg k sa xa ta ra va result count = Panic.
  Proof.
    intros M MR HI HR. pose proof (mod_div _ 8 ltac:(lia) M) as D.
    assert (D' : (count = 8 * (count / 8))%nat) by lia.
    destruct (serial_rounds result (count / 8)) as (new & E & L & P); [lia|now rewrite <- D'|].
    rewrite serial_unfold, M. cbn [Nat.eqb assert bind]. rewrite by_8_eq by exact M.
    rewrite foreach_map, E. cbn [bind]. rewrite sum_slice_panics; [reflexivity|now rewrite L].
  Qed.
  Lemma serial_short result count : (count mod 8)%nat = 0%nat -> ~ (have count /\ (count <= length result)%nat) ->
    serial tg k sa xa ta ra va result count = if t_debug tg then Panic else UB.
  Proof.
    intros M H.
    set (m := Nat.min (length sa) (Nat.min (length xa) (Nat.min (length ta) (Nat.min (length ra) (Nat.min (length va) (length result)))))).
    assert (N : (m < count)%nat) by (unfold m; clear - H; unfold inputs_have in H; lia).
    assert (HM : have m /\ (m <= length result)%nat) by (unfold m, inputs_have; clear; lia).
    assert (HB : ~ (have (8 * (m / 8) + 8) /\ (8 * (m / 8) + 8 <= length result)%nat)).
    { destruct (div8 m) as [E B]. intros [(A1 & A2 & A3 & A4 & A5) A6]. revert E B A1 A2 A3 A4 A5 A6. generalize (m mod 8)%nat (m / 8)%nat. unfold m. clear. lia. }
    clearbody m. destruct (div8 m) as [E B]. set (c := (m / 8)%nat) in *.
    destruct (serial_rounds result c) as (new & Ef & L & _); [lia|apply (have_le m); [lia|apply HM]|].
    rewrite serial_unfold, M. cbn [Nat.eqb assert bind]. rewrite by_8_eq by exact M. rewrite foreach_map.
    pose proof (mod_div _ 8 ltac:(lia) M) as D.
    assert (Hc : (c < count / 8)%nat) by (clear - D N E; lia).
    replace (count / 8)%nat with (c + S (count / 8 - c - 1))%nat by lia. rewrite seq_app, foreach_app, Ef. cbn [bind seq foreach Nat.add].
    assert (X : serial_body (8 * c) new = fail debug).
    { unfold serial_body. assert (HC : have (8 * c)) by (apply (have_le m); [lia|apply HM]).
      destruct (have_dec (8 * c + 8)) as [R|R].
      - assert (SH : (length new < 8 * c + 8)%nat) by (rewrite L; destruct (le_lt_dec (8 * c + 8) (length result)); [exfalso; tauto|assumption]).
        destruct (get_ok debug k price HK sa xa ta ra va Fs Fx Ft Fr Fv (8 * c) R) as (p & Ep & _). rewrite Ep. cbn [bind].
        unfold from. rewrite (proj2 (Nat.leb_le _ _)) by lia. cbn [bind]. unfold write_unchecked.
        rewrite skipn_length. rewrite (proj2 (Nat.leb_gt _ _)) by lia. apply fail_bind.
      - rewrite (get_fails debug k sa xa ta ra va (8 * c)); [apply fail_bind|exact HC|exact R]. }
    rewrite X. rewrite !fail_bind. reflexivity.
  Qed.

  (** *** Parallel programs *)
  Local Notation par := (par_body debug k sa xa ta ra va).
  Lemma chunk_length i (res : list Z) : length (firstn 8 (skipn (8 * i) res)) = Nat.min 8 (length res - 8 * i).
  Proof. now rewrite firstn_length, skipn_length. Qed.
  Lemma par_write i p res : get i = Ok p -> length p = 8%nat -> (8 * i + 8 <= length res)%nat -> par i res = Ok (wr i p res).
  Proof.
    clear. intros E P H. unfold par_body. rewrite E. pose proof (chunk_length i res) as L.
    replace (Nat.eqb (length (firstn 8 (skipn (8 * i) res))) 8) with true by (symmetry; apply Nat.eqb_eq; lia).
    rewrite orb_true_r. cbn [assert bind]. unfold write_unchecked. rewrite (proj2 (Nat.leb_le _ _)) by lia. cbn [bind].
    rewrite (skipn_all2 (firstn 8 (skipn (8 * i) res))) by lia. now rewrite app_nil_r.
  Qed.
  Lemma par_rounds order result : Permutation order (seq 0 (length result / 8)) ->
    (8 <= length result -> have (length result / 8 + 7))%nat ->
    exists new, foreach order result par = Ok new /\ length new = length result /\
      (forall i j, In i order -> (j < 8)%nat -> nth_error new (8 * i + j) = nth_error (filled debug k sa xa ta ra va (fun i => i) i) j) /\
      (forall j, ~ In (j / 8)%nat order -> nth_error new j = nth_error result j).
  Proof.
    intros HP HI.
    assert (IO : forall i, In i order -> (8 * i + 8 <= length result)%nat /\ have (i + 8)).
    { intros i I. apply (Permutation_in _ HP), seq_in in I. destruct (div8 (length result)) as [E B].
      assert (8 * i + 8 <= length result)%nat by (clear - E I; lia). split; [assumption|].
      apply (have_le (length result / 8 + 7)); [clear - I; lia|]. apply HI. lia. }
    apply (chunks_ok debug k price HK sa xa ta ra va Fs Fx Ft Fr Fv (fun i => i) par (length result) order).
    - apply (Permutation_NoDup (Permutation_sym HP)), seq_NoDup.
    - intros i I. split; now apply IO.
    - intros i res p I Lr E P. apply par_write; [exact E|exact P|]. rewrite Lr. now apply IO.
    - reflexivity.
  Qed.
  Lemma par_unfold order result count : parallel tg k order sa xa ta ra va result count =
    (_ <- assert (Nat.eqb (count mod 8) 0) ;; result <- foreach order result par ;; sum <- sum_slice tg result ;; Ok (sum, result)).
  Proof. reflexivity. Qed.

  Lemma parallel_ok order result count : are_f32 result -> (count mod 8)%nat = 0%nat -> (length result mod 8)%nat = 0%nat ->
    Permutation order (seq 0 (length result / 8)) -> (8 <= length result -> have (length result / 8 + 7))%nat ->
    exists r new, parallel tg k order sa xa ta ra va result count = Ok (r, new) /\
      priced price (fun i => i / 8 + i mod 8)%nat (length result) sa xa ta ra va result new /\
      is_f64 r /\ sum_by_columns (t_arch tg) (map dat new) (datum_of 8 r).
  Proof.
    intros Fo M MR HP HI. pose proof (mod_div _ 8 ltac:(lia) MR) as D.
    destruct (par_rounds order result HP HI) as (new & E & L & H1 & H2).
    assert (P : priced price (fun i => i / 8 + i mod 8)%nat (8 * (length result / 8)) sa xa ta ra va result new).
    { apply (chunks_priced (fun i => i) order (length result / 8)); auto.
      - intros i. rewrite <- seq_in. split; apply Permutation_in; auto using Permutation_sym.
      - intros i I. apply (have_le (length result / 8 + 7)); [lia|]. apply HI. lia. }
    replace (8 * (length result / 8))%nat with (length result) in P by lia.
    pose proof (priced_f32 _ _ _ _ _ _ _ _ _ _ Fo P) as Fn.
    destruct (sum_slice_columns tg new Fn) as (r & ES & B & C); [now rewrite L|].
    exists r, new. split; [|auto]. rewrite par_unfold, M. cbn [Nat.eqb assert bind]. rewrite E. cbn [bind]. now rewrite ES.
  Qed.

  (** Whatever goes wrong, it panics in a debug build. *)
  Lemma parallel_debug order result count : t_debug tg = true -> Permutation order (seq 0 (chunk_count result)) ->
    ~ ((count mod 8)%nat = 0%nat /\ (length result mod 8)%nat = 0%nat /\ (8 <= length result -> have (length result / 8 + 7))%nat) ->
    parallel tg k order sa xa ta ra va result count = Panic.
  Proof.
    intros DB HP H. rewrite par_unfold. destruct (Nat.eqb_spec (count mod 8) 0) as [M|M]; [|reflexivity]. cbn [assert bind].
    destruct (div8 (length result)) as [E B]. destruct (div8 (length result + 7)) as [E' B']. unfold chunk_count in HP.
    set (c := ((length result + 7) / 8)%nat) in *.
    assert (IN : forall i, In i order <-> (i < c)%nat)
      by (intros i; rewrite <- seq_in; split; apply Permutation_in; auto using Permutation_sym).
    assert (BAD : forall i s, length s = length result -> ~ (8 * i + 8 <= length result /\ have (i + 8))%nat -> par i s = Panic).
    { intros i s Ls N. unfold par_body. rewrite DB. cbn [negb orb]. pose proof (chunk_length i s) as LC.
      destruct (Nat.eqb_spec (length (firstn 8 (skipn (8 * i) s))) 8) as [F|F]; [|reflexivity]. cbn [assert bind].
      destruct (get_not_ok true k sa xa ta ra va i) as [G|[G _]]; [|now rewrite G|discriminate].
      intros G. apply N. split; [lia|exact G]. }
    rewrite (foreach_fails (fun s => length s = length result) Panic); [reflexivity|reflexivity| | |reflexivity].
    - intros i s I Ls.
      destruct (le_lt_dec (8 * i + 8) (length result)) as [R|R]; [|right; apply BAD; [exact Ls|lia]].
      destruct (have_dec (i + 8)) as [A|A]; [|right; apply BAD; [exact Ls|tauto]].
      left. destruct (get_ok debug k price HK sa xa ta ra va Fs Fx Ft Fr Fv i A) as (p & Ep & V & _).
      pose proof (proj1 V) as Lp. change (vn f32x8) with 8%nat in Lp.
      exists (wr i p s). split; [apply par_write; [exact Ep|exact Lp|lia]|]. rewrite wr_length; lia.
    - destruct (Nat.eq_dec (length result mod 8) 0) as [MR|MR].
      + assert (8 <= length result /\ ~ have (length result / 8 + 7))%nat as [R A].
        { destruct (le_lt_dec 8 (length result)); [|exfalso; apply H; repeat split; auto; lia].
          split; [assumption|]. intros A. apply H. auto. }
        exists (c - 1)%nat. split; [apply IN; lia|]. intros s Ls. apply BAD; [exact Ls|].
        intros [_ N]. apply A. apply (have_le (c - 1 + 8)); [|exact N]. lia.
      + exists (c - 1)%nat. split; [apply IN; lia|]. intros s Ls. apply BAD; [exact Ls|]. lia.
  Qed.
  (** A result slice whose length is no multiple of eight: undefined in a release build. *)
  Lemma parallel_release order result count : t_debug tg = false -> Permutation order (seq 0 (chunk_count result)) ->
    (count mod 8)%nat = 0%nat -> (length result mod 8)%nat <> 0%nat -> have (chunk_count result + 7) ->
    parallel tg k order sa xa ta ra va result count = UB.
  Proof.
    intros DB HP M MR HI. rewrite par_unfold, M. cbn [Nat.eqb assert bind].
    destruct (div8 (length result)) as [E B]. destruct (div8 (length result + 7)) as [E' B']. unfold chunk_count in *.
    set (c := ((length result + 7) / 8)%nat) in *.
    assert (IN : forall i, In i order <-> (i < c)%nat)
      by (intros i; rewrite <- seq_in; split; apply Permutation_in; auto using Permutation_sym).
    assert (ANY : forall i, (i < c)%nat -> exists p, get i = Ok p /\ length p = 8%nat).
    { intros i I. destruct (get_ok debug k price HK sa xa ta ra va Fs Fx Ft Fr Fv i) as (p & Ep & V & _); [apply (have_le (c + 7)); [lia|exact HI]|].
      exists p. split; [exact Ep|exact (proj1 V)]. }
    assert (BAD : forall i s, (i < c)%nat -> length s = length result -> (length result < 8 * i + 8)%nat -> par i s = UB).
    { intros i s I Ls N. destruct (ANY i I) as (p & Ep & _). unfold par_body. rewrite Ep, DB. cbn [negb orb assert bind].
      unfold write_unchecked. rewrite chunk_length. rewrite (proj2 (Nat.leb_gt _ _)) by lia. reflexivity. }
    rewrite (foreach_fails (fun s => length s = length result) UB); [reflexivity|reflexivity| | |reflexivity].
    - intros i s I Ls. apply IN in I.
      destruct (le_lt_dec (8 * i + 8) (length result)) as [R|R]; [|right; apply BAD; assumption].
      left. destruct (ANY i I) as (p & Ep & Lp).
      exists (wr i p s). split; [apply par_write; [exact Ep|exact Lp|lia]|]. rewrite wr_length; lia.
    - exists (c - 1)%nat. split; [apply IN; lia|]. intros s Ls. apply BAD; lia.
  Qed.
  (** Inputs that are too short: never a result. *)
  Lemma parallel_short order result count x : Permutation order (seq 0 (chunk_count result)) ->
    (0 < length result)%nat -> ~ have (chunk_count result + 7) ->
    parallel tg k order sa xa ta ra va result count <> Ok x.
  Proof.
    intros HP R A. rewrite par_unfold. destruct (Nat.eqb (count mod 8) 0); [|discriminate]. cbn [assert bind].
    destruct (div8 (length result + 7)) as [E' B']. unfold chunk_count in *.
    set (c := ((length result + 7) / 8)%nat) in *.
    assert (IN : forall i, In i order <-> (i < c)%nat)
      by (intros i; rewrite <- seq_in; split; apply Permutation_in; auto using Permutation_sym).
    destruct (foreach order result par) as [new| |] eqn:F; try discriminate. exfalso. revert F.
    apply (foreach_not_ok (fun _ => True)); auto.
    exists (c - 1)%nat. split; [apply IN; lia|]. intros s s' _. unfold par_body.
    destruct (negb debug || Nat.eqb (length (firstn 8 (skipn (8 * (c - 1)) s))) 8); cbn [assert bind]; [|discriminate].
    destruct (get_not_ok debug k sa xa ta ra va (c - 1)) as [G|[_ G]]; [|rewrite G; discriminate|rewrite G; discriminate].
    intros N. apply A. apply (have_le (c - 1 + 8)); [lia|exact N].
  Qed.
  (** The order in which the chunks run does not matter. *)
  Lemma parallel_orders o1 o2 result count : (length result mod 8)%nat = 0%nat ->
    Permutation o1 (seq 0 (length result / 8)) -> Permutation o2 (seq 0 (length result / 8)) ->
    (8 <= length result -> have (length result / 8 + 7))%nat ->
    parallel tg k o1 sa xa ta ra va result count = parallel tg k o2 sa xa ta ra va result count.
  Proof.
    intros MR P1 P2 HI. rewrite !par_unfold.
    destruct (par_rounds o1 result P1 HI) as (n1 & E1 & L1 & A1 & B1).
    destruct (par_rounds o2 result P2 HI) as (n2 & E2 & L2 & A2 & B2).
    rewrite E1, E2. cbn [bind]. replace n2 with n1; [reflexivity|].
    apply nth_error_ext; [congruence|]. intros i a b. destruct (div8 i) as [E B].
    assert (IO : In (i / 8)%nat o1 <-> In (i / 8)%nat o2)
      by (split; intros I; [apply (Permutation_in _ (Permutation_sym P2)), (Permutation_in _ P1)|apply (Permutation_in _ (Permutation_sym P1)), (Permutation_in _ P2)]; exact I).
    destruct (in_dec Nat.eq_dec (i / 8)%nat o1) as [I|I].
    - rewrite E. rewrite A1, A2 by (auto; now apply IO). congruence.
    - rewrite B1, B2 by tauto. congruence.
  Qed.

  (** The sum of a run. *)
  Lemma serial_sum result count r new : serial tg k sa xa ta ra va result count = Ok (r, new) -> sum_slice tg new = Ok r.
  Proof.
    clear. rewrite serial_unfold. destruct (assert _) as [u| |]; try discriminate. cbn [bind].
    destruct (foreach _ _ _) as [n| |]; try discriminate. cbn [bind]. destruct (sum_slice tg n) as [s| |] eqn:E; try discriminate.
    cbn [bind]. congruence.
  Qed.
  Lemma parallel_sum order result count r new : parallel tg k order sa xa ta ra va result count = Ok (r, new) -> sum_slice tg new = Ok r.
  Proof.
    clear. rewrite par_unfold. destruct (assert _) as [u| |]; try discriminate. cbn [bind].
    destruct (foreach _ _ _) as [n| |]; try discriminate. cbn [bind]. destruct (sum_slice tg n) as [s| |] eqn:E; try discriminate.
    cbn [bind]. congruence.
  Qed.
End Drivers.

Lemma sum_ok_exact tg e x zs r : sum_slice tg x = Ok r -> unit_exponent 4 e -> Forall2 (units 4 e) x zs -> total_abs zs <= 2 ^ 53 ->
  units 8 e r (total zs).
Proof.
  intros E U F T. destruct (Nat.eq_dec (length x mod 8) 0) as [M|M].
  - destruct (sum_slice_exact tg e x zs U F T M) as (r' & E' & R). congruence.
  - now rewrite sum_slice_panics in E by exact M.
Qed.

(** ** The start data *)
Lemma repeat_f32 x n : is_f32 x -> are_f32 (repeat x n).
Proof. intros H. apply Forall_forall. intros y Y. apply repeat_spec in Y. now subst. Qed.
Lemma state_f32 n : let st := state_new n in are_f32 (st_s st) /\ are_f32 (st_x st) /\ are_f32 (st_t st) /\ are_f32 (st_r st) /\ are_f32 (st_v st) /\ are_f32 (st_result st).
Proof. cbn [state_new st_s st_x st_t st_r st_v st_result]. split; [|split; [|split; [|split; [|split]]]]; apply repeat_f32; split; (discriminate || reflexivity). Qed.
Lemma state_has n : let st := state_new n in inputs_have n (st_s st) (st_x st) (st_t st) (st_r st) (st_v st) /\ length (st_result st) = n.
Proof. cbn [state_new st_s st_x st_t st_r st_v st_result]. unfold inputs_have. rewrite !repeat_length. lia. Qed.
Lemma nth_repeat_some {A} (x : A) n i y : nth_error (repeat x n) i = Some y -> y = x.
Proof. intros H. apply nth_error_In in H. now apply repeat_spec in H. Qed.

Lemma start_data : dat 0x42c80000 = Fin false 100 /\ dat 0x42c40000 = Fin false 98 /\ dat 0x40000000 = Fin false 2 /\
  dat 0x3ca3d70a = Fin false (rounded 4 (2 / 100)) /\ dat 0x40a00000 = Fin false 5.
Proof.
  assert (I : forall z, Z.abs z < 2 ^ 24 -> 0 <= z -> dat (fl_of_int 4 z) = Fin false (IZR z)).
  { intros z H P. rewrite (proj2 (int_datum z H)). f_equal. apply Z.ltb_ge. exact P. }
  split; [|split; [|split; [|split]]].
  - replace 0x42c80000 with (fl_of_int 4 100) by (vm_compute; reflexivity). now apply I.
  - replace 0x42c40000 with (fl_of_int 4 98) by (vm_compute; reflexivity). now apply I.
  - replace 0x40000000 with (fl_of_int 4 2) by (vm_compute; reflexivity). now apply I.
  - assert (H : dat 0x3ca3d70a = Fin (Rlt_bool (2 / 100) 0) (rounded 4 (2 / 100))) by lit (-29) 29.
    rewrite H. f_equal. apply Rlt_bool_false. lra.
  - replace 0x40a00000 with (fl_of_int 4 5) by (vm_compute; reflexivity). now apply I.
Qed.
Lemma state_prices (price : pricing) option n new :
  let st := state_new n in priced price option n (st_s st) (st_x st) (st_t st) (st_r st) (st_v st) (st_result st) new ->
  length new = n /\ Forall (start_price price) new.
Proof.
  cbn [state_new st_s st_x st_t st_r st_v st_result]. intros (L & H & _). rewrite repeat_length in L. split; [exact L|].
  apply Forall_forall. intros c I. apply In_nth_error in I as [i E].
  assert (N : (i < n)%nat) by (rewrite <- L; apply nth_error_Some; congruence).
  destruct (H i N) as (s & x & t & r & v & c' & Es & Ex & Et & Er & Ev & Ec & P & Q).
  apply nth_repeat_some in Es, Ex, Et, Er, Ev. subst. rewrite E in Ec. injection Ec as <-.
  destruct start_data as (D1 & D2 & D3 & D4 & D5). rewrite D1, D2, D3, D4, D5 in Q. split; assumption.
Qed.

(** ** Exact arithmetic *)
Section Mean.
  Local Open Scope R_scope.
  Definition bc (n i : nat) : R := if (i <=? n)%nat then Binomial.C n i else 0.
  Lemma fact_pos n : INR (fact n) <> 0.
  Proof. apply INR_fact_neq_0. Qed.
  Lemma bc_0 n : bc n 0 = 1.
  Proof. unfold bc. cbn [Nat.leb]. unfold Binomial.C. rewrite Nat.sub_0_r. change (fact 0) with 1%nat. cbn [INR]. field. apply fact_pos. Qed.
  Lemma bc_n n : Binomial.C n n = 1.
  Proof. unfold Binomial.C. rewrite Nat.sub_diag. change (fact 0) with 1%nat. cbn [INR]. field. apply fact_pos. Qed.
  Lemma bc_S n i : bc (S n) (S i) = bc n i + bc n (S i).
  Proof.
    unfold bc. destruct (lt_eq_lt_dec i n) as [[L| -> ]|L].
    - rewrite !(proj2 (Nat.leb_le _ _)) by lia. symmetry. now apply pascal.
    - rewrite !(proj2 (Nat.leb_le _ _)) by lia. rewrite (proj2 (Nat.leb_gt _ _)) by lia. rewrite !bc_n. ring.
    - rewrite !(proj2 (Nat.leb_gt _ _)) by lia. ring.
  Qed.
  Lemma bc_out n i : (n < i)%nat -> bc n i = 0.
  Proof. intros H. unfold bc. now rewrite (proj2 (Nat.leb_gt _ _)) by lia. Qed.
  Lemma mean_bc n p leaf : binomial_mean n p leaf = sum_f_R0 (fun i => bc n i * p ^ i * (1 - p) ^ (n - i) * leaf i) n.
  Proof. apply sum_eq. intros i I. unfold bc. now rewrite (proj2 (Nat.leb_le _ _)) by lia. Qed.
  Lemma sum_first f n : sum_f_R0 f (S n) = f 0%nat + sum_f_R0 (fun i => f (S i)) n.
  Proof. rewrite decomp_sum by lia. reflexivity. Qed.

  Lemma mean_step n p leaf : binomial_mean (S n) p leaf = (1 - p) * binomial_mean n p leaf + p * binomial_mean n p (fun i => leaf (S i)).
  Proof.
    rewrite !mean_bc, sum_first.
    assert (A : sum_f_R0 (fun i => bc n i * p ^ i * (1 - p) ^ (n - i) * leaf i) n =
      1 * (1 - p) ^ n * leaf 0%nat + sum_f_R0 (fun i => bc n (S i) * p ^ S i * (1 - p) ^ (n - S i) * leaf (S i)) n).
    { transitivity (sum_f_R0 (fun i => bc n i * p ^ i * (1 - p) ^ (n - i) * leaf i) (S n)).
      - cbn [sum_f_R0]. rewrite (bc_out n (S n)) by lia. ring.
      - rewrite sum_first, bc_0, Nat.sub_0_r. cbn [pow]. ring. }
    rewrite A. rewrite bc_0. change (S n - 0)%nat with (S n). rewrite Rmult_plus_distr_l, !scal_sum. cbn [pow].
    rewrite Rplus_assoc, <- sum_plus. f_equal; [ring|]. apply sum_eq. intros i I. rewrite bc_S. change (S n - S i)%nat with (n - i)%nat.
    destruct (Nat.eq_dec i n) as [->|N].
    - rewrite (bc_out n (S n)) by lia. ring.
    - replace (n - i)%nat with (S (n - S i)) by lia. cbn [pow]. ring.
  Qed.
  Lemma mean_ext n p f g : (forall i, (i <= n)%nat -> f i = g i) -> binomial_mean n p f = binomial_mean n p g.
  Proof. intros H. apply sum_eq. intros i I. now rewrite H. Qed.

  Theorem tree_is_mean step pu disc (node : nat -> nat -> R) leaves : step = divided \/ step = multiplied -> disc <> 0 ->
    (forall n j, (S n + j < leaves)%nat -> node (S n) j = exact_value [pu; disc; node n j; node n (S j)] step) ->
    forall n j, (n + j < leaves)%nat -> node n j = binomial_mean n pu (fun i => node 0%nat (j + i)%nat) / disc ^ n.
  Proof.
    intros HS HD H n. induction n as [|n IH]; intros j J.
    - unfold binomial_mean. cbn [sum_f_R0 pow Nat.sub]. rewrite bc_n, Nat.add_0_r. field.
    - rewrite H by lia. rewrite mean_step.
      assert (E : exact_value [pu; disc; node n j; node n (S j)] step = ((1 - pu) * node n j + pu * node n (S j)) / disc)
        by (destruct HS as [-> | ->]; cbn [divided multiplied mean exact_value nth]; field; exact HD).
      rewrite E, !IH by lia.
      rewrite (mean_ext n pu (fun i => node 0%nat (S j + i)%nat) (fun i => node 0%nat (j + S i)%nat)) by (intros; f_equal; lia).
      cbn [pow]. field. split; [now apply pow_nonzero|exact HD].
  Qed.
End Mean.

(** ** The functions of the scalar version *)
Section ScalarPrices.
  Variables (expf lnf : Z -> Z) (powff : Z -> Z -> Z).
  Variables (exponential logarithm : datum -> datum -> Prop) (power : datum -> datum -> datum -> Prop).
  Hypotheses (HE : computes expf exponential) (HL : computes lnf logarithm) (HP : computes2 powff power).
  Lemma fneg_ok p : pat p -> pat (f32_neg p) /\ dat (f32_neg p) = negated (dat p).
  Proof. intros P. split; [now apply p_neg|now apply d_neg]. Qed.
  Lemma fsqrt_ok p : pat p -> pat (fl_sqrt 4 p) /\ ieee_sqrt 4 (dat p) (dat (fl_sqrt 4 p)).
  Proof. intros P. split; [now apply p_sqrt|now apply d_sqrt]. Qed.
  Lemma scalar_call_price s x t r v : pat s -> pat x -> pat t -> pat r -> pat v ->
    pat (scalar_call expf lnf s x t r v) /\
    call_price exponential logarithm (dat s) (dat x) (dat t) (dat r) (dat v) (dat (scalar_call expf lnf s x t r v)).
  Proof. intros. rewrite scalar_call_lane. apply call_ok; auto using fneg_ok, fsqrt_ok. Qed.
  Lemma lane_put_price s x t r v : pat s -> pat x -> pat t -> pat r -> pat v ->
    pat (lane_put (fl_sqrt 4) expf powff step_div s x t r v) /\
    put_price exponential power BINOMIAL_NUM divided (dat s) (dat x) (dat t) (dat r) (dat v) (dat (lane_put (fl_sqrt 4) expf powff step_div s x t r v)).
  Proof. intros. apply put_ok; auto using fsqrt_ok, step_div_ok. Qed.
End ScalarPrices.

Lemma b64 : BINOMIAL_NUM = 64%nat.
Proof. reflexivity. Qed.
Lemma scalar_puts_ok expf powff exponential (power : datum -> datum -> datum -> Prop) : computes expf exponential -> computes2 powff power ->
  forall sa xa ta ra va result count,
  are_f32 sa -> are_f32 xa -> are_f32 ta -> are_f32 ra -> are_f32 va -> are_f32 result ->
  inputs_have count sa xa ta ra va -> (count <= length result)%nat ->
  exists sum new, scalar_binomial_put expf powff sa xa ta ra va result count = Ok (sum, new) /\
     priced (put_price exponential power 64 divided) (fun i => i) count sa xa ta ra va result new /\
     is_f64 sum /\ accumulates zero (map f32_datum new) (datum_of 8 sum).
Proof.
  rewrite <- b64. intros HE HP.
  exact (scalar_program_ok (lane_put (fl_sqrt 4) expf powff step_div) (scalar_put expf powff) (put_price exponential power BINOMIAL_NUM divided)
    (scalar_put_lane expf powff) (lane_put_price expf powff exponential power HE HP)).
Qed.
Lemma scalar_puts_fail expf powff sa xa ta ra va result count :
  ~ (inputs_have count sa xa ta ra va /\ (count <= length result)%nat) -> scalar_binomial_put expf powff sa xa ta ra va result count = Panic.
Proof.
  exact (scalar_program_fails (lane_put (fl_sqrt 4) expf powff step_div) (scalar_put expf powff) (scalar_put_lane expf powff) sa xa ta ra va result count).
Qed.
Lemma simd_put_64 X S tg junk junk' exponential logarithm power :
  works_lanewise X S -> follows_llvm S -> math_is S exponential logarithm power -> ~ uses_sleef_sse2 tg ->
  is_vector f32x8 junk -> is_vector f32x8 junk' -> prices (simd_put X tg junk junk') (put_price exponential power 64 multiplied).
Proof. rewrite <- b64. exact (simd_put_prices X S tg junk junk' exponential logarithm power). Qed.
