(** C79: how accurate sums are. *)
From Coq Require Import ZArith List Bool Lia Reals Lra.
From Flocq Require Import Core.
From Verif.Model Require Import Base FloatLane Bytes Tables Reduce Slice ExSum ExOptions.
From Verif.Spec Require Import Spec Memory Floats Accuracy.
From Verif.Proofs Require Import ExOptionsTopP AccuracyP Accuracy2P.
From Verif.Props Require Import Tac Targets P18_Examples.
Import ListNotations.
Open Scope Z_scope.

(** C79: [sum] of a vector of finite numbers is within lanes - 1 roundings of the exact sum, on
    every target. *)
Theorem C79_sum : forall tg t v xs,
  float_type t -> is_vector t v -> numbers (vb t) v xs -> in_range (vb t) (vn t - 1) xs 0 ->
  exists r, fsum tg t v = Ok r /\ within (vb t) (vn t - 1) xs 0 r.
Proof. exact sum_accuracy. Qed.
Print Assumptions C79_sum.

(** C79: a lane of the sum of an iterator of vectors is within one rounding less than there are
    vectors of the exact sum of that lane. *)
Theorem C79_iter : forall t vs i ps xs,
  float_type t -> Forall (is_vector t) vs -> (i < vn t)%nat ->
  Forall2 (fun v p => lane v i p) vs ps -> numbers (vb t) ps xs -> in_range (vb t) (length vs - 1) xs 0 ->
  exists c, lane (iter_sum t vs) i c /\ within (vb t) (length vs - 1) xs 0 c.
Proof. exact iter_accuracy. Qed.
Print Assumptions C79_iter.

(** C79: both sums of a slice of n elements are within n / 8 + 6 roundings: adding one after
    the other takes n - 1. *)
Theorem C79_slices : forall tg m x ps xs,
  length ps = s_len x -> array_at (t_big_endian tg) 4 m (s_ptr x) ps -> Nat.modulo (length ps) 8 = 0%nat -> ps <> [] ->
  numbers 4 ps xs -> in_range 4 (length ps / 8 + 6) xs 0 ->
  (exists r, sum_ver tg m x = Ok r /\ within 4 (length ps / 8 + 6) xs 0 r) /\
  (exists r, sum_hor tg m x = Ok r /\ within 4 (length ps / 8 + 6) xs 0 r).
Proof. exact slices_accuracy. Qed.
Print Assumptions C79_slices.

(** C79: the parallel sum is within n / 8 + 7 roundings of the sum of the elements it looks at,
    however the work is divided. *)
Theorem C79_parallel : forall tg al sch m x ps xs i,
  length ps = s_len x -> array_at (t_big_endian tg) 4 m (s_ptr x) ps ->
  Nat.modulo (length ps) 8 = 0%nat -> ps <> [] ->
  0 < al -> (al | 32) -> (4 | s_ptr x) ->
  (al | s_ptr x + Z.of_nat (4 * i)) -> (forall j, (j < i)%nat -> ~ (al | s_ptr x + Z.of_nat (4 * j))) ->
  items sch = ((length ps - i) / 8)%nat ->
  numbers 4 ps xs ->
  let kept := if Nat.eqb i 0 then length xs else (length xs - 8 + i)%nat in
  in_range 4 (length ps / 8 + 7) (firstn kept xs) 0 ->
  exists r, sum_ver_par tg al sch m x = Ok r /\ within 4 (length ps / 8 + 7) (firstn kept xs) 0 r.
Proof. exact par_accuracy. Qed.
Print Assumptions C79_parallel.

(** C79: the dot products of n elements are within n (scalar) and n / 4 + 3 (vectors) roundings;
    each product may besides lose half the smallest positive number. *)
Theorem C79_dot : forall tg m a b ps qs xs ys,
  length ps = s_len a -> length qs = s_len b -> length ps = length qs -> ps <> [] ->
  array_at (t_big_endian tg) 4 m (s_ptr a) ps -> array_at (t_big_endian tg) 4 m (s_ptr b) qs ->
  numbers 4 ps xs -> numbers 4 qs ys ->
  let n := length ps in
  let lost := (INR n * half_least 4)%R in
  (in_range 4 n (map2 Rmult xs ys) lost ->
   exists r, scalar_dot_prod tg m a b = Ok r /\ within 4 n (map2 Rmult xs ys) lost r) /\
  (Nat.modulo n 4 = 0%nat -> in_range 4 (n / 4 + 3) (map2 Rmult xs ys) lost ->
   exists r, simd_dot_prod tg m a b = Ok r /\ within 4 (n / 4 + 3) (map2 Rmult xs ys) lost r).
Proof. exact dots_accuracy. Qed.
Print Assumptions C79_dot.

(** C79: the sums of the option prices, which are f32, are made in f64: within n - 1 (scalar) and n / 8 + 6
    (vectors) of its roundings. *)
Theorem C79_prices : forall new xs, numbers 4 new xs -> new <> [] ->
  (forall expf lnf sa xa ta ra va result count sum, in_range 8 (length new - 1) xs 0 ->
     scalar_black_scholes expf lnf sa xa ta ra va result count = Ok (sum, new) -> within 8 (length new - 1) xs 0 sum) /\
  (forall expf powff sa xa ta ra va result count sum, in_range 8 (length new - 1) xs 0 ->
     scalar_binomial_put expf powff sa xa ta ra va result count = Ok (sum, new) -> within 8 (length new - 1) xs 0 sum) /\
  (forall X tg junk sa xa ta ra va result count sum, in_range 8 (length new / 8 + 6) xs 0 ->
     simd_black_scholes X tg junk sa xa ta ra va result count = Ok (sum, new) -> within 8 (length new / 8 + 6) xs 0 sum) /\
  (forall X tg junk junk' sa xa ta ra va result count sum, in_range 8 (length new / 8 + 6) xs 0 ->
     simd_binomial_put X tg junk junk' sa xa ta ra va result count = Ok (sum, new) -> within 8 (length new / 8 + 6) xs 0 sum) /\
  (forall X tg junk order sa xa ta ra va result count sum, in_range 8 (length new / 8 + 6) xs 0 ->
     par_black_scholes X tg junk order sa xa ta ra va result count = Ok (sum, new) -> within 8 (length new / 8 + 6) xs 0 sum) /\
  (forall X tg junk junk' order sa xa ta ra va result count sum, in_range 8 (length new / 8 + 6) xs 0 ->
     par_binomial_put X tg junk junk' order sa xa ta ra va result count = Ok (sum, new) -> within 8 (length new / 8 + 6) xs 0 sum).
Proof.
  intros new xs N NE.
  assert (Q : forall (o : outcome (list Z)) sum, in_range 8 (length new - 1) xs 0 -> (r <- o ;; Ok (slice_scalar r, r)) = Ok (sum, new) -> within 8 (length new - 1) xs 0 sum).
  { intros [r| |] sum H; cbn [bind]; try discriminate. intros [= <- ->]. now apply slice_scalar_accuracy. }
  split; [intros *; apply Q|]. split; [intros *; apply Q|].
  split; [|split; [|split]]; intros * H E.
  - apply serial_sum in E. eapply sum_slice_accuracy; eauto.
  - apply serial_sum in E. eapply sum_slice_accuracy; eauto.
  - apply parallel_sum in E. eapply sum_slice_accuracy; eauto.
  - apply parallel_sum in E. eapply sum_slice_accuracy; eauto.
Qed.
Print Assumptions C79_prices.

(** 2^-24 in f32. *)
Definition tiny : Z := 0x33800000.
Lemma one_number : 0 <= f1 < 2 ^ (8 * Z.of_nat 4) /\ exists s, datum_of 4 f1 = Fin s 1%R.
Proof.
  split; [split; [discriminate|reflexivity]|]. exists false. unfold datum_of, magnitude. cbn -[bpow]. f_equal.
  change (IZR 8388608 * bpow radix2 (-23) = 1)%R. cbn. lra.
Qed.
Lemma tiny_number : 0 <= tiny < 2 ^ (8 * Z.of_nat 4) /\ exists s, datum_of 4 tiny = Fin s (/ 16777216)%R.
Proof.
  split; [split; [discriminate|reflexivity]|]. exists false. unfold datum_of, magnitude. cbn -[bpow]. f_equal.
  change (IZR 8388608 * bpow radix2 (-47) = / 16777216)%R. cbn. lra.
Qed.

(** 1 + 2^-24 + 2^-24 + 2^-24 is 1 in f32: three units of roundoff away from the exact sum, which
    is what the theorem allows, up to squares. *)
Example C79_example :
  let v := [f1; tiny; tiny; tiny] in
  let xs := [1; / 16777216; / 16777216; / 16777216]%R in
  is_vector f32x4 v /\ numbers 4 v xs /\ in_range 4 3 xs 0 /\
  fsum x86_64_avx2 f32x4 v = Ok f1 /\ within 4 3 xs 0 f1 /\ ~ within 4 2 xs 0 f1.
Proof.
  cbv zeta. split; [split; [reflexivity|repeat constructor; vm_compute; congruence]|].
  assert (N : numbers 4 [f1; tiny; tiny; tiny] [1; / 16777216; / 16777216; / 16777216]%R)
    by (repeat constructor; first [exact (proj2 one_number)|exact (proj2 tiny_number)|discriminate]).
  assert (U : roundoff 4 = (/ 16777216)%R) by (unfold roundoff; cbn; lra).
  assert (S : magnitudes [1; / 16777216; / 16777216; / 16777216]%R = (1 + 3 * / 16777216)%R).
  { unfold magnitudes. cbn [fold_right]. rewrite !Rabs_pos_eq by lra. lra. }
  assert (R : in_range 4 3 [1; / 16777216; / 16777216; / 16777216]%R 0).
  { unfold in_range. rewrite S, U. apply Rlt_trans with (bpow radix2 1); [cbn; lra|apply bpow_lt; reflexivity]. }
  split; [exact N|]. split; [exact R|].
  assert (E : fsum x86_64_avx2 f32x4 [f1; tiny; tiny; tiny] = Ok f1) by (vm_compute; reflexivity).
  split; [exact E|]. split.
  - destruct (C79_sum x86_64_avx2 f32x4 [f1; tiny; tiny; tiny] [1; / 16777216; / 16777216; / 16777216]%R) as (r & R1 & R2); auto.
    + repeat split; auto; cbn; lia.
    + split; [reflexivity|repeat constructor; vm_compute; congruence].
    + rewrite E in R1. injection R1 as <-. exact R2.
  - intros (_ & s & z & D & H). destruct one_number as (_ & s' & D'). rewrite D' in D. injection D as <- <-.
    rewrite S, U in H. unfold exact_sum in H. cbn [fold_right pow] in H. rewrite Rabs_left in H by lra. lra.
Qed.

(** The same numbers, twice, in memory: the vertical sum adds each to its like, and then loses only a part. *)
Example C79_example_slice :
  let ps := [f1; tiny; tiny; tiny; tiny; tiny; tiny; tiny; f1; tiny; tiny; tiny; tiny; tiny; tiny; tiny] in
  let m := stored 4096 ps in
  let x := {| s_ptr := 4096; s_len := 16 |} in
  array_at false 4 m 4096 ps /\ (exists r, sum_ver x86_64_avx2 m x = Ok r /\ within 4 8 (map (fun p => if Z.eqb p f1 then 1 else / 16777216)%R ps) 0 r) /\
  (exists r, sum_hor x86_64_avx2 m x = Ok r /\ within 4 8 (map (fun p => if Z.eqb p f1 then 1 else / 16777216)%R ps) 0 r) /\
  sum_ver x86_64_avx2 m x = Ok 0x40000000 /\ sum_hor x86_64_avx2 m x = Ok 0x40000000.
Proof.
  cbv zeta.
  set (ps := [f1; tiny; tiny; tiny; tiny; tiny; tiny; tiny; f1; tiny; tiny; tiny; tiny; tiny; tiny; tiny]).
  assert (A : array_at false 4 (stored 4096 ps) 4096 ps).
  { intros i p E.
    do 16 (destruct i as [|i]; [injection E as <-; intros [|[|[|[|k]]]] K; try (exfalso; lia); vm_compute; reflexivity|]).
    destruct i; discriminate E. }
  split; [exact A|].
  destruct (C79_slices x86_64_avx2 (stored 4096 ps) {| s_ptr := 4096; s_len := 16 |} ps (map (fun p => if Z.eqb p f1 then 1 else / 16777216)%R ps)) as [V H].
  - reflexivity.
  - exact A.
  - reflexivity.
  - discriminate.
  - unfold ps. repeat (apply Forall2_cons; [first [exact one_number|exact tiny_number]|]). apply Forall2_nil.
  - unfold in_range. assert (U : roundoff 4 = (/ 16777216)%R) by (unfold roundoff; cbn; lra). rewrite U.
    apply Rlt_trans with (bpow radix2 2); [|apply bpow_lt; reflexivity].
    change (length ps / 8 + 6)%nat with 8%nat. cbn [map ps Z.eqb]. unfold magnitudes. cbn -[Rabs pow bpow]. rewrite !Rabs_pos_eq by lra. cbn. lra.
  - split; [exact V|]. split; [exact H|]. split; [vm_compute; reflexivity|vm_compute; reflexivity].
Qed.
