(** C73, C74: the option pricing example. *)
From Coq Require Import ZArith List Bool Lia Reals Lra Permutation.
From Flocq Require Import Core.
From Verif.Model Require Import Base FloatLane Tables MathTables Math ExOptions.
From Verif.Spec Require Import Spec Floats MathSpec Examples Stencil Rays Occlusion Formulas Pricing.
From Verif.Proofs Require Import Lib FloatP MathLlvmP ExOptionsP ExOptionsKernelP ExOptionsDriverP ExOptionsTopP.
From Verif.Props Require Import Tac Targets.
Import ListNotations.
Open Scope Z_scope.
Local Opaque simd_put simd_call scalar_put scalar_call.

(** C73: the scalar programs put the price of option i into result i, for the first [count] options, leave the other
    results alone, and return the sum of all results, added in order in f64. *)
Theorem C73_scalar : forall expf lnf powff exponential logarithm power,
  computes expf exponential -> computes lnf logarithm -> computes2 powff power ->
  forall sa xa ta ra va result count,
  are_f32 sa -> are_f32 xa -> are_f32 ta -> are_f32 ra -> are_f32 va -> are_f32 result ->
  inputs_have count sa xa ta ra va -> (count <= length result)%nat ->
  (exists sum new, scalar_black_scholes expf lnf sa xa ta ra va result count = Ok (sum, new) /\
     priced (call_price exponential logarithm) (fun i => i) count sa xa ta ra va result new /\
     is_f64 sum /\ accumulates zero (map f32_datum new) (datum_of 8 sum)) /\
  (exists sum new, scalar_binomial_put expf powff sa xa ta ra va result count = Ok (sum, new) /\
     priced (put_price exponential power 64 divided) (fun i => i) count sa xa ta ra va result new /\
     is_f64 sum /\ accumulates zero (map f32_datum new) (datum_of 8 sum)).
Proof.
  intros. split.
  - apply (scalar_program_ok (scalar_call expf lnf)); auto. intros. now apply scalar_call_price.
  - now apply scalar_puts_ok.
Qed.
Print Assumptions C73_scalar.

(** C73: they panic if a slice has less than [count] elements. *)
Theorem C73_scalar_short : forall expf lnf powff sa xa ta ra va result count,
  ~ (inputs_have count sa xa ta ra va /\ (count <= length result)%nat) ->
  scalar_black_scholes expf lnf sa xa ta ra va result count = Panic /\
  scalar_binomial_put expf powff sa xa ta ra va result count = Panic.
Proof.
  intros. split.
  - apply (scalar_program_fails (scalar_call expf lnf)); auto.
  - now apply scalar_puts_fail.
Qed.
Print Assumptions C73_scalar_short.

(** C73: the vector kernels price every lane by itself: the call by the same formula, the put by the same tree,
    except that they multiply by 1 / disc instead of dividing by disc. *)
Theorem C73_kernels : forall X S tg junk junk' exponential logarithm power,
  works_lanewise X S -> follows_llvm S -> math_is S exponential logarithm power -> ~ uses_sleef_sse2 tg ->
  is_vector f32x8 junk -> is_vector f32x8 junk' ->
  prices (simd_call X tg junk) (call_price exponential logarithm) /\
  prices (simd_put X tg junk junk') (put_price exponential power 64 multiplied).
Proof. intros. split; [eapply simd_call_prices; eassumption|eapply simd_put_64; eassumption]. Qed.
Print Assumptions C73_kernels.

(** C73: the vector programs, with all lengths and [count] multiples of eight, do what the scalar programs do, except
    that they add the results by columns. *)
Theorem C73_serial : forall X S tg junk junk' exponential logarithm power,
  works_lanewise X S -> follows_llvm S -> math_is S exponential logarithm power -> ~ uses_sleef_sse2 tg ->
  is_vector f32x8 junk -> is_vector f32x8 junk' ->
  forall sa xa ta ra va result count,
  are_f32 sa -> are_f32 xa -> are_f32 ta -> are_f32 ra -> are_f32 va -> are_f32 result ->
  (count mod 8 = 0)%nat -> (length result mod 8 = 0)%nat ->
  inputs_have count sa xa ta ra va -> (count <= length result)%nat ->
  (exists sum new, simd_black_scholes X tg junk sa xa ta ra va result count = Ok (sum, new) /\
     priced (call_price exponential logarithm) (fun i => i) count sa xa ta ra va result new /\
     is_f64 sum /\ sum_by_columns (t_arch tg) (map f32_datum new) (datum_of 8 sum)) /\
  (exists sum new, simd_binomial_put X tg junk junk' sa xa ta ra va result count = Ok (sum, new) /\
     priced (put_price exponential power 64 multiplied) (fun i => i) count sa xa ta ra va result new /\
     is_f64 sum /\ sum_by_columns (t_arch tg) (map f32_datum new) (datum_of 8 sum)).
Proof.
  intros. split.
  - apply (serial_ok tg _ (call_price exponential logarithm)); auto. eapply simd_call_prices; eassumption.
  - apply (serial_ok tg _ (put_price exponential power 64 multiplied)); auto. eapply simd_put_64; eassumption.
Qed.
Print Assumptions C73_serial.

(** C73: the vector programs panic if [count] or the length of the result is no multiple of eight.  They are safe
    functions, but if a slice has less than [count] elements only a debug build panics: in a release build they
    read or write beyond it. *)
Theorem C73_serial_fails : forall X S tg junk junk' exponential logarithm power,
  works_lanewise X S -> follows_llvm S -> math_is S exponential logarithm power -> ~ uses_sleef_sse2 tg ->
  is_vector f32x8 junk -> is_vector f32x8 junk' ->
  forall sa xa ta ra va result count,
  are_f32 sa -> are_f32 xa -> are_f32 ta -> are_f32 ra -> are_f32 va ->
  let calls := simd_black_scholes X tg junk sa xa ta ra va result count in
  let puts := simd_binomial_put X tg junk junk' sa xa ta ra va result count in
  let enough := inputs_have count sa xa ta ra va /\ (count <= length result)%nat in
  ((count mod 8 <> 0)%nat -> calls = Panic /\ puts = Panic) /\
  ((count mod 8 = 0)%nat -> enough -> (length result mod 8 <> 0)%nat -> calls = Panic /\ puts = Panic) /\
  ((count mod 8 = 0)%nat -> ~ enough ->
     (t_debug tg = true -> calls = Panic /\ puts = Panic) /\ (t_debug tg = false -> calls = UB /\ puts = UB)).
Proof.
  intros X S tg junk junk' exponential logarithm power HW HF HM HS HJ HJ' sa xa ta ra va result count Fs Fx Ft Fr Fv calls puts enough.
  pose proof (simd_call_prices X S tg junk junk' exponential logarithm power HW HF HM HS HJ HJ') as KC.
  pose proof (simd_put_64 X S tg junk junk' exponential logarithm power HW HF HM HS HJ HJ') as KP.
  split; [|split].
  - intros M. split; now apply serial_panics.
  - intros M [H1 H2] MR. split; eapply serial_sum_panics; eauto.
  - intros M H. unfold calls, puts, simd_black_scholes, simd_binomial_put.
    rewrite (serial_short tg _ _ KC sa xa ta ra va Fs Fx Ft Fr Fv result count M H), (serial_short tg _ _ KP sa xa ta ra va Fs Fx Ft Fr Fv result count M H).
    split; intros ->; auto.
Qed.
Print Assumptions C73_serial_fails.

(** C73: if the results are multiples of one unit and small enough, the scalar and the vector sum are the exact total. *)
Theorem C73_sums : forall e new zs, unit_exponent 4 e -> Forall2 (units 4 e) new zs -> total_abs zs <= 2 ^ 53 ->
  (forall expf lnf sa xa ta ra va result count sum,
     scalar_black_scholes expf lnf sa xa ta ra va result count = Ok (sum, new) -> units 8 e sum (total zs)) /\
  (forall expf powff sa xa ta ra va result count sum,
     scalar_binomial_put expf powff sa xa ta ra va result count = Ok (sum, new) -> units 8 e sum (total zs)) /\
  (forall X tg junk sa xa ta ra va result count sum,
     simd_black_scholes X tg junk sa xa ta ra va result count = Ok (sum, new) -> units 8 e sum (total zs)) /\
  (forall X tg junk junk' sa xa ta ra va result count sum,
     simd_binomial_put X tg junk junk' sa xa ta ra va result count = Ok (sum, new) -> units 8 e sum (total zs)) /\
  (forall X tg junk order sa xa ta ra va result count sum,
     par_black_scholes X tg junk order sa xa ta ra va result count = Ok (sum, new) -> units 8 e sum (total zs)) /\
  (forall X tg junk junk' order sa xa ta ra va result count sum,
     par_binomial_put X tg junk junk' order sa xa ta ra va result count = Ok (sum, new) -> units 8 e sum (total zs)).
Proof.
  intros e new zs U F T.
  assert (Q : forall (o : outcome (list Z)) sum, (r <- o ;; Ok (slice_scalar r, r)) = Ok (sum, new) -> units 8 e sum (total zs)).
  { intros [r| |] sum; cbn [bind]; try discriminate. intros [= <- ->]. now apply slice_scalar_exact. }
  split; [intros *; apply Q|]. split; [intros *; apply Q|].
  split; [|split; [|split]]; intros * E.
  - apply serial_sum in E. eapply sum_ok_exact; eauto.
  - apply serial_sum in E. eapply sum_ok_exact; eauto.
  - apply parallel_sum in E. eapply sum_ok_exact; eauto.
  - apply parallel_sum in E. eapply sum_ok_exact; eauto.
Qed.
Print Assumptions C73_sums.

(** C73: in exact arithmetic both trees come to the discounted mean of the leaves over the number of heads in n throws
    that show heads with probability pu. *)
Theorem C73_tree : forall step pu disc (node : nat -> nat -> R) leaves, step = divided \/ step = multiplied -> disc <> 0%R ->
  (forall n j, (S n + j < leaves)%nat -> node (S n) j = exact_value [pu; disc; node n j; node n (S j)] step) ->
  forall n j, (n + j < leaves)%nat -> node n j = (binomial_mean n pu (fun i => node 0%nat (j + i)%nat) / disc ^ n)%R.
Proof. exact tree_is_mean. Qed.
Print Assumptions C73_tree.

(** C74: the parallel programs, whatever the order in which the chunks run: result i is not the price of option i but
    that of option i / 8 + i mod 8, for all results whatever [count] says. *)
Theorem C74_parallel : forall X S tg junk junk' exponential logarithm power,
  works_lanewise X S -> follows_llvm S -> math_is S exponential logarithm power -> ~ uses_sleef_sse2 tg ->
  is_vector f32x8 junk -> is_vector f32x8 junk' ->
  forall sa xa ta ra va result count order,
  are_f32 sa -> are_f32 xa -> are_f32 ta -> are_f32 ra -> are_f32 va -> are_f32 result ->
  (count mod 8 = 0)%nat -> (length result mod 8 = 0)%nat ->
  (8 <= length result -> inputs_have (length result / 8 + 7) sa xa ta ra va)%nat ->
  Permutation order (seq 0 (length result / 8)) ->
  (exists sum new, par_black_scholes X tg junk order sa xa ta ra va result count = Ok (sum, new) /\
     priced (call_price exponential logarithm) (fun i => i / 8 + i mod 8)%nat (length result) sa xa ta ra va result new /\
     is_f64 sum /\ sum_by_columns (t_arch tg) (map f32_datum new) (datum_of 8 sum)) /\
  (exists sum new, par_binomial_put X tg junk junk' order sa xa ta ra va result count = Ok (sum, new) /\
     priced (put_price exponential power 64 multiplied) (fun i => i / 8 + i mod 8)%nat (length result) sa xa ta ra va result new /\
     is_f64 sum /\ sum_by_columns (t_arch tg) (map f32_datum new) (datum_of 8 sum)).
Proof.
  intros. split.
  - apply (parallel_ok tg _ (call_price exponential logarithm)); auto. eapply simd_call_prices; eassumption.
  - apply (parallel_ok tg _ (put_price exponential power 64 multiplied)); auto. eapply simd_put_64; eassumption.
Qed.
Print Assumptions C74_parallel.

(** C74: two orders give the same sum and the same results. *)
Theorem C74_orders : forall X S tg junk junk' exponential logarithm power,
  works_lanewise X S -> follows_llvm S -> math_is S exponential logarithm power -> ~ uses_sleef_sse2 tg ->
  is_vector f32x8 junk -> is_vector f32x8 junk' ->
  forall sa xa ta ra va result count o1 o2,
  are_f32 sa -> are_f32 xa -> are_f32 ta -> are_f32 ra -> are_f32 va ->
  (length result mod 8 = 0)%nat ->
  (8 <= length result -> inputs_have (length result / 8 + 7) sa xa ta ra va)%nat ->
  Permutation o1 (seq 0 (length result / 8)) -> Permutation o2 (seq 0 (length result / 8)) ->
  par_black_scholes X tg junk o1 sa xa ta ra va result count = par_black_scholes X tg junk o2 sa xa ta ra va result count /\
  par_binomial_put X tg junk junk' o1 sa xa ta ra va result count = par_binomial_put X tg junk junk' o2 sa xa ta ra va result count.
Proof.
  intros. split.
  - eapply (parallel_orders tg _ (call_price exponential logarithm)); eauto. eapply simd_call_prices; eassumption.
  - eapply (parallel_orders tg _ (put_price exponential power 64 multiplied)); eauto. eapply simd_put_64; eassumption.
Qed.
Print Assumptions C74_orders.

(** C74: if the lengths do not fit, a debug build panics.  In a release build a result whose length is no multiple of
    eight is written beyond its end, and inputs that are too short never give a result. *)
Theorem C74_parallel_fails : forall X S tg junk junk' exponential logarithm power,
  works_lanewise X S -> follows_llvm S -> math_is S exponential logarithm power -> ~ uses_sleef_sse2 tg ->
  is_vector f32x8 junk -> is_vector f32x8 junk' ->
  forall sa xa ta ra va result count order,
  are_f32 sa -> are_f32 xa -> are_f32 ta -> are_f32 ra -> are_f32 va ->
  let chunks := ((length result + 7) / 8)%nat in
  Permutation order (seq 0 chunks) ->
  let calls := par_black_scholes X tg junk order sa xa ta ra va result count in
  let puts := par_binomial_put X tg junk junk' order sa xa ta ra va result count in
  (t_debug tg = true ->
   ~ ((count mod 8 = 0)%nat /\ (length result mod 8 = 0)%nat /\
      (8 <= length result -> inputs_have (length result / 8 + 7) sa xa ta ra va)%nat) ->
   calls = Panic /\ puts = Panic) /\
  (t_debug tg = false -> (count mod 8 = 0)%nat -> (length result mod 8 <> 0)%nat -> inputs_have (chunks + 7) sa xa ta ra va ->
   calls = UB /\ puts = UB) /\
  ((0 < length result)%nat -> ~ inputs_have (chunks + 7) sa xa ta ra va ->
   forall x, calls <> Ok x /\ puts <> Ok x).
Proof.
  intros X S tg junk junk' exponential logarithm power HW HF HM HS HJ HJ' sa xa ta ra va result count order Fs Fx Ft Fr Fv chunks HP calls puts.
  pose proof (simd_call_prices X S tg junk junk' exponential logarithm power HW HF HM HS HJ HJ') as KC.
  pose proof (simd_put_64 X S tg junk junk' exponential logarithm power HW HF HM HS HJ HJ') as KP.
  split; [|split].
  - intros D H. split; eapply parallel_debug; eauto.
  - intros D M MR H. split; eapply parallel_release; eauto.
  - intros R H x. split; eapply parallel_short; eauto.
Qed.
Print Assumptions C74_parallel_fails.

(** C74: on the data that the program starts with, where all options are the same, all versions compute the prices of
    that option; the vector versions need a multiple of eight options. *)
Theorem C74_program : forall expf lnf powff X S tg junk junk' exponential logarithm power,
  computes expf exponential -> computes lnf logarithm -> computes2 powff power ->
  works_lanewise X S -> follows_llvm S -> math_is S exponential logarithm power -> ~ uses_sleef_sse2 tg ->
  is_vector f32x8 junk -> is_vector f32x8 junk' ->
  forall count,
  let gives m price := exists sum st', exec m (state_new count) = Ok (sum, st') /\
    st_count st' = count /\ length (st_result st') = count /\ Forall (start_price price) (st_result st') in
  gives (scalar_black_scholes expf lnf) (call_price exponential logarithm) /\
  gives (scalar_binomial_put expf powff) (put_price exponential power 64 divided) /\
  ((count mod 8 = 0)%nat ->
     gives (simd_black_scholes X tg junk) (call_price exponential logarithm) /\
     gives (simd_binomial_put X tg junk junk') (put_price exponential power 64 multiplied) /\
     forall order, Permutation order (seq 0 (count / 8)) ->
       gives (par_black_scholes X tg junk order) (call_price exponential logarithm) /\
       gives (par_binomial_put X tg junk junk' order) (put_price exponential power 64 multiplied)).
Proof.
  intros expf lnf powff X S tg junk junk' exponential logarithm power HE HL HP HW HF HM HS HJ HJ' count gives.
  destruct (state_f32 count) as (Fs & Fx & Ft & Fr & Fv & Fo). destruct (state_has count) as (HI & LR).
  assert (G : forall m price option, (exists sum new,
      m (st_s (state_new count)) (st_x (state_new count)) (st_t (state_new count)) (st_r (state_new count)) (st_v (state_new count))
        (st_result (state_new count)) count = Ok (sum, new) /\
      priced price option count (st_s (state_new count)) (st_x (state_new count)) (st_t (state_new count)) (st_r (state_new count))
        (st_v (state_new count)) (st_result (state_new count)) new) -> gives m price).
  { intros m price option (sum & new & E & P). unfold gives, exec. change (st_count (state_new count)) with count. rewrite E. cbn [bind].
    eexists _, _. split; [reflexivity|]. cbn [st_count st_result]. split; [reflexivity|]. exact (state_prices price option count new P). }
  destruct (C73_scalar expf lnf powff exponential logarithm power HE HL HP _ _ _ _ _ _ count Fs Fx Ft Fr Fv Fo HI ltac:(lia))
    as ((s1 & n1 & E1 & P1 & _) & (s2 & n2 & E2 & P2 & _)).
  split; [eapply G; eauto|]. split; [eapply G; eauto|]. intros M.
  destruct (C73_serial X S tg junk junk' exponential logarithm power HW HF HM HS HJ HJ' _ _ _ _ _ _ count Fs Fx Ft Fr Fv Fo M ltac:(now rewrite LR) HI ltac:(lia))
    as ((s3 & n3 & E3 & P3 & _) & (s4 & n4 & E4 & P4 & _)).
  split; [eapply G; eauto|]. split; [eapply G; eauto|]. intros order HO. rewrite <- LR in HO.
  destruct (C74_parallel X S tg junk junk' exponential logarithm power HW HF HM HS HJ HJ' _ _ _ _ _ _ count order Fs Fx Ft Fr Fv Fo M ltac:(now rewrite LR))
    as ((s5 & n5 & E5 & P5 & _) & (s6 & n6 & E6 & P6 & _)); [|exact HO|].
  - intros H8. rewrite LR in *. eapply have_le; [|exact HI]. pose proof (Nat.div_mod_eq count 8). lia.
  - rewrite LR in *. split; eapply G; eauto.
Qed.
Print Assumptions C74_program.

(** ** A concrete case: the exponential and the logarithm give back their argument, the power its base *)
Lemma ref_math : math_is ref_lanes (fun a c => c = a) (fun a c => c = a) (fun a _ c => c = a).
Proof.
  intros f _ B. split; [|split]; intros E p; [intros P|intros P|intros q P Q]; cbn [ref_lanes l1 l2]; try rewrite E; unfold in_lane; rewrite B; now rewrite Z.mod_small.
Qed.
Lemma same_computes : computes (fun a => a) (fun a c => c = a).
Proof. now split. Qed.
Lemma base_computes : computes2 (fun a _ => a) (fun a _ c => c = a).
Proof. now split. Qed.

(** Sixteen options with s = 1, 2, ..., 16 and everything else one. *)
Definition spots : list Z := map (fun i => fl_of_int 4 (Z.of_nat i + 1)) (seq 0 16).
Definition ones : list Z := repeat 0x3f800000 16.
Definition zeros : list Z := repeat 0 16.

(** C74: that the parallel programs compute what the serial ones compute is false: result 8 is the price of option 1. *)
Theorem C74_same_as_serial_refuted :
  ~ (forall X S tg junk exponential logarithm power, works_lanewise X S -> follows_llvm S -> math_is S exponential logarithm power ->
     ~ uses_sleef_sse2 tg -> is_vector f32x8 junk ->
     forall sa xa ta ra va result count order,
     are_f32 sa -> are_f32 xa -> are_f32 ta -> are_f32 ra -> are_f32 va -> are_f32 result ->
     (count mod 8 = 0)%nat -> length result = count -> inputs_have count sa xa ta ra va ->
     Permutation order (seq 0 (length result / 8)) ->
     par_black_scholes X tg junk order sa xa ta ra va result count = simd_black_scholes X tg junk sa xa ta ra va result count).
Proof.
  assert (F : are_f32 spots /\ are_f32 ones /\ are_f32 zeros)
    by (split; [|split]; apply Forall_forall; intros p P; vm_compute in P; intuition (subst; split; (discriminate || reflexivity))).
  destruct F as (F1 & F2 & F3). intros H.
  specialize (H _ _ x86_64_avx2 (repeat 0 8) _ _ _ ref_works ref_follows ref_math).
  specialize (H ltac:(intros (_ & U & _); discriminate U)).
  specialize (H ltac:(split; [reflexivity|repeat constructor; vm_compute; congruence])).
  specialize (H spots ones ones ones ones zeros 16%nat [0; 1]%nat F1 F2 F2 F2 F2 F3 eq_refl eq_refl ltac:(unfold inputs_have; cbn; lia)).
  specialize (H (Permutation_refl _)). vm_compute in H. discriminate H.
Qed.
Print Assumptions C74_same_as_serial_refuted.

(** Scalar, serial and parallel runs on these options: the first two agree, and the last has prices 1 to 8 twice, the
    second time one option further. *)
Example C73_example :
  computes (fun a => a) (fun a c : datum => c = a) /\ computes2 (fun a _ => a) (fun a _ c : datum => c = a) /\
  works_lanewise ref_externals ref_lanes /\ follows_llvm ref_lanes /\
  math_is ref_lanes (fun a c => c = a) (fun a c => c = a) (fun a _ c => c = a) /\ ~ uses_sleef_sse2 x86_64_avx2 /\
  let first := [1076565282; 1083692050; 1088903740; 1092747951; 1096220098; 1099521883; 1101706704; 1104123414] in
  let second := [1106776977; 1108484169; 1110054663; 1111750070; 1113572180; 1115522601; 1116643818; 1117749426] in
  scalar_black_scholes (fun a => a) (fun a => a) spots ones ones ones ones zeros 16 = Ok (4647891719650541568, first ++ second) /\
  simd_black_scholes ref_externals x86_64_avx2 (repeat 0 8) spots ones ones ones ones zeros 16 = Ok (4647891719650541568, first ++ second) /\
  par_black_scholes ref_externals x86_64_avx2 (repeat 0 8) [1; 0]%nat spots ones ones ones ones zeros 16 =
    Ok (4642425688798789632, first ++ tl first ++ [1106776977]) /\
  simd_black_scholes ref_externals x86_64_avx2 (repeat 0 8) spots ones ones ones (tl ones) zeros 16 = UB /\
  scalar_black_scholes (fun a => a) (fun a => a) spots ones ones ones (tl ones) zeros 16 = Panic.
Proof.
  split; [exact same_computes|]. split; [exact base_computes|]. split; [exact ref_works|]. split; [exact ref_follows|].
  split; [exact ref_math|]. split; [intros (_ & U & _); discriminate U|].
  split; [|split; [|split; [|split]]]; vm_compute; reflexivity.
Qed.

(** A put with s = 1, x = 10, t = 64, r = 5/4, v = 2: the tree also runs. *)
Example C73_example_tree :
  scalar_binomial_put (fun a => a) (fun a _ => a) [0x3f800000] [0x41200000] [0x42800000] [0x3fa00000] [0x40000000] [0] 1 = Ok (4529024722440028160, [919773162]).
Proof. vm_compute. reflexivity. Qed.
