(** The theorems about the stencil example. *)
From Coq Require Import ZArith List Bool Lia Reals Lra Permutation.
From Verif.Model Require Import Base FloatLane Tables MathTables Math Minimal Ops ExStencil.
From Verif.Spec Require Import Spec Floats MathSpec Stencil.
From Verif.Proofs Require Import Lib BytesP FloatP FloatOpsP FloatVecP FloatApiP MathApiP MathLlvmP ExMandelbrotP ExStencilP ExStencilSimdP.
From Verif.Props Require Import Targets.
Import ListNotations.
Open Scope Z_scope.

Theorem scalar_wave r coef vsq a t0 t1 : ready r coef vsq a ->
  exists a', scalar r t0 t1 coef vsq a = Ok a' /\ wave rounded_twice r coef vsq t0 t1 a a'.
Proof.
  intros (BF & Co & Gv & Ge & Go).
  destruct (time_loop_ok rounded_twice r coef vsq (fun _ => scalar_step r coef vsq)) with (n := Z.to_nat (t1 - t0)) (t0 := t0) (t1 := t1) (a := a)
    as (a' & E & W & _); auto.
  - intros t cur prev Gc Gp. now apply scalar_step_ok.
  - exists a'. auto.
Qed.

Lemma f32x8_math : In f32x8 math_types.
Proof. cbn [math_types In]. auto. Qed.

Lemma adds_lanes X S tg mad : t_arch tg <> S390x -> works_lanewise X S -> fmuladd_is S mad -> adds X tg mad.
Proof.
  intros N W FM x y z Hx Hy Hz. destruct (mul_adde_method tg f32x8 f32x8_math) as [M _].
  destruct (M N) as (f & Ef & Eb & El & H). change (vb f32x8) with 4%nat in Eb.
  destruct (H X S W x y z Hx Hy Hz) as (r & Er & V & L). exists r. split; [exact Er|split; [exact V|]].
  intros j J. destruct (L j _ _ _ (lane8 x j Hx J) (lane8 y j Hy J) (lane8 z j Hz J)) as (p & P & ->).
  unfold D at 4. rewrite (lane_nth _ _ _ P). apply FM; auto.
  - exact (is_vector_lane f32x8 x j _ Hx (lane8 x j Hx J)).
  - exact (is_vector_lane f32x8 y j _ Hy (lane8 y j Hy J)).
  - exact (is_vector_lane f32x8 z j _ Hz (lane8 z j Hz J)).
Qed.
Lemma adds_s390x X tg : t_arch tg = S390x -> adds X tg rounded_twice.
Proof.
  intros N x y z Hx Hy Hz. destruct (mul_adde_method tg f32x8 f32x8_math) as [_ M].
  destruct (M N X x y z Hx Hy Hz) as (r & Er & V & L). exists r. split; [exact Er|split; [exact V|]].
  intros j J. destruct (L j _ _ _ (lane8 x j Hx J) (lane8 y j Hy J) (lane8 z j Hz J)) as (p & P & H).
  unfold D at 4. rewrite (lane_nth _ _ _ P). exact H.
Qed.

Lemma x8_wave X tg mad r coef vsq a t0 t1 : adds X tg mad -> ready r coef vsq a -> z0 r <= z1 r -> (8 | x1 r - x0 r) ->
  exists a', x8 X tg r t0 t1 coef vsq a = Ok a' /\ wave mad r coef vsq t0 t1 a a'.
Proof.
  intros AD (BF & Co & Gv & Ge & Go) Hz D8.
  destruct (time_loop_ok mad r coef vsq (fun _ => x8_step (fun l => l) X tg r coef vsq)) with (n := Z.to_nat (t1 - t0)) (t0 := t0) (t1 := t1) (a := a)
    as (a' & E & W & _); auto.
  - intros t cur prev Gc Gp. now apply x8_step_ok.
  - exists a'. auto.
Qed.

Theorem x8_lanes X S tg mad r coef vsq a t0 t1 : works_lanewise X S -> fmuladd_is S mad -> t_arch tg <> S390x ->
  ready r coef vsq a -> z0 r <= z1 r -> (8 | x1 r - x0 r) ->
  exists a', x8 X tg r t0 t1 coef vsq a = Ok a' /\ wave mad r coef vsq t0 t1 a a'.
Proof. intros W FM N. apply x8_wave. now apply (adds_lanes X S). Qed.
Theorem x8_s390x X tg r coef vsq a t0 t1 : t_arch tg = S390x ->
  ready r coef vsq a -> z0 r <= z1 r -> (8 | x1 r - x0 r) ->
  exists a', x8 X tg r t0 t1 coef vsq a = Ok a' /\ wave rounded_twice r coef vsq t0 t1 a a'.
Proof. intros N. apply x8_wave. now apply adds_s390x. Qed.
Theorem follows_either S : follows_llvm S -> fmuladd_is S either.
Proof.
  intros F f p q s Ef El Eb P Q H. destruct (F f El) as (_ & _ & _ & M); [now left|]. rewrite Eb in M.
  destruct (M p q s Ef) as [A|A]; unfold lane_pattern; rewrite ?Eb; auto; [now right|now left].
Qed.

(** ** Determinism *)
Definition functional (mad : mul_adder) : Prop := forall x y z r r', mad x y z r -> mad x y z r' -> r = r'.
Lemma twice_fun : functional rounded_twice.
Proof.
  intros x y z r r' (q & M & A) (q' & M' & A'). rewrite (mul_fun _ _ _ _ _ M' M) in A'. exact (add_fun _ _ _ _ _ A A').
Qed.
Lemma once_fun : functional rounded_once.
Proof.
  intros x y z r r'. unfold rounded_once. destruct x, y, z; cbn [ieee_fma]; try (intros; congruence). apply rounds_fun.
Qed.
Lemma around_fun r a x y z i s s' : around r a x y z i s -> around r a x y z i s' -> s = s'.
Proof.
  intros (a1 & a2 & a3 & a4 & A1 & A2 & A3 & A4 & A5) (b1 & b2 & b3 & b4 & B1 & B2 & B3 & B4 & B5).
  rewrite (add_fun _ _ _ _ _ B1 A1) in B2. rewrite (add_fun _ _ _ _ _ B2 A2) in B3. rewrite (add_fun _ _ _ _ _ B3 A3) in B4.
  rewrite (add_fun _ _ _ _ _ B4 A4) in B5. exact (add_fun _ _ _ _ _ A5 B5).
Qed.
Lemma cell_fun mad r coef vsq cur x y z p n n' : functional mad ->
  wave_cell mad r coef vsq cur x y z p n -> wave_cell mad r coef vsq cur x y z p n' -> n = n'.
Proof.
  intros F (d0 & s1 & d1 & s2 & d2 & s3 & d3 & e & A0 & A1 & A2 & A3 & A4 & A5 & A6 & A7 & A8)
    (d0' & s1' & d1' & s2' & d2' & s3' & d3' & e' & B0 & B1 & B2 & B3 & B4 & B5 & B6 & B7 & B8).
  rewrite (mul_fun _ _ _ _ _ B0 A0), (around_fun _ _ _ _ _ _ _ _ B1 A1) in B2. rewrite (F _ _ _ _ _ B2 A2), (around_fun _ _ _ _ _ _ _ _ B3 A3) in B4.
  rewrite (F _ _ _ _ _ B4 A4), (around_fun _ _ _ _ _ _ _ _ B5 A5) in B6. rewrite (F _ _ _ _ _ B6 A6), (F _ _ _ _ _ B7 A7) in B8.
  exact (F _ _ _ _ _ A8 B8).
Qed.

Lemma same_cell r a b x y z : same_numbers a b -> cell r a x y z = cell r b x y z.
Proof.
  unfold cell. generalize (Z.to_nat ((z * n_y r + y) * n_x r + x)). intros i H. revert i.
  induction H as [|p q a b E H IH]; intros [|i]; cbn [nth]; auto.
Qed.
Lemma around_ext r a b x y z i s : same_numbers a b -> around r a x y z i s -> around r b x y z i s.
Proof.
  intros H. unfold around. rewrite !(same_cell r a b) by exact H. auto.
Qed.
Lemma wave_cell_ext mad r coef vsq a b x y z p n : same_numbers a b ->
  wave_cell mad r coef vsq a x y z p n -> wave_cell mad r coef vsq b x y z p n.
Proof.
  intros H (d0 & s1 & d1 & s2 & d2 & s3 & d3 & e & A). exists d0, s1, d1, s2, d2, s3, d3, e.
  rewrite (same_cell r a b x y z H) in A.
  destruct A as (A0 & A1 & A2 & A3 & A4 & A5 & A6 & A7 & A8).
  repeat split; auto; try (eapply around_ext; eassumption).
Qed.
Lemma pos_surj r p : 0 < n_x r -> 0 < n_y r -> 0 <= p < cells r -> exists x y z, in_grid r x y z /\ p = pos r x y z.
Proof.
  intros Nx Ny Hp. exists (p mod n_x r), ((p / n_x r) mod n_y r), (p / n_x r / n_y r).
  assert (p = pos r (p mod n_x r) ((p / n_x r) mod n_y r) (p / n_x r / n_y r)) as E.
  { unfold pos. rewrite (Z.mul_comm (p / n_x r / n_y r)), <- Z.div_mod by lia. rewrite Z.mul_comm. apply Z.div_mod. lia. }
  split; [|exact E].
  split; [apply Z.mod_pos_bound; lia|]. split; [apply Z.mod_pos_bound; lia|]. split.
  - apply Z.div_pos; [apply Z.div_pos; lia|lia].
  - rewrite Z.div_div by lia. apply Z.div_lt_upper_bound; [nia|]. unfold cells in Hp. lia.
Qed.
Lemma in_box_dec r x y z : in_box r x y z \/ ~ in_box r x y z.
Proof. unfold in_box. lia. Qed.
Lemma numbers_ext a b : length a = length b -> (forall i, (i < length a)%nat -> datum_of 4 (nth i a 0) = datum_of 4 (nth i b 0)) -> same_numbers a b.
Proof.
  revert b. induction a as [|p a IH]; intros [|q b] L H; try discriminate; constructor.
  - apply (H 0%nat). cbn [length]. lia.
  - apply IH; [now injection L|]. intros i I. apply (H (S i)). cbn [length]. lia.
Qed.

Lemma step_same mad r coef vsq cur cur' prev prev' next next' : functional mad -> box_fits r -> same_numbers cur cur' -> same_numbers prev prev' ->
  wave_step mad r coef vsq cur prev next -> wave_step mad r coef vsq cur' prev' next' -> same_numbers next next'.
Proof.
  intros F (Nx & Ny & _) C P [G W] [G' W']. apply numbers_ext.
  - apply Nat2Z.inj. now rewrite (proj1 G), (proj1 G').
  - intros i I. destruct (pos_surj r (Z.of_nat i) Nx Ny) as (x & y & z & IG & E).
    { pose proof (proj1 G : _ = cells r). lia. }
    specialize (W x y z IG) as [Wi Wo]. specialize (W' x y z IG) as [Wi' Wo'].
    assert (Z.to_nat ((z * n_y r + y) * n_x r + x) = i) as Ei by (unfold pos in E; lia).
    destruct (in_box_dec r x y z) as [B|B].
    + specialize (Wi B). specialize (Wi' B). unfold cell at 2 in Wi. unfold cell at 2 in Wi'. rewrite Ei in Wi, Wi'.
      apply (wave_cell_ext _ _ _ _ _ _ _ _ _ _ _ C) in Wi. rewrite (same_cell r prev prev' x y z P) in Wi.
      exact (cell_fun _ _ _ _ _ _ _ _ _ _ _ F Wi Wi').
    + rewrite <- Ei, (Wo B), (Wo' B). exact (same_cell r prev prev' x y z P).
Qed.

Lemma same_refl a : same_numbers a a.
Proof. induction a; constructor; auto. Qed.

Theorem wave_unique mad r coef vsq t0 t1 a a' a'' : functional mad -> box_fits r ->
  wave mad r coef vsq t0 t1 a a' -> wave mad r coef vsq t0 t1 a a'' ->
  same_numbers (fst a') (fst a'') /\ same_numbers (snd a') (snd a'').
Proof.
  intros F BF (u & U0 & U1 & US & U2 & U3) (v & V0 & V1 & VS & V2 & V3). set (e := Z.max t0 t1) in *.
  assert (forall n : nat, t0 + Z.of_nat n <= e ->
    same_numbers (u (t0 + Z.of_nat n)) (v (t0 + Z.of_nat n)) /\ same_numbers (u (t0 + Z.of_nat n - 1)) (v (t0 + Z.of_nat n - 1))) as H.
  { induction n as [|n IH]; intros Hn.
    - change (Z.of_nat 0) with 0. rewrite Z.add_0_r, U0, V0, U1, V1. split; apply same_refl.
    - destruct IH as [IH0 IH1]; [lia|].
      replace (t0 + Z.of_nat (S n)) with (t0 + Z.of_nat n + 1) by lia.
      replace (t0 + Z.of_nat n + 1 - 1) with (t0 + Z.of_nat n) by ring. split; [|exact IH0].
      refine (step_same _ _ _ _ _ _ _ _ _ _ F BF IH0 IH1 (US _ _) (VS _ _)); lia. }
  destruct (H (Z.to_nat (e - t0))) as [S0 S1]; [lia|].
  replace (t0 + Z.of_nat (Z.to_nat (e - t0))) with e in S0, S1 by lia.
  rewrite U2, V2 in S0. rewrite U3, V3 in S1. unfold at_time in S0, S1. rewrite Z.even_sub in S1. change (Z.even 1) with false in S1.
  destruct (Z.even e); cbn [Bool.eqb] in S1; auto.
Qed.

Theorem same_as_scalar X S tg r coef vsq a t0 t1 :
  t_arch tg = S390x \/ (works_lanewise X S /\ fmuladd_is S rounded_twice) ->
  ready r coef vsq a -> z0 r <= z1 r -> (8 | x1 r - x0 r) ->
  exists a' a'', scalar r t0 t1 coef vsq a = Ok a' /\ x8 X tg r t0 t1 coef vsq a = Ok a'' /\
    same_numbers (fst a') (fst a'') /\ same_numbers (snd a') (snd a'').
Proof.
  intros H RD Hz D8. destruct (scalar_wave r coef vsq a t0 t1 RD) as (a' & Ea & Wa).
  assert (adds X tg rounded_twice) as AD.
  { assert ({t_arch tg = S390x} + {t_arch tg <> S390x}) as [E|N] by decide equality.
    - now apply adds_s390x.
    - destruct H as [E|[W FM]]; [contradiction|]. now apply (adds_lanes X S). }
  destruct (x8_wave X tg _ r coef vsq a t0 t1 AD RD Hz D8) as (a'' & Eb & Wb).
  exists a', a''. split; [exact Ea|split; [exact Eb|]].
  exact (wave_unique _ _ _ _ _ _ _ _ _ twice_fun (proj1 RD) Wa Wb).
Qed.

(** ** Any order of the planes *)
Section Planes.
Variable g : nat -> list Z -> outcome (list Z).
Let body (z : nat) (cs : list (list Z)) := c <- g z (nth z cs []) ;; Ok (update cs z c).

Lemma planes_inv l : NoDup l -> forall cs cs', (forall z, In z l -> (z < length cs)%nat) -> foreach l cs body = Ok cs' ->
  length cs' = length cs /\ forall z, (In z l -> g z (nth z cs []) = Ok (nth z cs' [])) /\ (~ In z l -> nth z cs' [] = nth z cs []).
Proof.
  induction 1 as [|y l N ND IH]; intros cs cs' B E.
  - injection E as <-. split; [reflexivity|]. intros z. split; [intros []|reflexivity].
  - cbn [foreach] in E. unfold body at 1 in E. destruct (g y (nth y cs [])) as [c| |] eqn:Eg; try discriminate. cbn [bind] in E.
    destruct (IH (update cs y c) cs') as [L H].
    { intros z I. rewrite update_length. apply B. now right. }
    { exact E. }
    rewrite update_length in L. split; [exact L|]. intros z. destruct (H z) as [Hi Ho]. split.
    + intros [<-|I].
      * rewrite Ho by exact N. rewrite nth_update_same; [exact Eg|]. apply B. now left.
      * rewrite <- Hi by exact I. rewrite nth_update_other; [reflexivity|]. intros ->. contradiction.
    + intros NI. rewrite Ho; [|intros I; apply NI; now right]. apply nth_update_other. intros ->. apply NI. now left.
Qed.
Lemma planes_run l : NoDup l -> forall cs, (forall z, In z l -> exists c, g z (nth z cs []) = Ok c) -> exists cs', foreach l cs body = Ok cs'.
Proof.
  induction 1 as [|y l N ND IH]; intros cs B; [exists cs; reflexivity|].
  cbn [foreach]. unfold body at 1. destruct (B y) as (c & Ec); [now left|]. rewrite Ec. cbn [bind]. apply IH.
  intros z I. rewrite nth_update_other; [apply B; now right|]. intros ->. contradiction.
Qed.
Lemma planes_order l l' cs cs' : NoDup l -> Permutation l' l -> (forall z, In z l -> (z < length cs)%nat) ->
  foreach l cs body = Ok cs' -> foreach l' cs body = Ok cs'.
Proof.
  intros ND P B E. destruct (planes_inv l ND cs cs' B E) as [L H].
  assert (NoDup l') as ND' by (apply (Permutation_NoDup (Permutation_sym P)); exact ND).
  destruct (planes_run l' ND' cs) as (cs2 & E2).
  { intros z I. apply (Permutation_in _ P) in I. destruct (H z) as [Hi _]. rewrite (Hi I). eauto. }
  destruct (planes_inv l' ND' cs cs2) as [L2 H2]; [|exact E2|].
  { intros z I. apply B. now apply (Permutation_in _ P). }
  rewrite E2. f_equal. apply (nth_ext _ _ [] []); [congruence|]. intros z _. destruct (H z) as [Hi Ho], (H2 z) as [Hi2 Ho2].
  destruct (in_dec Nat.eq_dec z l) as [I|I].
  - specialize (Hi I). rewrite (Hi2 (Permutation_in _ (Permutation_sym P) I)) in Hi. now injection Hi.
  - rewrite Ho, Ho2; auto. intros I'. apply I. now apply (Permutation_in _ P).
Qed.
End Planes.

Lemma planes_in r n z : In z (planes r n) -> (z < n)%nat.
Proof.
  unfold planes. intros H. assert (In z (seq 0 n)) as I.
  { rewrite <- (firstn_skipn (Nat.min n (as_size n (z0 r))) (seq 0 n)). apply in_or_app. right.
    rewrite <- (firstn_skipn (Nat.min n (as_size n (z1 r - z0 r))) (skipn _ _)). apply in_or_app. left. exact H. }
  apply in_seq in I. lia.
Qed.
Lemma nodup_left {A} (l l' : list A) : NoDup (l ++ l') -> NoDup l.
Proof.
  induction l as [|x l IH]; cbn [app]; intros H; [constructor|]. apply NoDup_cons_iff in H as [N H]. constructor; auto.
  intros I. apply N. apply in_or_app. now left.
Qed.
Lemma planes_nodup r n : NoDup (planes r n).
Proof. unfold planes. rewrite skipn_seq. rewrite <- (Nat.add_0_r (Nat.min n _)).
  generalize (Nat.min n (as_size n (z1 r - z0 r)) + 0)%nat. intros k.
  assert (NoDup (firstn k (seq (0 + Nat.min n (as_size n (z0 r))) (n - Nat.min n (as_size n (z0 r)))) ++
    skipn k (seq (0 + Nat.min n (as_size n (z0 r))) (n - Nat.min n (as_size n (z0 r)))))) as H by (rewrite firstn_skipn; apply seq_NoDup).
  now apply nodup_left in H.
Qed.

Lemma x8_step_order order order' X tg r coef vsq a_in a_out a' :
  (forall l, Permutation (order l) l) -> (forall l, Permutation (order' l) l) ->
  x8_step order X tg r coef vsq a_in a_out = Ok a' -> x8_step order' X tg r coef vsq a_in a_out = Ok a'.
Proof.
  intros P P' E. unfold x8_step in *. destruct (assert _) as [[]| |]; try discriminate. cbn [bind] in *.
  set (cs := chunks _ _ _) in *. set (l := planes r (length cs)) in *.
  match type of E with bind ?x _ = _ => destruct x as [cs'| |] eqn:EF; try discriminate end.
  assert (NoDup l) as ND by apply planes_nodup.
  apply (planes_order (fun z c => step_x8 X tg r (Z.of_nat z) (Z.of_nat z + 1) coef vsq a_in c) (order l) (order' l)) in EF.
  - rewrite EF. exact E.
  - apply (Permutation_NoDup (Permutation_sym (P l))). exact ND.
  - rewrite (P' l). symmetry. apply P.
  - intros z I. apply (Permutation_in _ (P l)) in I. now apply planes_in in I.
Qed.

Lemma time_loop_mono step step' : (forall t c p n, step t c p = Ok n -> step' t c p = Ok n) ->
  forall n t0 t1 a a', Z.to_nat (t1 - t0) = n -> time_loop step t0 t1 a = Ok a' -> time_loop step' t0 t1 a = Ok a'.
Proof.
  intros M. induction n as [|n IH]; intros t0 t1 a a' En E; unfold time_loop in *.
  - rewrite range_empty in * by lia. exact E.
  - rewrite range_step in * by lia. cbn [foreach] in *.
    destruct (Z.even t0).
    + destruct (step t0 (fst a) (snd a)) as [o| |] eqn:Es; try discriminate. rewrite (M _ _ _ _ Es). cbn [bind] in *. apply IH; [lia|exact E].
    + destruct (step t0 (snd a) (fst a)) as [o| |] eqn:Es; try discriminate. rewrite (M _ _ _ _ Es). cbn [bind] in *. apply IH; [lia|exact E].
Qed.

Theorem par_same X tg r t0 t1 coef vsq a a' order :
  (forall t l, Permutation (order t l) l) -> z1 r - z0 r <= n_z r ->
  x8_par order X tg r t0 t1 coef vsq a = Ok a' <-> x8 X tg r t0 t1 coef vsq a = Ok a'.
Proof.
  intros P H. unfold x8_par, x8. destruct (Z.leb_spec (z1 r - z0 r) (n_z r)); [|lia]. cbn [assert bind]. split; intros E.
  - refine (time_loop_mono _ _ _ (Z.to_nat (t1 - t0)) t0 t1 a a' eq_refl E). intros t c p n.
    apply x8_step_order; [apply P|apply Permutation_refl].
  - refine (time_loop_mono _ _ _ (Z.to_nat (t1 - t0)) t0 t1 a a' eq_refl E). intros t c p n.
    apply x8_step_order; [intros l; apply Permutation_refl|apply P].
Qed.

(** ** Panics *)
Theorem x8_panics X tg r coef vsq a t0 t1 : ready r coef vsq a -> z0 r < z1 r -> t0 < t1 -> ~ (8 | x1 r - x0 r) ->
  x8 X tg r t0 t1 coef vsq a = Panic.
Proof.
  intros (BF & Co & Gv & Ge & Go) Hz Ht N8. unfold x8, time_loop. rewrite range_step by lia. cbn [foreach].
  assert (forall cur out, is_grid r out -> x8_step (fun l => l) X tg r coef vsq cur out = Panic) as H.
  { intros cur out G. assert (0 < n_xy r) as K by (destruct BF as (Nx & Ny & _); unfold n_xy; nia). unfold x8_step.
    assert (0 <= n_z r) as Nz by (destruct BF as (_ & _ & _ & _ & _ & _ & Z0 & Z1); lia).
    assert (as_size (length out) (n_xy r) = Z.to_nat (n_xy r)) as ->.
    { unfold as_size. destruct (Z.ltb_spec (n_xy r) 0); [lia|reflexivity]. }
    assert (Nat.ltb 0 (Z.to_nat (n_xy r)) = true) as -> by (apply Nat.ltb_lt; lia). cbn [assert bind].
    destruct (chunks_spec (Z.to_nat (n_xy r)) ltac:(lia) (Z.to_nat (n_z r)) (length out) out) as (CL & _); [|lia|].
    { apply Nat2Z.inj. rewrite (proj1 G), Nat2Z.inj_mul, !Z2Nat.id by lia. unfold n_xy. ring. }
    rewrite CL, planes_ok by (auto; lia). destruct (Z.to_nat (z1 r - z0 r)) as [|n] eqn:En; [lia|].
    rewrite <- cons_seq. cbn [foreach]. unfold step_x8.
    destruct (Z.eqb_spec (Z.rem (x1 r - x0 r) 8) 0) as [E|_]; [|reflexivity].
    exfalso. apply N8. apply Z.rem_divide; [lia|exact E]. }
  rewrite (H (fst a) (snd a) Go), (H (snd a) (fst a) Ge). destruct (Z.even t0); reflexivity.
Qed.

(** ** The data the example starts with *)
Lemma grid_length r (f : Z -> Z -> Z -> Z) : 0 <= n_x r -> 0 <= n_y r -> 0 <= n_z r ->
  Z.of_nat (length (grid r f)) = n_x r * n_y r * n_z r.
Proof.
  intros Hx Hy Hz. unfold grid.
  assert (forall {A} (l : list A) (g : A -> list Z) k, (forall x, length (g x) = k) -> length (flat_map g l) = (length l * k)%nat) as FL.
  { intros A l g k H. induction l as [|x l IH]; [reflexivity|]. cbn [flat_map length]. rewrite app_length, H, IH. reflexivity. }
  assert (forall n, 0 <= n -> length (range 0 n) = Z.to_nat n) as RL.
  { intros n Hn. unfold range. rewrite map_length, seq_length, Z.sub_0_r. reflexivity. }
  rewrite (FL _ _ _ (Z.to_nat (n_y r) * Z.to_nat (n_x r))%nat).
  - rewrite RL, !Nat2Z.inj_mul, !Z2Nat.id by lia. ring.
  - intros z. rewrite (FL _ _ _ (Z.to_nat (n_x r))); [now rewrite RL|]. intros y. now rewrite map_length, RL.
Qed.
Lemma grid_patterns r f : (forall z y x, pattern 4 (f z y x)) -> patterns (grid r f).
Proof.
  intros H. apply Forall_forall. intros p I. apply in_flat_map in I as (z & _ & I). apply in_flat_map in I as (y & _ & I).
  apply in_map_iff in I as (x & <- & _). apply H.
Qed.
Lemma int_pattern n : pattern 4 (fl_of_int 4 n).
Proof. apply of_int_datum. exact fsz4. Qed.

Theorem starts_ready w nx ny nz : 3 <= w -> 0 < nx -> 0 < ny -> 0 < nz ->
  let r := from_bounds w nx ny nz in ready r the_coef (init_vsq r) (init_a r, init_zero r).
Proof.
  intros W Nx Ny Nz r.
  assert (forall f, (forall z y x, pattern 4 (f z y x)) -> is_grid r (grid r f)) as IG.
  { intros f H. split; [apply grid_length; cbn [r from_bounds n_x n_y n_z]; lia|now apply grid_patterns]. }
  split; [|split; [|split; [|split]]].
  - repeat split; cbn [r from_bounds n_x n_y n_z ExStencil.x0 ExStencil.x1 ExStencil.y0 ExStencil.y1 ExStencil.z0 ExStencil.z1]; lia.
  - split; [reflexivity|]. repeat constructor; lia.
  - apply IG. intros z y x. apply (div_pattern 4 fsz4); apply int_pattern.
  - apply IG. intros z y x. destruct (x <? Z.quot (n_x r) 2); apply (div_pattern 4 fsz4); apply int_pattern.
  - apply IG. intros z y x. cbv. split; congruence.
Qed.

(** ** Concrete cases *)
Definition small (za zb : Z) : bounds := mkBounds 0 8 0 1 za zb 8 1 7.
Definition row (p : Z) : list Z := repeat p 56.

Lemma unchecked_ub X tg :
  scalar (small 0 1) 0 1 the_coef (row 0) (row 0, row 0) = Panic /\ x8 X tg (small 0 1) 0 1 the_coef (row 0) (row 0, row 0) = UB.
Proof. split; vm_compute; reflexivity. Qed.
Lemma backwards_ub X tg :
  scalar (small 6 5) 0 1 the_coef (row 0) (row 0, row 0) = Ok (row 0, row 0) /\ x8 X tg (small 6 5) 0 1 the_coef (row 0) (row 0, row 0) = UB.
Proof. split; vm_compute; reflexivity. Qed.

Lemma datum_differ p q : pattern 4 p -> pattern 4 q -> sf_datum (fdecode 4 q) <> NaN -> p <> q -> datum_of 4 p <> datum_of 4 q.
Proof.
  intros P Q N D E. apply D. apply (datum_inj 4 p q fsz4 P Q E). rewrite E. now rewrite (datum_decode 4 q fsz4 Q).
Qed.

Definition fused_coef : list Z := [0xc0c00005; 0x3f800005; 0; 0].
Lemma small_ready coef vsq a b : length coef = 4%nat -> forallb (fun p => (0 <=? p) && (p <? 2 ^ 32)) coef = true ->
  0 <= vsq < 2 ^ 32 -> 0 <= a < 2 ^ 32 -> 0 <= b < 2 ^ 32 -> ready (small 3 4) coef (row vsq) (row a, row b).
Proof.
  intros L F V A B.
  assert (forall p, 0 <= p < 2 ^ 32 -> is_grid (small 3 4) (row p)) as G.
  { intros p P. split; [reflexivity|]. apply Forall_forall. intros q I. apply repeat_spec in I as ->. exact P. }
  split; [repeat split; cbn; lia|]. split; [split; [exact L|]|].
  - apply Forall_forall. intros p I. rewrite forallb_forall in F. specialize (F p I). lia.
  - repeat split; try apply G; assumption.
Qed.
Lemma fused_differs a' a'' :
  scalar (small 3 4) 0 1 fused_coef (row 0x3f80000b) (row 0x3f800001, row 0x40000002) = Ok a' ->
  x8 ref_externals x86_64_avx2 (small 3 4) 0 1 fused_coef (row 0x3f80000b) (row 0x3f800001, row 0x40000002) = Ok a'' ->
  ~ same_numbers (snd a') (snd a'').
Proof.
  intros E E' S.
  apply (datum_differ 893386774 889192470).
  { split; [discriminate|reflexivity]. } { split; [discriminate|reflexivity]. }
  { change (fdecode 4 889192470) with (SpecFloat.S754_finite false 8388630 (-44)). discriminate. }
  { discriminate. }
  assert (nth 24 (snd a') 0 = 893386774) as <-.
  { transitivity (match scalar (small 3 4) 0 1 fused_coef (row 0x3f80000b) (row 0x3f800001, row 0x40000002) with Ok a => nth 24 (snd a) 0 | _ => 0 end);
    [rewrite E; reflexivity|]. clear. vm_compute. reflexivity. }
  assert (nth 24 (snd a'') 0 = 889192470) as <-.
  { transitivity (match x8 ref_externals x86_64_avx2 (small 3 4) 0 1 fused_coef (row 0x3f80000b) (row 0x3f800001, row 0x40000002) with Ok a => nth 24 (snd a) 0 | _ => 0 end);
    [rewrite E'; reflexivity|]. clear. vm_compute. reflexivity. }
  revert S. generalize (snd a') (snd a''). clear. intros l l' S. revert l l' S. generalize 24%nat.
  induction n as [|n IH]; intros l l' [|x y l1 l1' H S]; cbn [nth]; auto.
Qed.
Theorem fused_refuted :
  ~ (forall X S tg r coef vsq a t0 t1, works_lanewise X S -> follows_llvm S -> ready r coef vsq a ->
       z0 r <= z1 r -> (8 | x1 r - x0 r) ->
       exists a' a'', scalar r t0 t1 coef vsq a = Ok a' /\ x8 X tg r t0 t1 coef vsq a = Ok a'' /\
         same_numbers (fst a') (fst a'') /\ same_numbers (snd a') (snd a'')).
Proof.
  intros H. destruct (H ref_externals ref_lanes x86_64_avx2 (small 3 4) fused_coef (row 0x3f80000b) (row 0x3f800001, row 0x40000002) 0 1)
    as (a' & a'' & E & E' & _ & S).
  - exact ref_works.
  - exact ref_follows.
  - apply small_ready; try reflexivity; lia.
  - cbn. lia.
  - exists 1. reflexivity.
  - exact (fused_differs a' a'' E E' S).
Qed.

(** External functions whose fmuladd rounds twice. *)
Definition twice_lanes : lane_functions := {|
  l1 := l1 ref_lanes; l2 := l2 ref_lanes;
  l3 := fun f a b c => match x_fn f with
    | EFmuladd => in_lane f (fl_add (x_b f) (fl_mul (x_b f) a b) c)
    | _ => l3 ref_lanes f a b c
    end;
  lsin := lsin ref_lanes; lcos := lcos ref_lanes |}.
Definition twice_externals : Math.externals := {|
  Math.x_v1 := Math.x_v1 ref_externals; Math.x_v2 := Math.x_v2 ref_externals;
  Math.x_v3 := fun f => MathP.map3 (l3 twice_lanes f);
  Math.x_s1 := Math.x_s1 ref_externals; Math.x_s2 := Math.x_s2 ref_externals; Math.x_vp := Math.x_vp ref_externals |}.
Lemma twice_works : works_lanewise twice_externals twice_lanes.
Proof.
  destruct ref_works as (W1 & W2 & _ & W4 & W5 & W6).
  split; [exact W1|split; [exact W2|split; [|split; [exact W4|split; [exact W5|exact W6]]]]].
  assert (forall f a b c, lane_pattern f (l3 twice_lanes f a b c)) as LP.
  { intros f a b c. cbn [twice_lanes l3]. destruct (x_fn f); apply in_lane_pattern. }
  intros f u v w [Lu _] [Lv _] [Lw _]. cbn [twice_externals Math.x_v3].
  assert (length (MathP.map3 (l3 twice_lanes f) u v w) = x_n f) as LM by (now apply MathP.map3_length).
  split; [split; [exact LM|]|].
  - apply Forall_of_nth_error. intros i p E.
    assert (i < x_n f)%nat as I by (rewrite <- LM; apply nth_error_Some; congruence).
    destruct (nth_error u i) as [a|] eqn:Ea; [|apply nth_error_None in Ea; lia].
    destruct (nth_error v i) as [c|] eqn:Ec; [|apply nth_error_None in Ec; lia].
    destruct (nth_error w i) as [e|] eqn:Ee; [|apply nth_error_None in Ee; lia].
    rewrite (MathP.nth_error_map3 _ _ _ _ _ _ _ _ Ea Ec Ee) in E. injection E as <-. apply LP.
  - intros i a c e La Lc Le. now apply MathP.nth_error_map3.
Qed.
Lemma twice_is : fmuladd_is twice_lanes rounded_twice.
Proof.
  intros f p q s Ef El Eb P Q H. cbn [twice_lanes l3]. rewrite Ef, Eb.
  destruct (mul4 p q P Q) as [PM M]. destruct (add4 _ s PM H) as [PA A].
  rewrite in_lane_id by (unfold lane_pattern; rewrite Eb; exact PA). exists (datum_of 4 (fl_mul 4 p q)). auto.
Qed.
