(** Polynomials over the field of two elements, and how they act on sequences of bits that obey a linear recurrence
    [x (m + k) = x (m + q) + x m]: the periods of such sequences. *)
From Coq Require Import ZArith Znumtheory List Bool Lia.
Import ListNotations.
Open Scope Z_scope.

Definition poly := list bool.
Fixpoint act (p : poly) (x : nat -> bool) (m : nat) : bool :=
  match p with [] => false | c :: p => xorb (c && x m) (act p x (S m)) end.
Fixpoint padd (p q : poly) : poly :=
  match p, q with
  | [], q => q
  | p, [] => p
  | a :: p, b :: q => xorb a b :: padd p q
  end.

Lemma act_padd p : forall q x m, act (padd p q) x m = xorb (act p x m) (act q x m).
Proof.
  induction p as [|a p IH]; intros q x m; [cbn; now destruct (act q x m)|].
  destruct q as [|b q]; [cbn [padd act]; now rewrite xorb_false_r|].
  cbn [padd act]. rewrite IH. destruct a, b, (x m), (act p x (S m)), (act q x (S m)); reflexivity.
Qed.
Lemma act_ext p : forall x y m, (forall i, x i = y i) -> act p x m = act p y m.
Proof. induction p as [|a p IH]; intros x y m H; [reflexivity|]. cbn [act]. now rewrite H, (IH x y). Qed.
Lemma act_zero p : forall x m, (forall i, x i = false) -> act p x m = false.
Proof. induction p as [|a p IH]; intros x m H; [reflexivity|]. cbn [act]. now rewrite H, IH, andb_false_r. Qed.
Lemma act_split p k : forall x m, act p x m = xorb (act (firstn k p) x m) (act (skipn k p) x (m + k)).
Proof.
  revert p. induction k as [|k IH]; intros p x m.
  - cbn [firstn skipn act]. rewrite Nat.add_0_r. now destruct (act p x m).
  - destruct p as [|a p]; [reflexivity|]. cbn [firstn skipn act]. rewrite (IH p x (S m)).
    replace (S m + k)%nat with (m + S k)%nat by lia.
    destruct a, (x m), (act (firstn k p) x (S m)), (act (skipn k p) x (m + S k)); reflexivity.
Qed.
Lemma act_monomial i p : forall x m, act (repeat false i ++ p) x m = act p x (m + i).
Proof.
  induction i as [|i IH]; intros x m; cbn [repeat app act]; [now rewrite Nat.add_0_r|].
  rewrite IH. cbn [andb xorb]. replace (S m + i)%nat with (m + S i)%nat by lia. now destruct (act p x (m + S i)).
Qed.

(** Equality but for zeros on top. *)
Definition psame (p q : poly) : bool := forallb negb (padd p q).
Lemma zeros_act p : forall x m, forallb negb p = true -> act p x m = false.
Proof.
  induction p as [|a p IH]; intros x m H; [reflexivity|]. cbn in H. apply andb_prop in H as [A B].
  cbn [act]. rewrite IH by exact B. now destruct a.
Qed.
Lemma psame_act p q x m : psame p q = true -> act p x m = act q x m.
Proof.
  intros H. apply (zeros_act _ x m) in H. rewrite act_padd in H. now apply xorb_eq.
Qed.

Section Recurrence.
  Variables k q : nat.
  Definition recurs (x : nat -> bool) : Prop := forall m, x (m + k)%nat = xorb (x (m + q)%nat) (x m).

  Lemma act_recurs p : forall x, recurs x -> recurs (act p x).
  Proof.
    induction p as [|a p IH]; intros x H m; [reflexivity|]. cbn [act]. rewrite H.
    specialize (IH x H (S m)). cbn [Nat.add] in IH. rewrite IH.
    destruct a, (x (m + q)%nat), (x m), (act p x (S (m + q))), (act p x (S m)); reflexivity.
  Qed.

  (** X^q + 1, to which X^k is the same. *)
  Definition low : poly := padd [true] (repeat false q ++ [true]).
  Lemma act_low x m : recurs x -> act low x m = x (m + k)%nat.
  Proof.
    intros H. unfold low. rewrite act_padd, act_monomial, H. cbn [act andb]. rewrite !xorb_false_r. apply xorb_comm.
  Qed.

  (** Times X. *)
  Definition xtime (p : poly) : poly :=
    let l := false :: p in
    match skipn k l with
    | [h] => if h then padd (firstn k l) low else firstn k l
    | _ => l
    end.
  Lemma act_xtime p x m : recurs x -> act (xtime p) x m = act p x (S m).
  Proof.
    intros H. replace (act p x (S m)) with (act (false :: p) x m) by (cbn [act andb]; apply xorb_false_l). unfold xtime. cbv zeta.
    set (l := false :: p). pose proof (act_split l k x m) as E.
    destruct (skipn k l) as [|h [|h' t]]; [reflexivity| |reflexivity].
    rewrite E. cbn [act]. rewrite xorb_false_r. destruct h; cbn [andb]; [|now rewrite xorb_false_r].
    now rewrite act_padd, act_low by exact H.
  Qed.

  Fixpoint pmul (p r : poly) : poly :=
    match p with [] => [] | c :: p => padd (if c then r else []) (xtime (pmul p r)) end.
  Lemma act_pmul p r x : recurs x -> forall m, act (pmul p r) x m = act p (act r x) m.
  Proof.
    intros H. induction p as [|c p IH]; intros m; [reflexivity|]. cbn [pmul act].
    rewrite act_padd, act_xtime, IH by exact H. now destruct c.
  Qed.

  Fixpoint ppow (p : poly) (n : positive) : poly :=
    match n with
    | xH => p
    | xO n => let r := ppow p n in pmul r r
    | xI n => let r := ppow p n in pmul p (pmul r r)
    end.
  Definition X : poly := [false; true].
  Lemma act_X x m : act X x m = x (S m).
  Proof. cbn. now destruct (x (S m)). Qed.
  Lemma act_power n : forall x m, recurs x -> act (ppow X n) x m = x (m + Pos.to_nat n)%nat.
  Proof.
    assert (D : forall n, (forall x m, recurs x -> act (ppow X n) x m = x (m + Pos.to_nat n)%nat) ->
      forall x m, recurs x -> act (pmul (ppow X n) (ppow X n)) x m = x (m + Pos.to_nat n + Pos.to_nat n)%nat).
    { intros i IH x m H. rewrite act_pmul by exact H. rewrite IH by (apply act_recurs; exact H). now rewrite IH by exact H. }
    induction n as [n IH|n IH|]; intros x m H; cbn [ppow]; cbv zeta.
    - rewrite act_pmul, act_X, (D n IH) by exact H. f_equal. rewrite Pos2Nat.inj_xI. lia.
    - rewrite (D n IH) by exact H. f_equal. rewrite Pos2Nat.inj_xO. lia.
    - rewrite act_X. f_equal. change (Pos.to_nat 1) with 1%nat. lia.
  Qed.

  (** A power of X that is 1 is a period. *)
  Definition is_order (n : positive) : bool := psame (ppow X n) [true].
  Lemma order_period n x m : is_order n = true -> recurs x -> x (m + Pos.to_nat n)%nat = x m.
  Proof.
    intros O H. rewrite <- act_power by exact H. rewrite (psame_act _ [true]) by exact O. cbn. now destruct (x m).
  Qed.

  (** A power of X that differs from 1 by an invertible element is the period of no sequence but zero. *)
  Definition no_order (inverse : poly) (n : positive) : bool := psame (pmul inverse (padd (ppow X n) [true])) [true].
  Lemma no_order_period inverse n x : no_order inverse n = true -> recurs x ->
    (forall m, x (m + Pos.to_nat n)%nat = x m) -> forall m, x m = false.
  Proof.
    intros O H P m. pose proof (psame_act _ _ x m O) as E. rewrite act_pmul in E by exact H.
    rewrite act_zero in E.
    - cbn [act] in E. now rewrite xorb_false_r in E.
    - intros i. rewrite act_padd, act_power, P by exact H. cbn. destruct (x i); reflexivity.
  Qed.
End Recurrence.

(** ** Primes *)
Fixpoint trial (fuel : nat) (d n : Z) : bool :=
  match fuel with
  | O => false
  | S fuel => if n <? d * d then true else if n mod d =? 0 then false else trial fuel (d + 1) n
  end.
Lemma trial_spec fuel : forall d n, 0 < d -> trial fuel d n = true -> forall e, d <= e -> e * e <= n -> ~ (e | n).
Proof.
  induction fuel as [|fuel IH]; intros d n D H e L E; [discriminate|]. cbn [trial] in H.
  destruct (Z.ltb_spec n (d * d)) as [A|A]; [nia|].
  destruct (Z.eqb_spec (n mod d) 0) as [B|B]; [discriminate|].
  destruct (Z.eq_dec e d) as [->|N].
  - intros C. apply B, Z.mod_divide; [lia|exact C].
  - apply (IH (d + 1) n); auto; lia.
Qed.
Lemma trial_prime fuel n : 1 < n -> trial fuel 2 n = true -> prime n.
Proof.
  intros N T. apply prime_alt. split; [exact N|]. intros m M [c C].
  assert (P : forall e, 2 <= e -> e * e <= n -> ~ (e | n)) by (intros e; now apply (trial_spec fuel)).
  assert (K : 1 < c) by nia.
  destruct (Z.le_ge_cases m c) as [L|L].
  - apply (P m); [lia|nia|]. exists c. exact C.
  - apply (P c); [lia|nia|]. exists m. lia.
Qed.

Definition product (l : list Z) : Z := fold_right Z.mul 1 l.
Lemma divisor_of_product l : Forall prime l -> forall c, 1 < c -> (c | product l) -> exists r, In r l /\ (r | c).
Proof.
  induction 1 as [|r l P F IH]; intros c C D.
  - cbn in D. apply Z.divide_1_r_nonneg in D; lia.
  - cbn in D. destruct (Zdivide_dec r c) as [Y|Y]; [exists r; split; [now left|exact Y]|].
    assert (R : rel_prime c r) by (apply rel_prime_sym, prime_rel_prime; assumption).
    apply (Gauss c r _ D) in R. destruct (IH c C R) as (r' & I & E). exists r'. split; [now right|exact E].
Qed.

(** ** The periods of a sequence *)
Lemma period_multiple {A} (x : nat -> A) t : (forall m, x (m + t)%nat = x m) -> forall c m, x (m + c * t)%nat = x m.
Proof.
  intros H c. induction c as [|c IH]; intros m; cbn [Nat.mul]; [now rewrite Nat.add_0_r|].
  replace (m + (t + c * t))%nat with (m + c * t + t)%nat by lia. now rewrite H.
Qed.
Lemma period_gcd {A} (x : nat -> A) t n : (0 < t)%nat -> (forall m, x (m + t)%nat = x m) ->
  (forall m, x (m + n)%nat = x m) -> forall m, x (m + Nat.gcd t n)%nat = x m.
Proof.
  intros T HT HN m. destruct (Nat.gcd_bezout_pos t n T) as (a & b & E).
  rewrite <- (period_multiple x n HN b (m + Nat.gcd t n)). rewrite <- Nat.add_assoc, <- E.
  apply (period_multiple x t HT).
Qed.

(** The order is [n], the product of the primes [l]; no [n / r] is the period of a sequence but zero. *)
Theorem exact_period (k q : nat) (n : positive) (l : list (Z * poly)) x :
  is_order k q n = true -> product (map fst l) = Zpos n -> Forall prime (map fst l) ->
  Forall (fun ri => no_order k q (snd ri) (Z.to_pos (Zpos n / fst ri)) = true) l ->
  recurs k q x -> (exists m, x m = true) ->
  forall t, (forall m, x (m + t)%nat = x m) <-> (Zpos n | Z.of_nat t).
Proof.
  intros O PR F NO H [m0 M0] t.
  assert (PN : forall m, x (m + Pos.to_nat n)%nat = x m) by (intros m; now apply (order_period k q)).
  split; [intros HT|intros [c C] m].
  2:{ replace t with (Z.to_nat c * Pos.to_nat n)%nat by nia. apply (period_multiple x _ PN). }
  destruct (Nat.eq_dec t 0) as [->|T]; [exists 0; reflexivity|].
  assert (G := period_gcd x t (Pos.to_nat n) ltac:(lia) HT PN). set (d := Nat.gcd t (Pos.to_nat n)) in *.
  destruct (Nat.gcd_divide_l t (Pos.to_nat n)) as [a A]. destruct (Nat.gcd_divide_r t (Pos.to_nat n)) as [b B].
  fold d in A, B. assert (NZ : Zpos n = Z.of_nat b * Z.of_nat d) by (rewrite <- Nat2Z.inj_mul, <- B; lia).
  destruct (Nat.eq_dec b 1) as [->|B1].
  - exists (Z.of_nat a). rewrite A at 1. rewrite Nat2Z.inj_mul. f_equal. lia.
  - exfalso. assert (BB : 1 < Z.of_nat b) by (destruct b; [cbn in NZ; discriminate|lia]).
    destruct (divisor_of_product _ F (Z.of_nat b) BB) as (r & I & [e E]).
    { rewrite PR. exists (Z.of_nat d). lia. }
    apply in_map_iff in I as ([r' inv] & Er & I). cbn [fst] in Er. subst r'.
    rewrite Forall_forall in NO. specialize (NO _ I). cbn [fst snd] in NO.
    assert (R : 0 < r). { rewrite Forall_forall in F. pose proof (prime_ge_2 r (F r (in_map fst _ _ I))). lia. }
    assert (EP : 0 < e) by nia. assert (DP : 0 < Z.of_nat d) by nia.
    assert (Q : Zpos n / r = e * Z.of_nat d) by (rewrite NZ, E; symmetry; apply Z.div_unique_exact; nia).
    rewrite Q in NO. apply (no_order_period k q _ _ x) with (m := m0) in NO; [congruence|exact H|].
    intros m. replace (Pos.to_nat (Z.to_pos (e * Z.of_nat d))) with (Z.to_nat e * d)%nat by nia.
    apply (period_multiple x d G).
Qed.
