From Coq Require Import ZArith List Bool Lia Reals Lra.
From Coq.Floats Require Import SpecFloat.
From Flocq Require Import Core Plus_error BinarySingleNaN.
From Verif.Model Require Import Base FloatLane Llvm Tables Minimal Ops Reduce ExSum ExSpectral.
From Verif.Spec Require Import Spec Floats Linear.
From Verif.Proofs Require Import Lib FloatP FloatOpsP FloatVecP.
Import ListNotations.
Open Scope Z_scope.

Lemma fs8 : fsize 8.
Proof. now right. Qed.

(** ** Adding to +0 *)
Lemma nonzero_sum b p q s u s' v : fsize b -> pattern b p -> pattern b q ->
  datum_of b p = Fin s u -> datum_of b q = Fin s' v -> (u + v <> 0)%R -> rounded b (u + v) <> 0%R.
Proof.
  intros F P Q DP DQ N. unfold rounded.
  assert (G : forall r t w, pattern b r -> datum_of b r = Fin t w ->
    generic_format radix2 (FLT_exp (1 - bias b - sig_width b) (sig_width b + 1)) w).
  { intros r t w R D. destruct (finite_datum b F r t w R D) as (E & _). rewrite <- E.
    apply generic_format_round; [apply FLT_exp_valid|apply valid_rnd_N].
    destruct F; subst; reflexivity. }
  assert (PG : Prec_gt_0 (sig_width b + 1)) by (destruct F; subst; reflexivity).
  apply round_plus_neq_0; eauto using FLT_exp_valid, valid_rnd_N.
  apply monotone_exp_not_FTZ; [apply FLT_exp_valid|apply FLT_exp_monotone]; exact PG.
Qed.

Definition minus_zero : datum := Fin true 0.
Lemma add_not_minus_zero b p q : fsize b -> pattern b p -> pattern b q ->
  datum_of b p <> minus_zero -> datum_of b (fl_add b p q) <> minus_zero.
Proof.
  intros F P Q N E. destruct (add_pattern b F p q P Q) as [_ A]. rewrite E in A.
  destruct (datum_of b p) as [|s|s u] eqn:DP; [discriminate|cbn in A|].
  { destruct (datum_of b q) as [|s'|s' v]; [discriminate|destruct (Bool.eqb s s'); discriminate|discriminate]. }
  destruct (datum_of b q) as [|s'|s' v] eqn:DQ; cbn in A; try discriminate.
  destruct A as (z & (S1 & S2 & S3) & A). destruct (Rlt_bool _ _); [|discriminate]. injection A as A1 A2.
  destruct (Req_dec (u + v) 0) as [Z|Z]; [|symmetry in A2; exact (nonzero_sum b p q s u s' v F P Q DP DQ Z A2)].
  specialize (S3 Z). subst z. symmetry in A1. apply andb_true_iff in A1 as [-> ->].
  destruct (finite_datum b F p _ _ P DP) as (_ & _ & _ & U). destruct (finite_datum b F q _ _ Q DQ) as (_ & _ & _ & V).
  assert (U0 : (u <= 0)%R) by (destruct (Rle_or_lt u 0); auto; discriminate U; auto).
  assert (V0 : (v <= 0)%R) by (destruct (Rle_or_lt v 0); auto; discriminate V; auto).
  apply N. unfold minus_zero. f_equal. lra.
Qed.

Lemma zero_plus b x y : fsize b -> pattern b x -> pattern b y -> datum_of b (fl_add b x y) <> minus_zero ->
  fl_add b (fl_of_int b 0) (fl_add b x y) = fl_add b x y.
Proof.
  intros F X Y N. unfold fl_add at 2 3. unfold fl_add in N. rewrite <- !fl_decode in * by auto.
  rewrite (add_equiv _ _ (fprec_gt_0 b) (fprec_lt_emax b)) in *. set (z := Bplus mode_NE (fl b x) (fl b y)) in *.
  destruct (encode_B b z F) as [P D]. rewrite D in N. unfold fl_add.
  rewrite (decode_encode b (B2SF z) F) by apply valid_binary_B2SF.
  replace (fdecode b (fl_of_int b 0)) with (S754_zero false) by (destruct F; subst; vm_compute; reflexivity).
  destruct z as [[|]|s| |s m e H]; cbn [B2SF SFadd]; try reflexivity.
  now elim N.
Qed.

(** ** A row *)
Lemma div_f64x2 x y p q : div f64x2 [x; y] [p; q] = Ok [fl_div 8 x p; fl_div 8 y q].
Proof. reflexivity. Qed.
Lemma add_f64x2 x y p q : add_assign f64x2 [x; y] [p; q] = [fl_add 8 x p; fl_add 8 y q].
Proof. reflexivity. Qed.
Lemma fsum_f64x2 tg s t : fl_add 8 (fl_of_int 8 0) s = s -> fsum tg f64x2 [s; t] = Ok (fl_add 8 s t).
Proof.
  intros H. unfold fsum. destruct (on_aarch64 tg); [reflexivity|].
  unfold simd_reduce_add_ordered. change (vkind f64x2) with KFloat. change (vb f64x2) with 8%nat.
  change (lit KFloat 8 0) with (fl_of_int 8 0). cbn [fold_left lane_add]. now rewrite H.
Qed.

Lemma pairs_ind (P : list Z -> Prop) :
  P [] -> (forall x y l, P l -> P (x :: y :: l)) -> forall l, Nat.modulo (length l) 2 = 0%nat -> P l.
Proof.
  intros P0 PS. assert (G : forall n l, (length l <= n)%nat -> Nat.modulo (length l) 2 = 0%nat -> P l).
  { induction n as [|n IH]; intros [|x [|y l]] L M; cbn [length] in *; auto; try lia; try discriminate.
    apply PS, IH; [lia|]. replace (S (S (length l))) with (length l + 1 * 2)%nat in M by lia.
    now rewrite Nat.mod_add in M by lia. }
  intros l. apply (G (length l)); auto.
Qed.

Lemma read_pair pre x y l : read_f64x2 (pre ++ x :: y :: l) (length pre) = Ok [x; y].
Proof.
  unfold read_f64x2. rewrite skipn_app, skipn_all, Nat.sub_diag. cbn [app skipn].
  replace (length pre <=? length (pre ++ x :: y :: l))%nat with true
    by (symmetry; apply Nat.leb_le; rewrite app_length; lia).
  reflexivity.
Qed.

Lemma rows_agree a i l : Nat.modulo (length l) 2 = 0%nat -> forall pre fuel s t,
  (length l <= fuel)%nat ->
  exists s' t', scalar_row a i (length pre) l (s, t) = Ok (s', t') /\
    simd_row a i (length pre) fuel (pre ++ l) [s; t] = Ok [s'; t'].
Proof.
  intros M. pattern l. apply pairs_ind; [| |exact M]; clear.
  - intros pre fuel s t _. exists s, t. split; [reflexivity|]. destruct fuel; [reflexivity|]. cbn [simd_row].
    rewrite app_nil_r, (proj2 (Nat.ltb_ge _ _)) by lia. reflexivity.
  - intros x y l IH pre fuel s t L. cbn [length] in L. destruct fuel as [|fuel]; [lia|]. cbn [scalar_row simd_row fst snd].
    rewrite (proj2 (Nat.ltb_lt _ _)) by (rewrite app_length; cbn [length]; lia).
    rewrite read_pair. cbn [bind]. rewrite div_f64x2. cbn [bind]. rewrite add_f64x2.
    destruct (IH (pre ++ [x; y]) fuel (fl_add 8 s (fl_div 8 x (a i (length pre))))
      (fl_add 8 t (fl_div 8 y (a i (length pre + 1)%nat)))) as (s' & t' & E1 & E2); [lia|].
    rewrite app_length in E1, E2. cbn [length] in E1, E2. rewrite <- app_assoc in E2.
    exists s', t'. split; [exact E1|exact E2].
Qed.

Definition d8 : Z -> datum := datum_of 8.
Definition patterns (l : list Z) : Prop := Forall (pattern 8) l.
(** Adding it to +0 changes nothing. *)
Definition clean (s : Z) : Prop := pattern 8 s /\ d8 s <> minus_zero /\ fl_add 8 (fl_of_int 8 0) s = s.
Lemma clean_0 : clean (fl_of_int 8 0).
Proof.
  split; [apply of_int_datum, fs8|]. split; [|vm_compute; reflexivity].
  unfold d8. rewrite (of_small_int 8 fs8) by reflexivity. discriminate.
Qed.
Lemma clean_add s q : clean s -> pattern 8 q -> clean (fl_add 8 s q).
Proof.
  intros (P & N & _) Q. pose proof (add_not_minus_zero 8 s q fs8 P Q N) as N'.
  split; [apply (add_pattern 8 fs8 s q P Q)|]. split; [exact N'|]. now apply zero_plus; auto using fs8.
Qed.

Lemma row_spec a i l : (forall i j, pattern 8 (a i j)) -> Nat.modulo (length l) 2 = 0%nat -> patterns l ->
  forall j s t, clean s -> clean t -> exists s' t', scalar_row a i j l (s, t) = Ok (s', t') /\ clean s' /\ clean t' /\
    quotients (fun j => d8 (a i j)) j (map d8 l) (d8 s) (d8 t) (d8 s') (d8 t').
Proof.
  intros PA M. pattern l. apply pairs_ind; [| |exact M]; clear - PA.
  - intros _ j s t S T. exists s, t. repeat (split; [assumption || reflexivity|]). constructor.
  - intros x y l IH PL j s t S T. inversion PL as [|? ? X PL']; subst. inversion PL' as [|? ? Y PL'']; subst.
    cbn [scalar_row fst snd].
    destruct (div_pattern 8 fs8 x (a i j) X (PA i j)) as [P1 D1].
    destruct (div_pattern 8 fs8 y (a i (j + 1)%nat) Y (PA i (j + 1)%nat)) as [P2 D2].
    destruct (add_pattern 8 fs8 s _ (proj1 S) P1) as [_ D3]. destruct (add_pattern 8 fs8 t _ (proj1 T) P2) as [_ D4].
    destruct (IH PL'' (j + 2)%nat (fl_add 8 s (fl_div 8 x (a i j))) (fl_add 8 t (fl_div 8 y (a i (j + 1)%nat))))
      as (s' & t' & E & S' & T' & Q); [now apply clean_add|now apply clean_add|].
    exists s', t'. split; [exact E|]. split; [exact S'|]. split; [exact T'|]. cbn [map].
    eapply quotients_cons; [exact D1|exact D2|exact D3|exact D4|exact Q].
Qed.

(** ** Products *)
Lemma map_ok_total {A B} (f : A -> outcome B) (g : A -> B) l :
  (forall a, In a l -> f a = Ok (g a)) -> map_ok f l = Ok (map g l).
Proof.
  induction l as [|a l IH]; cbn; intros H; [auto|]. rewrite H by auto. cbn [bind]. rewrite IH by auto. reflexivity.
Qed.
Lemma choice_list {B} (P : nat -> B -> Prop) : (forall i, exists b, P i b) ->
  forall l, exists bs, Forall2 P l bs.
Proof.
  intros H. induction l as [|a l [bs IH]]; [exists []; constructor|].
  destruct (H a) as [b Hb]. exists (b :: bs). constructor; auto.
Qed.
Lemma map_ok_Forall2 {A B} (f : A -> outcome B) l bs : Forall2 (fun a b => f a = Ok b) l bs -> map_ok f l = Ok bs.
Proof. induction 1 as [|a b l bs H _ IH]; cbn; [auto|]. rewrite H. cbn [bind]. now rewrite IH. Qed.
Lemma Forall2_weaken {A B} (P Q : A -> B -> Prop) l m : (forall a b, P a b -> Q a b) -> Forall2 P l m -> Forall2 Q l m.
Proof. intros H. induction 1; constructor; auto. Qed.
Lemma Forall2_seq {B} (P : nat -> B -> Prop) n : forall k bs, Forall2 P (seq k n) bs ->
  length bs = n /\ forall i b, nth_error bs i = Some b -> P (k + i)%nat b.
Proof.
  induction n as [|n IH]; intros k bs H; inversion H; subst.
  - split; [reflexivity|]. intros [|i] b E; discriminate.
  - match goal with G : Forall2 _ (seq (S k) n) _ |- _ => destruct (IH _ _ G) as [L G'] end.
    split; [cbn; now rewrite L|]. intros [|i] b E.
    + injection E as <-. now rewrite Nat.add_0_r.
    + rewrite Nat.add_succ_r. exact (G' i b E).
Qed.

Lemma mult_agree tg a v out : (forall i j, pattern 8 (a i j)) -> patterns v -> length out = length v ->
  Nat.modulo (length v) 2 = 0%nat ->
  exists r, scalar_mult a v out = Ok r /\ simd_mult tg a v out = Ok r /\ patterns r /\ length r = length v /\
    times (fun i j => d8 (a i j)) (map d8 v) (map d8 r).
Proof.
  intros PA PV L M.
  assert (R : forall i, exists r,
    (s <- scalar_row a i 0 v (fl_of_int 8 0, fl_of_int 8 0) ;; Ok (fl_add 8 (fst s) (snd s))) = Ok r /\
    (s <- simd_row a i 0 (length v) v (splat f64x2 (fl_of_int 8 0)) ;; fsum tg f64x2 s) = Ok r /\
    pattern 8 r /\
    exists s t, quotients (fun j => d8 (a i j)) 0 (map d8 v) (Fin false 0) (Fin false 0) s t /\ ieee_add 8 s t (d8 r)).
  { intros i. destruct (row_spec a i v PA M PV 0%nat _ _ clean_0 clean_0) as (s & t & E & S & T & Q).
    destruct (rows_agree a i v M [] (length v) (fl_of_int 8 0) (fl_of_int 8 0)) as (s' & t' & E1 & E2); [auto|].
    cbn [length app] in E1, E2. rewrite E in E1. injection E1 as <- <-.
    rewrite E. change (splat f64x2 (fl_of_int 8 0)) with [fl_of_int 8 0; fl_of_int 8 0]. rewrite E2. cbn [bind fst snd].
    rewrite (fsum_f64x2 tg s t) by apply S.
    destruct (add_pattern 8 fs8 s t (proj1 S) (proj1 T)) as [P D].
    exists (fl_add 8 s t). split; [reflexivity|]. split; [reflexivity|]. split; [exact P|].
    exists (d8 s), (d8 t). split; [|exact D].
    replace (Fin false 0) with (d8 (fl_of_int 8 0)); [exact Q|].
    unfold d8. rewrite (of_small_int 8 fs8) by reflexivity. reflexivity. }
  destruct (choice_list _ R (seq 0 (length out))) as [r FR]. exists r.
  destruct (Forall2_seq _ _ _ _ FR) as [LR GR]. cbn [Nat.add] in GR.
  split; [|split; [|split; [|split]]].
  - unfold scalar_mult. apply map_ok_Forall2. eapply Forall2_weaken; [|exact FR]. cbv beta. intros i b H. apply H.
  - unfold simd_mult. rewrite L, Nat.eqb_refl, M. cbn [Nat.eqb assert bind]. rewrite <- L.
    apply map_ok_Forall2. eapply Forall2_weaken; [|exact FR]. cbv beta. intros i b H. rewrite L. apply H.
  - apply Forall_forall. intros p I. apply In_nth_error in I as [i I]. apply (GR i p I).
  - congruence.
  - split; [rewrite !map_length; congruence|]. intros i d E. rewrite nth_error_map in E.
    destruct (nth_error r i) as [p|] eqn:EP; [|discriminate]. injection E as <-.
    destruct (GR i p EP) as (_ & _ & _ & G). exact G.
Qed.

(** ** The iteration *)
Lemma A_pattern tg i j : pattern 8 (A tg i j).
Proof. apply of_int_datum, fs8. Qed.

Definition wide_enough (tg : target) (n : nat) : Prop :=
  (t_ptr tg = 8%nat /\ Z.of_nat n <= 2 ^ 25) \/ (t_ptr tg = 4%nat /\ Z.of_nat n <= 2 ^ 15).

Lemma A_value tg b (i j : nat) : t_ptr tg = b ->
  (Z.of_nat i + Z.of_nat j) * (Z.of_nat i + Z.of_nat j + 1) + 2 * Z.of_nat i + 2 < modulus b ->
  (Z.of_nat i + Z.of_nat j) * (Z.of_nat i + Z.of_nat j + 1) / 2 + Z.of_nat i + 1 < 2 ^ 53 ->
  d8 (A tg i j) = recip_entry i j.
Proof.
  intros T M F. unfold d8, A, recip_entry. rewrite T. unfold wrap.
  assert (N : Z.of_nat ((i + j) * (i + j + 1) / 2 + i + 1) =
    (Z.of_nat i + Z.of_nat j) * (Z.of_nat i + Z.of_nat j + 1) / 2 + Z.of_nat i + 1).
  { rewrite !Nat2Z.inj_add, Nat2Z.inj_div, Nat2Z.inj_mul, !Nat2Z.inj_add. reflexivity. }
  rewrite N. clear N. set (x := Z.of_nat i) in *. set (y := Z.of_nat j) in *.
  assert (X : 0 <= x) by (clear; lia). assert (Y : 0 <= y) by (clear; lia). clearbody x y.
  set (m := modulus b) in *. clearbody m.
  assert (S0 : 0 <= x + y) by (clear - X Y; lia). set (s := x + y) in *.
  assert (XS : x <= s) by (clear - X Y; lia).
  clearbody s.
  assert (Q : 0 <= s * s) by (clear; nia).
  rewrite (Z.mod_small s) by (clear - M Q S0 X; lia).
  rewrite (Z.mod_small (s + 1)) by (clear - M Q S0 X; lia).
  rewrite (Z.mod_small (s * (s + 1))) by (clear - M Q S0 X; lia).
  set (h := s * (s + 1)) in *. assert (H0 : 0 <= h) by (clear - Q S0; lia). clearbody h.
  assert (D : 0 <= h / 2 /\ 2 * (h / 2) <= h).
  { split; [apply Z.div_pos; [exact H0|reflexivity]|]. apply Z.mul_div_le. reflexivity. }
  set (d := h / 2) in *. clearbody d.
  rewrite (Z.mod_small (d + x)) by (clear - M D X; lia).
  rewrite (Z.mod_small (d + x + 1)) by (clear - M D X; lia).
  rewrite (of_small_int 8 fs8) by (change (fprec 8) with 53; rewrite Z.abs_eq; [exact F|clear - D X; lia]).
  rewrite (proj2 (Z.ltb_ge (d + x + 1) 0)) by (clear - D X; lia). reflexivity.
Qed.

Lemma A_exact tg n i j : wide_enough tg n -> (i < n)%nat -> (j < n)%nat -> d8 (A tg i j) = recip_entry i j.
Proof.
  intros W I J.
  assert (B : exists b N, t_ptr tg = b /\ Z.of_nat n <= N /\ ((b = 8%nat /\ N = 33554432) \/ (b = 4%nat /\ N = 32768))).
  { destruct W as [[T L]|[T L]].
    - exists 8%nat, 33554432. split; [exact T|]. split; [|now left].
      exact L.
    - exists 4%nat, 32768. split; [exact T|]. split; [|now right].
      exact L. }
  destruct B as (b & N & T & L & B).
  assert (I' : 0 <= Z.of_nat i < N) by (clear - I L; lia).
  assert (J' : 0 <= Z.of_nat j < N) by (clear - J L; lia).
  set (x := Z.of_nat i) in *. set (y := Z.of_nat j) in *.
  assert (S1 : 0 <= x + y <= 2 * N - 2) by (clear - I' J'; lia).
  assert (S2 : (x + y) * (x + y + 1) <= (2 * N - 2) * (2 * N - 1)) by (clear - S1; nia).
  apply (A_value tg b i j T); fold x y.
  - destruct B as [[-> ->]|[-> ->]].
    + change (modulus 8) with 18446744073709551616. clear - S2 I'. lia.
    + change (modulus 4) with 4294967296. clear - S2 I'. lia.
  - change (2 ^ 53) with 9007199254740992. set (h := (x + y) * (x + y + 1)) in *. clearbody h.
    destruct B as [[-> ->]|[-> ->]]; clear - S2 I'; lia.
Qed.

Lemma quotients_ext a a' : forall j v s t s' t', quotients a j v s t s' t' ->
  (forall k, (k < j + length v)%nat -> a k = a' k) -> quotients a' j v s t s' t'.
Proof.
  induction 1 as [|j x y v s t p q s1 t1 s2 t2 D1 D2 A1 A2 H IH]; intros E; [constructor|].
  cbn [length] in E. econstructor; [| |exact A1|exact A2|].
  - rewrite <- E by lia. exact D1.
  - rewrite <- E by lia. exact D2.
  - apply IH. intros k L. apply E. lia.
Qed.
Lemma times_ext a a' v r : times a v r ->
  (forall i k, (i < length v)%nat -> (k < length v)%nat -> a i k = a' i k) -> times a' v r.
Proof.
  intros [L H] E. split; [exact L|]. intros i d N.
  assert (I : (i < length v)%nat) by (rewrite <- L; apply nth_error_Some; congruence).
  destruct (H i d N) as (s & t & Q & D). exists s, t. split; [|exact D].
  apply (quotients_ext _ _ _ _ _ _ _ _ Q). intros k K. apply E; auto.
Qed.

(** All three vectors of the iteration have [n] elements. *)
Definition sized (n : nat) (v : list Z) : Prop := patterns v /\ length v = n.
Lemma AtAv_agree tg n v out tmp : Nat.modulo n 2 = 0%nat -> sized n v -> length out = n -> length tmp = n ->
  exists w t, scalar_mult_AtAv tg v out tmp = Ok (w, t) /\ simd_mult_AtAv tg v out tmp = Ok (w, t) /\
    sized n w /\ length t = n /\ (wide_enough tg n -> AtA (map d8 v) (map d8 w)).
Proof.
  intros M [PV LV] LO LT.
  destruct (mult_agree tg (A tg) v tmp (A_pattern tg) PV) as (t & E1 & E2 & PT & LT' & T1); [congruence|congruence|].
  destruct (mult_agree tg (fun i j => A tg j i) t out (fun i j => A_pattern tg j i) PT) as (w & E3 & E4 & PW & LW & T2);
    [congruence|congruence|].
  exists w, t. unfold scalar_mult_AtAv, simd_mult_AtAv. rewrite E1, E2. cbn [bind]. rewrite E3, E4. cbn [bind].
  split; [reflexivity|]. split; [reflexivity|]. split; [split; [exact PW|congruence]|]. split; [congruence|].
  intros W. exists (map d8 t). split.
  - apply (times_ext _ _ _ _ T1). rewrite map_length. intros i k I K. apply (A_exact tg n); congruence.
  - apply (times_ext _ _ _ _ T2). rewrite map_length. intros i k I K. apply (A_exact tg n); congruence.
Qed.
Lemma ten_times_agree tg n k : Nat.modulo n 2 = 0%nat -> forall u v tmp,
  sized n u -> length v = n -> length tmp = n -> (k = 0%nat -> patterns v) ->
  exists u' v', ten_times (scalar_mult_AtAv tg) k u v tmp = Ok (u', v') /\
    ten_times (simd_mult_AtAv tg) k u v tmp = Ok (u', v') /\ sized n u' /\ sized n v' /\
    (wide_enough tg n -> iterated k (map d8 u) (map d8 v) (map d8 u') (map d8 v')).
Proof.
  intros M. induction k as [|k IH]; intros u v tmp U V T PV.
  - exists u, v. split; [reflexivity|]. split; [reflexivity|]. split; [exact U|].
    split; [split; [now apply PV|exact V]|]. intros _. constructor.
  - destruct (AtAv_agree tg n u v tmp M U V T) as (v1 & t1 & E1 & E2 & S1 & L1 & G1).
    destruct (AtAv_agree tg n v1 u t1 M S1 (proj2 U) L1) as (u1 & t2 & E3 & E4 & S2 & L2 & G2).
    destruct (IH u1 v1 t2 S2 (proj2 S1) L2 (fun _ => proj1 S1)) as (u' & v' & E5 & E6 & SU & SV & G3).
    exists u', v'. cbn [ten_times]. rewrite E1, E2. cbn [bind fst snd]. rewrite E3, E4. cbn [bind fst snd].
    split; [exact E5|]. split; [exact E6|]. split; [exact SU|]. split; [exact SV|].
    intros W. eapply iterated_S; [exact (G1 W)|exact (G2 W)|exact (G3 W)].
Qed.

Lemma dot_spec x : forall y s, pattern 8 s -> patterns x -> patterns y -> length x = length y ->
  pattern 8 (fold_left (fl_add 8) (map2 (fl_mul 8) x y) s) /\
  inner (d8 s) (map d8 x) (map d8 y) (d8 (fold_left (fl_add 8) (map2 (fl_mul 8) x y) s)).
Proof.
  induction x as [|a x IH]; intros [|c y] s S X Y L; try discriminate.
  - split; [exact S|constructor].
  - inversion X; inversion Y; subst. cbn [map2 fold_left map].
    destruct (mul_pattern 8 fs8 a c) as [P1 D1]; auto. destruct (add_pattern 8 fs8 s (fl_mul 8 a c)) as [P2 D2]; auto.
    destruct (IH y (fl_add 8 s (fl_mul 8 a c))) as [P3 D3]; auto.
    split; [exact P3|]. econstructor; [exact D1|exact D2|exact D3].
Qed.
Lemma map_repeat' (x : Z) n : map d8 (repeat x n) = repeat (d8 x) n.
Proof. induction n; cbn; congruence. Qed.
Lemma zero_d8 : d8 (fl_of_int 8 0) = Fin false 0.
Proof. unfold d8. rewrite (of_small_int 8 fs8) by reflexivity. reflexivity. Qed.
Lemma one_d8 : d8 (fl_of_int 8 1) = Fin false 1.
Proof. unfold d8. rewrite (of_small_int 8 fs8) by reflexivity. reflexivity. Qed.

Theorem norms_agree tg n : Nat.modulo n 2 = 0%nat ->
  exists r, scalar_spectral_norm tg n = Ok r /\ simd_spectral_norm tg n = Ok r /\ pattern 8 r /\
    (wide_enough tg n -> spectral_norm_of n (datum_of 8 r)).
Proof.
  intros M.
  assert (O : patterns (repeat (fl_of_int 8 1) n)).
  { apply Forall_forall. intros p H. apply repeat_spec in H. subst. apply of_int_datum, fs8. }
  destruct (ten_times_agree tg n 10 M (repeat (fl_of_int 8 1) n) (repeat (fl_of_int 8 1) n) (repeat (fl_of_int 8 1) n))
    as (u & v & E1 & E2 & [PU LU] & [PV LV] & G); [split; [exact O|]| | |intros _; exact O|]; try apply repeat_length.
  assert (Z0 : pattern 8 (fl_of_int 8 0)) by apply of_int_datum, fs8.
  destruct (dot_spec u v (fl_of_int 8 0)) as [P1 D1]; auto; [congruence|].
  destruct (dot_spec v v (fl_of_int 8 0)) as [P2 D2]; auto. fold (dot u v) in *. fold (dot v v) in *.
  destruct (div_pattern 8 fs8 (dot u v) (dot v v)) as [P3 D3]; auto.
  destruct (sqrt_pattern 8 fs8 (fl_div 8 (dot u v) (dot v v))) as [P4 D4]; auto.
  exists (fl_sqrt 8 (fl_div 8 (dot u v) (dot v v))).
  unfold scalar_spectral_norm, simd_spectral_norm, spectral_norm_with. rewrite M. cbn [Nat.eqb assert bind].
  rewrite E1, E2. cbn [bind]. split; [reflexivity|]. split; [reflexivity|]. split; [exact P4|].
  intros W. exists (map d8 u), (map d8 v), (d8 (dot u v)), (d8 (dot v v)), (d8 (fl_div 8 (dot u v) (dot v v))).
  split; [|split; [|split; [|split]]].
  - specialize (G W). rewrite map_repeat', one_d8 in G. exact G.
  - rewrite <- zero_d8. exact D1.
  - rewrite <- zero_d8. exact D2.
  - exact D3.
  - exact D4.
Qed.
Theorem odd_panics tg n : Nat.modulo n 2 <> 0%nat -> scalar_spectral_norm tg n = Panic /\ simd_spectral_norm tg n = Panic.
Proof.
  intros M. unfold scalar_spectral_norm, simd_spectral_norm, spectral_norm_with. apply Nat.eqb_neq in M. now rewrite M.
Qed.
Theorem norms_equal tg n : Nat.modulo n 2 = 0%nat ->
  exists r, scalar_spectral_norm tg n = Ok r /\ simd_spectral_norm tg n = Ok r /\ 0 <= r < 2 ^ 64.
Proof.
  intros M. destruct (norms_agree tg n M) as (r & E1 & E2 & P & _). exists r. auto.
Qed.
Theorem norms_meaning tg n r : wide_enough tg n ->
  simd_spectral_norm tg n = Ok r \/ scalar_spectral_norm tg n = Ok r -> spectral_norm_of n (datum_of 8 r).
Proof.
  intros W H. destruct (Nat.eq_dec (Nat.modulo n 2) 0) as [M|M].
  - destruct (norms_agree tg n M) as (r' & E1 & E2 & _ & G). rewrite E1, E2 in H.
    assert (E : r' = r) by (destruct H; congruence). subst. now apply G.
  - destruct (odd_panics tg n M) as [E1 E2]. rewrite E1, E2 in H. destruct H; discriminate.
Qed.
