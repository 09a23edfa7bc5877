(** Float lanes: the encoding, and the operations of SpecFloat through Flocq. *)
From Coq Require Import ZArith List Bool Lia Reals Lra.
From Coq.Floats Require Import SpecFloat.
From Flocq Require Import Core BinarySingleNaN.
From Verif.Model Require Import Base FloatLane.
From Verif.Spec Require Import Spec Floats.
From Verif.Proofs Require Import Lib.
Open Scope Z_scope.

(** ** SpecFloat's operations are Flocq's (as in Flocq's PrimFloat.v, for any format). *)
Section Equiv.
Variables prec emax : Z.
Context (Hprec : Prec_gt_0 prec) (Hmax : Prec_lt_emax prec emax).

Lemma round_nearest_even_equiv s m l :
  round_nearest_even m l = choice_mode mode_NE s m l.
Proof.
case l; [reflexivity|intro c].
case c; [ | reflexivity..].
now simpl; unfold Round.cond_incr; case Z.even.
Qed.

Lemma binary_round_aux_equiv sx mx ex lx :
  SpecFloat.binary_round_aux prec emax sx mx ex lx
  = binary_round_aux prec emax mode_NE sx mx ex lx.
Proof.
unfold SpecFloat.binary_round_aux, binary_round_aux.
set (mrse' := shr_fexp _ _ _).
case mrse'; intros mrs' e'; simpl.
now rewrite (round_nearest_even_equiv sx).
Qed.

Lemma binary_round_equiv s m e :
  SpecFloat.binary_round prec emax s m e = binary_round prec emax mode_NE s m e.
Proof.
unfold SpecFloat.binary_round, binary_round, shl_align_fexp.
set (mez := shl_align _ _ _); case mez as [mz ez].
apply binary_round_aux_equiv.
Qed.

Lemma binary_normalize_equiv m e szero :
  SpecFloat.binary_normalize prec emax m e szero
  = B2SF (binary_normalize prec emax Hprec Hmax mode_NE m e szero).
Proof.
case m as [ | p | p].
- now simpl.
- simpl; rewrite B2SF_SF2B; apply binary_round_equiv.
- simpl; rewrite B2SF_SF2B; apply binary_round_equiv.
Qed.

Lemma mul_equiv (x y : binary_float prec emax) :
  SFmul prec emax (B2SF x) (B2SF y) = B2SF (Bmult mode_NE x y).
Proof.
case x as [sx|sx| |sx mx ex Bx]; case y as [sy|sy| |sy my ey By]; [now trivial.. | ].
simpl. rewrite B2SF_SF2B. apply binary_round_aux_equiv.
Qed.

Lemma add_equiv (x y : binary_float prec emax) :
  SFadd prec emax (B2SF x) (B2SF y) = B2SF (Bplus mode_NE x y).
Proof.
case x as [sx|sx| |sx mx ex Bx]; case y as [sy|sy| |sy my ey By];
  [now (trivial || simpl; case Bool.eqb).. | ].
apply binary_normalize_equiv.
Qed.

Lemma sub_equiv (x y : binary_float prec emax) :
  SFsub prec emax (B2SF x) (B2SF y) = B2SF (Bminus mode_NE x y).
Proof.
case x as [sx|sx| |sx mx ex Bx]; case y as [sy|sy| |sy my ey By];
  [now (trivial || simpl; case Bool.eqb).. | ].
simpl. unfold Zminus. rewrite <- cond_Zopp_negb. apply binary_normalize_equiv.
Qed.

Lemma div_equiv (x y : binary_float prec emax) :
  SFdiv prec emax (B2SF x) (B2SF y) = B2SF (Bdiv mode_NE x y).
Proof.
case x as [sx|sx| |sx mx ex Bx]; case y as [sy|sy| |sy my ey By];
  [now (trivial || simpl; case Bool.eqb).. | ].
simpl. rewrite B2SF_SF2B.
set (melz := SFdiv_core_binary _ _ _ _ _ _).
case melz as [[mz ez] lz].
apply binary_round_aux_equiv.
Qed.

Lemma sqrt_equiv (x : binary_float prec emax) :
  SFsqrt prec emax (B2SF x) = B2SF (Bsqrt mode_NE x).
Proof.
case x as [sx|sx| |sx mx ex Bx]; [now (trivial || case sx).. | ].
case sx; [reflexivity | ].
simpl. rewrite B2SF_SF2B.
set (melz := SFsqrt_core_binary _ _ _ _).
case melz as [[mz ez] lz].
apply binary_round_aux_equiv.
Qed.
End Equiv.

(** ** The two formats *)
Definition fsize (b : nat) : Prop := b = 4%nat \/ b = 8%nat.

Lemma fprec_gt_0 b : Prec_gt_0 (fprec b).
Proof. unfold Prec_gt_0, fprec. destruct (Nat.eqb b 4); reflexivity. Qed.
Lemma fprec_lt_emax b : Prec_lt_emax (fprec b) (femax b).
Proof. unfold Prec_lt_emax, fprec, femax. destruct (Nat.eqb b 4); reflexivity. Qed.

Lemma formats b : fsize b ->
  sig_width b = fmw b /\ exp_width b = few b /\ fprec b = fmw b + 1 /\ femax b = bias b + 1 /\
  1 - bias b - sig_width b = femin b /\ emin (fprec b) (femax b) = femin b /\
  2 ^ few b = 2 * femax b /\ 8 * Z.of_nat b - 1 = fmw b + few b /\ 0 < fmw b /\ 0 < few b /\ 0 < fmw b - 1.
Proof. intros [-> | ->]; repeat split; reflexivity. Qed.

Lemma fields b s m e : fsize b -> 0 <= m < 2 ^ fmw b -> 0 <= e < 2 ^ few b ->
  sig_field b (fjoin b s m e) = m /\ exp_field b (fjoin b s m e) = e /\ sign_field b (fjoin b s m e) = s /\
  pattern b (fjoin b s m e).
Proof.
  intros [-> | ->]; unfold fjoin, sig_field, exp_field, sign_field, pattern, modulus, bits.
  - change (2 ^ fmw 4) with 8388608. change (2 ^ few 4) with 256.
    change (2 ^ sig_width 4) with 8388608. change (2 ^ exp_width 4) with 256.
    change (2 ^ (8 * Z.of_nat 4 - 1)) with 2147483648. change (2 ^ (8 * Z.of_nat 4)) with 4294967296.
    intros M E. destruct s; (split; [|split; [|split]]); lia.
  - change (2 ^ fmw 8) with 4503599627370496. change (2 ^ few 8) with 2048.
    change (2 ^ sig_width 8) with 4503599627370496. change (2 ^ exp_width 8) with 2048.
    change (2 ^ (8 * Z.of_nat 8 - 1)) with 9223372036854775808. change (2 ^ (8 * Z.of_nat 8)) with 18446744073709551616.
    intros M E. destruct s; (split; [|split; [|split]]); lia.
Qed.

Lemma fields_range b p : fsize b -> 0 <= sig_field b p < 2 ^ fmw b /\ 0 <= exp_field b p < 2 ^ few b.
Proof. intros [-> | ->]; split; apply Z.mod_pos_bound; reflexivity. Qed.

Lemma fjoin_fields b p : fsize b -> pattern b p -> p = fjoin b (sign_field b p) (sig_field b p) (exp_field b p).
Proof.
  intros [-> | ->]; unfold fjoin, sig_field, exp_field, sign_field, pattern, modulus, bits.
  - change (2 ^ fmw 4) with 8388608. change (2 ^ few 4) with 256.
    change (2 ^ sig_width 4) with 8388608. change (2 ^ exp_width 4) with 256.
    change (2 ^ (8 * Z.of_nat 4 - 1)) with 2147483648. change (2 ^ (8 * Z.of_nat 4)) with 4294967296.
    intros P. destruct (Z.leb_spec 2147483648 p); lia.
  - change (2 ^ fmw 8) with 4503599627370496. change (2 ^ few 8) with 2048.
    change (2 ^ sig_width 8) with 4503599627370496. change (2 ^ exp_width 8) with 2048.
    change (2 ^ (8 * Z.of_nat 8 - 1)) with 9223372036854775808. change (2 ^ (8 * Z.of_nat 8)) with 18446744073709551616.
    intros P. destruct (Z.leb_spec 9223372036854775808 p); lia.
Qed.

Lemma top_bit b p : fsize b -> pattern b p -> Z.testbit p (fmw b + few b) = sign_field b p.
Proof.
  intros F P. unfold sign_field, pattern, modulus, bits in *.
  destruct (formats b F) as (_ & _ & _ & _ & _ & _ & _ & <- & _).
  assert (N : 0 <= 8 * Z.of_nat b - 1) by (destruct F; lia).
  rewrite Z.testbit_eqb by auto.
  assert (M : 2 ^ (8 * Z.of_nat b) = 2 * 2 ^ (8 * Z.of_nat b - 1)) by (rewrite <- Z.pow_succ_r by auto; f_equal; lia).
  rewrite M in P. assert (Q : 0 < 2 ^ (8 * Z.of_nat b - 1)) by (apply Z.pow_pos_nonneg; lia).
  set (h := 2 ^ (8 * Z.of_nat b - 1)) in *. clearbody h. clear - P Q.
  destruct (Z.leb_spec h p).
  - replace (p / h) with 1; [reflexivity|]. apply (Z.div_unique p h 1 (p - h)); lia.
  - replace (p / h) with 0; [reflexivity|]. apply (Z.div_unique p h 0 p); lia.
Qed.

(** Decoding in terms of the fields. *)
Lemma fdecode_fields b p : fsize b -> pattern b p ->
  fdecode b p =
    if exp_field b p =? 0 then
      match sig_field b p with Zpos q => S754_finite (sign_field b p) q (femin b) | _ => S754_zero (sign_field b p) end
    else if exp_field b p =? 2 ^ few b - 1 then
      if sig_field b p =? 0 then S754_infinity (sign_field b p) else S754_nan
    else match sig_field b p + 2 ^ fmw b with
         | Zpos q => S754_finite (sign_field b p) q (exp_field b p + femin b - 1)
         | _ => S754_nan end.
Proof.
  intros F P. unfold fdecode. rewrite top_bit by auto. unfold exp_field, sig_field.
  destruct (formats b F) as (-> & -> & _). reflexivity.
Qed.

Lemma digits_bound m n : 0 <= n -> Zpos m < 2 ^ n -> Zpos (digits2_pos m) <= n.
Proof. intros N H. rewrite Digits.Zpos_digits2_pos. apply Digits.Zdigits_le_Zpower. exact H. Qed.
Lemma digits_exact m n : 0 <= n -> 2 ^ n <= Zpos m < 2 ^ (n + 1) -> Zpos (digits2_pos m) = n + 1.
Proof.
  intros N H. rewrite Digits.Zpos_digits2_pos. apply Digits.Zdigits_unique.
  replace (n + 1 - 1) with n by lia. exact H.
Qed.

Lemma decode_valid b p : fsize b -> pattern b p -> valid_binary (fprec b) (femax b) (fdecode b p) = true.
Proof.
  intros F P. rewrite fdecode_fields by auto.
  destruct (formats b F) as (E1 & E2 & E3 & E4 & E5 & E6 & E7 & E8 & P1 & P2 & P3).
  destruct (fields_range b p F) as [RM RE].
  set (m := sig_field b p) in *. set (e := exp_field b p) in *. clearbody m e.
  destruct (Z.eqb_spec e 0) as [Z0|NZ].
  - destruct m as [|q|q] eqn:M; [reflexivity| |reflexivity]. cbn [valid_binary]. unfold bounded.
    apply andb_true_intro. split.
    + unfold canonical_mantissa, SpecFloat.fexp. rewrite E6. apply Zeq_is_eq_bool.
      pose proof (digits_bound q (fmw b) ltac:(lia) (proj2 RM)). lia.
    + apply Zle_bool_true. assert (H : 0 < 2 ^ few b) by lia. unfold femin. destruct F as [-> | ->]; cbn; lia.
  - destruct (Z.eqb_spec e (2 ^ few b - 1)) as [I|NI].
    + destruct (m =? 0); reflexivity.
    + assert (R : 2 ^ fmw b <= m + 2 ^ fmw b < 2 ^ (fmw b + 1)) by (rewrite Z.pow_add_r by lia; change (2 ^ 1) with 2; lia).
      destruct (m + 2 ^ fmw b) as [|q|q] eqn:M; [reflexivity| |reflexivity]. cbn [valid_binary]. unfold bounded.
      apply andb_true_intro. split.
      * unfold canonical_mantissa, SpecFloat.fexp. rewrite E6. apply Zeq_is_eq_bool.
        rewrite (digits_exact q (fmw b)) by (auto; lia). lia.
      * apply Zle_bool_true. unfold femin. lia.
Qed.

(** Encoding. *)
Lemma encode_cases b f : fsize b -> valid_binary (fprec b) (femax b) f = true ->
  exists s m e, fencode b f = fjoin b s m e /\ 0 <= m < 2 ^ fmw b /\ 0 <= e < 2 ^ few b /\
    match f with
    | S754_zero s' => s = s' /\ m = 0 /\ e = 0
    | S754_infinity s' => s = s' /\ m = 0 /\ e = 2 ^ few b - 1
    | S754_nan => s = false /\ m = 2 ^ (fmw b - 1) /\ e = 2 ^ few b - 1
    | S754_finite s' m' e' => s = s' /\
        ((Zpos m' = m /\ e = 0 /\ e' = femin b) \/
         (Zpos m' = m + 2 ^ fmw b /\ e = e' - femin b + 1 /\ 0 < e < 2 ^ few b - 1))
    end.
Proof.
  intros F V.
  destruct (formats b F) as (E1 & E2 & E3 & E4 & E5 & E6 & E7 & E8 & P1 & P2 & P3).
  assert (Q1 : 0 < 2 ^ fmw b) by (apply Z.pow_pos_nonneg; lia).
  assert (Q2 : 1 < 2 ^ few b) by (apply Z.pow_gt_1; lia).
  destruct f as [s|s| |s m e]; cbn [fencode].
  - exists s, 0, 0. split; [reflexivity|]. split; [lia|]. split; [lia|auto].
  - exists s, 0, (2 ^ few b - 1). split; [reflexivity|]. split; [lia|]. split; [lia|auto].
  - exists false, (2 ^ (fmw b - 1)), (2 ^ few b - 1). split; [reflexivity|]. split; [|split; [lia|auto]].
    split; [apply Z.pow_nonneg; lia|]. apply Z.pow_lt_mono_r; lia.
  - cbn [valid_binary] in V. unfold bounded in V. apply andb_prop in V as [C L].
    apply Zle_bool_imp_le in L. unfold canonical_mantissa, SpecFloat.fexp in C. rewrite E6 in C.
    apply Zeq_bool_eq in C.
    destruct (Z.ltb_spec (Zpos m) (2 ^ fmw b)) as [S|S].
    + exists s, (Zpos m), 0. split; [reflexivity|]. split; [lia|]. split; [lia|]. split; [reflexivity|]. left.
      pose proof (digits_bound m (fmw b) ltac:(lia) S). split; [reflexivity|]. split; [reflexivity|]. lia.
    + assert (D : Zpos (digits2_pos m) = fmw b + 1).
      { assert (Zpos (digits2_pos m) <= fprec b) by lia.
        assert (U : Zpos m < 2 ^ (fmw b + 1)).
        { apply Z.lt_le_trans with (2 ^ Zpos (digits2_pos m)).
          - rewrite Digits.Zpos_digits2_pos. pose proof (Digits.Zdigits_correct radix2 (Zpos m)) as [_ H']. exact H'.
          - apply Z.pow_le_mono_r; lia. }
        apply digits_exact; lia. }
      assert (U : Zpos m < 2 * 2 ^ fmw b).
      { rewrite <- Z.pow_succ_r by lia. unfold Z.succ. rewrite <- D. rewrite Digits.Zpos_digits2_pos.
        pose proof (Digits.Zdigits_correct radix2 (Zpos m)) as [_ H']. exact H'. }
      exists s, (Zpos m - 2 ^ fmw b), (e - femin b + 1). split; [reflexivity|]. split; [lia|].
      assert (R : 0 < e - femin b + 1 < 2 ^ few b - 1) by (unfold femin in *; lia).
      split; [lia|]. split; [reflexivity|]. right. split; [lia|]. split; [reflexivity|exact R].
Qed.

Lemma encode_pattern b f : fsize b -> valid_binary (fprec b) (femax b) f = true -> pattern b (fencode b f).
Proof.
  intros F V. destruct (encode_cases b f F V) as (s & m & e & -> & M & E & _).
  now apply (fields b s m e F M E).
Qed.

Lemma decode_encode b f : fsize b -> valid_binary (fprec b) (femax b) f = true -> fdecode b (fencode b f) = f.
Proof.
  intros F V.
  destruct (formats b F) as (E1 & E2 & E3 & E4 & E5 & E6 & E7 & E8 & P1 & P2 & P3).
  assert (Q1 : 0 < 2 ^ fmw b) by (apply Z.pow_pos_nonneg; lia).
  assert (Q3 : 0 < 2 ^ (fmw b - 1)) by (apply Z.pow_pos_nonneg; lia).
  assert (Q2 : 1 < 2 ^ few b) by (apply Z.pow_gt_1; lia).
  rewrite fdecode_fields by (auto using encode_pattern).
  destruct (encode_cases b f F V) as (s & m & e & -> & M & E & C).
  destruct (fields b s m e F M E) as (-> & -> & -> & _).
  destruct f as [s'|s'| |s' m' e'].
  - destruct C as (-> & -> & ->). reflexivity.
  - destruct C as (-> & -> & ->). destruct (Z.eqb_spec (2 ^ few b - 1) 0); [lia|]. now rewrite Z.eqb_refl.
  - destruct C as (-> & -> & ->). destruct (Z.eqb_spec (2 ^ few b - 1) 0); [lia|]. rewrite Z.eqb_refl.
    destruct (Z.eqb_spec (2 ^ (fmw b - 1)) 0); [lia|reflexivity].
  - destruct C as (-> & [(<- & -> & ->)|(HM & HE & R)]); [reflexivity|].
    destruct (Z.eqb_spec e 0); [lia|]. destruct (Z.eqb_spec e (2 ^ few b - 1)); [lia|].
    rewrite <- HM. f_equal. lia.
Qed.

Lemma encode_decode b p : fsize b -> pattern b p -> fdecode b p <> S754_nan -> fencode b (fdecode b p) = p.
Proof.
  intros F P N.
  destruct (formats b F) as (E1 & E2 & E3 & E4 & E5 & E6 & E7 & E8 & P1 & P2 & P3).
  rewrite (fjoin_fields b p F P) at 2. rewrite fdecode_fields in * by auto.
  destruct (fields_range b p F) as [RM RE].
  set (m := sig_field b p) in *. set (e := exp_field b p) in *. clearbody m e.
  destruct (Z.eqb_spec e 0) as [Z0|NZ]; [rewrite Z0 in *|].
  - destruct m as [|q|q] eqn:M; [reflexivity| |lia]. cbn [fencode].
    destruct (Z.ltb_spec (Zpos q) (2 ^ fmw b)); [reflexivity|lia].
  - destruct (Z.eqb_spec e (2 ^ few b - 1)) as [EI|NI]; [rewrite EI in *|].
    + destruct (Z.eqb_spec m 0) as [->|]; [reflexivity|congruence].
    + destruct (m + 2 ^ fmw b) as [|q|q] eqn:M; [lia| |lia]. cbn [fencode].
      destruct (Z.ltb_spec (Zpos q) (2 ^ fmw b)); [lia|]. f_equal; lia.
Qed.

(** ** Patterns, SpecFloat data and their meaning *)
Definition sf_datum (f : spec_float) : datum :=
  match f with
  | S754_nan => NaN
  | S754_infinity s => Inf s
  | S754_zero s => Fin s 0
  | S754_finite s m e => Fin s (F2R (Float radix2 (cond_Zopp s (Zpos m)) e))
  end.

Lemma F2R_cond s m e : F2R (Float radix2 (cond_Zopp s (Zpos m)) e) =
  (if s then - (IZR (Zpos m) * bpow radix2 e) else IZR (Zpos m) * bpow radix2 e)%R.
Proof. unfold F2R. cbn [Fnum Fexp]. destruct s; cbn [cond_Zopp]; [rewrite opp_IZR; ring|reflexivity]. Qed.

Lemma datum_decode b p : fsize b -> pattern b p -> datum_of b p = sf_datum (fdecode b p).
Proof.
  intros F P. rewrite fdecode_fields by auto. unfold datum_of, magnitude.
  destruct (formats b F) as (E1 & E2 & E3 & E4 & E5 & E6 & E7 & E8 & P1 & P2 & P3).
  assert (Q2 : 1 < 2 ^ few b) by (apply Z.pow_gt_1; lia).
  destruct (fields_range b p F) as [RM RE]. rewrite E5, E2.
  replace (exp_field b p - bias b - sig_width b) with (exp_field b p + femin b - 1) by lia. rewrite E1.
  set (m := sig_field b p) in *. set (e := exp_field b p) in *. set (s := sign_field b p) in *. clearbody m e s.
  destruct (Z.eqb_spec e 0) as [->|NZ].
  - destruct (Z.eqb_spec 0 (2 ^ few b - 1)); [lia|].
    destruct m as [|q|q]; [| |lia]; cbn [sf_datum].
    + f_equal. destruct s; ring.
    + now rewrite F2R_cond.
  - destruct (Z.eqb_spec e (2 ^ few b - 1)) as [->|NI]; [destruct (m =? 0); reflexivity|].
    rewrite (Z.add_comm (2 ^ fmw b) m).
    destruct (m + 2 ^ fmw b) as [|q|q] eqn:M; [lia| |lia]. cbn [sf_datum]. now rewrite F2R_cond.
Qed.

(** Flocq's view of a pattern. *)
Definition fl (b : nat) (p : Z) : binary_float (fprec b) (femax b) :=
  match Bool.bool_dec (valid_binary (fprec b) (femax b) (fdecode b p)) true with
  | left H => SF2B (fdecode b p) H
  | right _ => B754_nan
  end.

Lemma fl_decode b p : fsize b -> pattern b p -> B2SF (fl b p) = fdecode b p.
Proof.
  intros F P. unfold fl. destruct (Bool.bool_dec _ true) as [H|H]; [apply B2SF_SF2B|].
  now rewrite decode_valid in H.
Qed.

Definition b_datum {prec emax} (x : binary_float prec emax) : datum := sf_datum (B2SF x).

Lemma datum_fl b p : fsize b -> pattern b p -> datum_of b p = b_datum (fl b p).
Proof. intros F P. unfold b_datum. rewrite fl_decode by auto. now apply datum_decode. Qed.

Lemma encode_B b (x : binary_float (fprec b) (femax b)) : fsize b ->
  pattern b (fencode b (B2SF x)) /\ datum_of b (fencode b (B2SF x)) = b_datum x.
Proof.
  intros F. assert (V := valid_binary_B2SF (fprec b) (femax b) x).
  split; [now apply encode_pattern|]. rewrite datum_decode by (auto using encode_pattern).
  now rewrite decode_encode.
Qed.

Lemma b_datum_finite {prec emax} (x : binary_float prec emax) :
  is_finite x = true -> b_datum x = Fin (Bsign x) (B2R x).
Proof. destruct x; try discriminate; reflexivity. Qed.

(** A datum that is not NaN has one pattern. *)
Lemma datum_inj b p q : fsize b -> pattern b p -> pattern b q ->
  datum_of b p = datum_of b q -> datum_of b p <> NaN -> p = q.
Proof.
  intros F P Q E N. rewrite !datum_fl in E by auto. rewrite datum_fl in N by auto.
  assert (X : B2SF (fl b p) = B2SF (fl b q)).
  { destruct (fl b p) as [s|s| |s m e B] eqn:X, (fl b q) as [s'|s'| |s' m' e' B'] eqn:Y; unfold b_datum in *;
      cbn [B2SF sf_datum] in *; try congruence.
    - exfalso. injection E as _ E. symmetry in E. apply eq_0_F2R in E. destruct s'; discriminate.
    - exfalso. injection E as _ E. apply eq_0_F2R in E. destruct s; discriminate.
    - injection E as -> E. cut (B754_finite s' m e B = B754_finite s' m' e' B'); [now intros [= -> ->]|].
      apply B2R_inj; auto. }
  rewrite !fl_decode in X by auto.
  assert (NP : fdecode b p <> S754_nan).
  { intros H. apply N. unfold b_datum. rewrite fl_decode by auto. now rewrite H. }
  rewrite <- (encode_decode b p F P NP). rewrite X. apply encode_decode; auto. congruence.
Qed.
