(** [shuffle1_dyn] (C24, C25). *)
From Coq Require Import ZArith List Bool Lia ZifyBool ZifyNat Arith.
From Verif.Model Require Import Base FloatLane Llvm Bytes Tables Arch Minimal Ops Cmp Cast Shuffle ShuffleDyn.
From Verif.Spec Require Import Spec Memory Conv.
From Verif.Proofs Require Import Lib MinimalP OpsP OpsP2 BytesP SliceP RotateP BitManipP ShuffleP CastP SwapBytesP.
Import ListNotations.
Open Scope Z_scope.

(** Lane picking with the index reduced to the pointer width. *)
Definition pick (v : vec) (i : Z) : Z := nth (Z.to_nat i) v 0.

Lemma pick_lane v i : 0 <= i < Z.of_nat (length v) -> lane v (Z.to_nat i) (pick v i).
Proof. intros I. unfold lane, pick. apply nth_error_nth'. lia. Qed.

Lemma pick_pattern b n v i : wf b n v -> pattern b (pick v i).
Proof.
  intros [_ F]. unfold pick. destruct (nth_in_or_default (Z.to_nat i) v 0) as [I|E].
  - rewrite Forall_forall in F. auto.
  - rewrite E. apply zero_pattern.
Qed.

Lemma wrap_nonneg b z : 0 <= wrap b z.
Proof. unfold wrap. pose proof (modulus_pos b). apply Z.mod_pos_bound. lia. Qed.

Section Fallback.
  Variables (tg : target) (t : vty) (self ix : vec).
  Hypothesis T : vector_type t.
  Hypothesis VS : is_vector t self.
  Hypothesis VI : is_vector t ix.
  Let g i := pick self (wrap (t_ptr tg) i).

  Lemma fallback_loop : forall rest done, ix = done ++ rest ->
    for_loop (length rest) (length done) (map g done ++ repeat 0 (length rest))
      (fun i result =>
         k <- extract t ix (Z.of_nat i) ;;
         x <- extract t self (wrap (t_ptr tg) k) ;;
         replace t result (Z.of_nat i) x)
    = if forallb (fun i => wrap (t_ptr tg) i <? Z.of_nat (vn t)) rest then Ok (map g ix) else Panic.
  Proof.
    induction rest as [|k rest IH]; intros done E; cbn [length for_loop forallb repeat].
    - rewrite app_nil_r in *. now subst.
    - assert (LN : lane ix (length done) k)
        by (unfold lane; rewrite E, nth_error_app2, Nat.sub_diag by lia; reflexivity).
      rewrite (extract_lane t ix _ k T VI LN). cbn [bind].
      destruct (Z.ltb_spec (wrap (t_ptr tg) k) (Z.of_nat (vn t))) as [I|I]; cbn [andb].
      2:{ rewrite extract_oob by auto. reflexivity. }
      assert (J : 0 <= wrap (t_ptr tg) k < Z.of_nat (length self))
        by (destruct VS as [-> _]; split; [apply wrap_nonneg|exact I]).
      pose proof (pick_lane self _ J) as PL.
      pose proof (extract_lane t self _ _ T VS PL) as EX. rewrite Z2Nat.id in EX by apply J.
      rewrite EX. cbn [bind]. fold (g k).
      assert (LI : length ix = vn t) by apply VI. rewrite E, app_length in LI. cbn [length] in LI.
      rewrite replace_ok; auto; [|split|lia].
      + specialize (IH (done ++ [k])). rewrite app_length in IH. cbn [length] in IH.
        rewrite Nat.add_1_r in IH. cbn [bind]. rewrite <- IH by (rewrite E, <- app_assoc; reflexivity).
        f_equal. rewrite map_app. cbn [map].
        rewrite <- app_assoc. cbn [app].
        rewrite <- (map_length g done).
        generalize (map g done). clear. intros l. induction l as [|a l IHl]; cbn; auto. now rewrite IHl.
      + rewrite app_length, map_length. cbn [length]. rewrite repeat_length. lia.
      + apply Forall_app. split.
        * apply Forall_forall. intros q Q. apply in_map_iff in Q as (p & <- & _).
          exact (pick_pattern _ _ _ _ VS).
        * constructor; [apply (zero_pattern (vb t))|]. apply Forall_repeat, (zero_pattern (vb t)).
  Qed.

  Lemma dyn_fallback_eq :
    dyn_fallback tg t self ix
    = if forallb (fun i => wrap (t_ptr tg) i <? Z.of_nat (vn t)) ix then Ok (map g ix) else Panic.
  Proof.
    pose proof (fallback_loop ix [] eq_refl) as H. cbn [length map app] in H.
    unfold dyn_fallback, lanes, splat. destruct VI as [L _]. rewrite <- L at 1 2. exact H.
  Qed.
End Fallback.

Lemma wrap_small ptr n i : (0 < ptr)%nat -> (n <= 64)%nat -> 0 <= i < Z.of_nat n -> wrap ptr i = i.
Proof.
  intros P N I. apply wrap_id. pose proof (modulus_ge ptr P). unfold pattern. lia.
Qed.

Lemma dyn_fallback_ok tg t self ix : (0 < t_ptr tg)%nat -> vector_type t -> (vn t <= 64)%nat ->
  is_vector t self -> is_vector t ix -> Forall (fun i => i < Z.of_nat (vn t)) ix ->
  dyn_fallback tg t self ix = Ok (map (pick self) ix).
Proof.
  intros P T N VS VI R. rewrite dyn_fallback_eq by auto.
  assert (W : forall i, In i ix -> wrap (t_ptr tg) i = i).
  { intros i I. apply (wrap_small _ (vn t)); auto. destruct VI as [_ F]. rewrite Forall_forall in R, F.
    specialize (R i I). specialize (F i I). cbv beta in *. lia. }
  replace (forallb _ ix) with true.
  - f_equal. apply map_ext_in. intros i I. now rewrite W.
  - symmetry. apply forallb_forall. intros i I. rewrite W by auto.
    rewrite Forall_forall in R. specialize (R i I). apply Z.ltb_lt. exact R.
Qed.

Lemma dyn_u8x16_ok tg self ix : (0 < t_ptr tg)%nat ->
  is_vector u8x16 self -> is_vector u8x16 ix -> Forall (fun i => i < 16) ix ->
  dyn_u8x16 tg self ix = Ok (map (pick self) ix).
Proof.
  intros P VS VI R. unfold dyn_u8x16. destruct (is_x86 tg && t_ssse3 tg).
  - f_equal. unfold pshufb. apply map_ext_in. intros i I.
    destruct VI as [_ F]. rewrite Forall_forall in R, F. specialize (R i I). specialize (F i I). cbv beta in *.
    destruct F as [F _]. rewrite Z.mod_small by (clear - F R; lia).
    replace (Z.testbit i 7) with false; auto. symmetry.
    destruct (Z.eq_dec i 0) as [-> |N]; auto. apply Z.bits_above_log2; [clear - F; lia|].
    apply Z.log2_lt_pow2; clear - F N R; lia.
  - destruct (_ && _); auto. apply dyn_fallback_ok; auto; [split; [|split]; cbn; lia|cbn; lia].
Qed.

Lemma dyn_u8x8_ok tg self ix : (0 < t_ptr tg)%nat ->
  is_vector u8x8 self -> is_vector u8x8 ix -> Forall (fun i => i < 8) ix ->
  dyn_u8x8 tg self ix = Ok (map (pick self) ix).
Proof.
  intros P VS VI R. unfold dyn_u8x8. destruct (_ && _); auto.
  apply dyn_fallback_ok; auto; [split; [|split]; cbn; lia|cbn; lia].
Qed.

(** ** Wide lanes through a byte shuffle *)

Definition byte_indices (b : nat) (ix : vec) : vec :=
  flat_map (fun i => map (fun j => Z.of_nat b * i + Z.of_nat j) (seq 0 b)) ix.

Lemma gather_bytes be b n v ix : wf b n v -> Forall (fun i => 0 <= i < Z.of_nat n) ix ->
  map (pick (image be b v)) (byte_indices b ix) = image be b (map (pick v) ix).
Proof.
  intros [L F] R. unfold byte_indices, image at 2.
  induction R as [|i ix I R IH]; cbn [flat_map map]; auto. rewrite map_app, IH. f_equal.
  rewrite map_map. apply nth_error_ext; [now rewrite map_length, seq_length, lane_bytes_length|].
  intros k x y X Y. rewrite nth_error_map in X.
  destruct (nth_error (seq 0 b) k) as [j|] eqn:J; [|discriminate]. cbn in X. injection X as <-.
  pose proof (nth_error_lt _ _ _ J) as K. rewrite seq_length in K.
  assert (j = k) as ->.
  { apply nth_error_nth with (d := 0%nat) in J. rewrite seq_nth in J by auto. lia. }
  rewrite nth_error_lane_bytes in Y by auto. injection Y as <-.
  rewrite <- L in I. pose proof (pick_lane v i I) as P.
  pose proof (nth_error_image be b v _ _ k P K) as E.
  unfold pick at 1. apply nth_error_nth. rewrite <- E. f_equal. lia.
Qed.

(** What [u16x8], [u32x4] and [u64x2] do once the byte indices are there. *)
Lemma wide_gather tg b n v ix idx : (0 < t_ptr tg)%nat -> (b * n = 16)%nat -> wf b n v -> length ix = n ->
  Forall (fun i => 0 <= i < Z.of_nat n) ix -> idx = byte_indices b ix ->
  (r <- dyn_u8x16 tg (transmute (t_big_endian tg) b 1 16 v) idx ;;
   Ok (transmute (t_big_endian tg) 1 b n r)) = Ok (map (pick v) ix).
Proof.
  intros P E W L R ->. set (be := t_big_endian tg).
  assert (W1 : wf 1 16 (transmute be b 1 16 v)) by (apply (transmute_wf be b n); auto).
  assert (I : transmute be b 1 16 v = image be b v).
  { rewrite <- (image_1 be (transmute be b 1 16 v)) by apply W1.
    apply (transmute_image be b n 1 16); auto. }
  assert (B : forall i, In i (byte_indices b ix) -> 0 <= i < 16).
  { intros i H. apply in_flat_map in H as (k & K & H). apply in_map_iff in H as (j & <- & J).
    apply in_seq in J. rewrite Forall_forall in R. specialize (R k K). nia. }
  rewrite dyn_u8x16_ok; auto.
  - cbn [bind]. f_equal. rewrite I, (gather_bytes be b n) by auto.
    unfold transmute. rewrite image_1.
    + apply of_image_image. split; [now rewrite map_length|].
      apply Forall_forall. intros q Q. apply in_map_iff in Q as (p & <- & _). eapply pick_pattern; eauto.
    + eapply Forall_impl; [|apply image_byte]. intros x X. exact X.
  - split.
    + change (vn u8x16) with 16%nat. rewrite <- E, <- L. unfold byte_indices. clear.
      induction ix as [|i ix IH]; cbn [flat_map length]; [lia|].
      rewrite app_length, map_length, seq_length, IH. lia.
    + apply Forall_forall. intros i H. apply B in H. change (2 ^ width u8x16) with 256. lia.
  - apply Forall_forall. intros i H. apply B in H. lia.
Qed.

Lemma scaled_indices t (s : Z) ix : vkind t = KUint ->
  length ix = vn t -> Forall (fun i => 0 <= i /\ i * s < 256) ix -> 0 <= s -> (0 < vb t)%nat ->
  cast PlainCast t (V KUint 1 (vn t)) (mul_vs t ix s) = Ok (map (fun i => i * s) ix).
Proof.
  intros K L R S Hb. unfold mul_vs, mul, simd_mul, splat.
  rewrite map2_repeat_r by auto. unfold cast, from_cast, from_cast_plain. cbn [vkind vb].
  rewrite (simd_cast_int t (V KUint 1 (vn t))) by (unfold int_like; auto). cbn [vb].
  f_equal. rewrite map_map. apply map_ext_in. intros i I. rewrite Forall_forall in R.
  specialize (R i I). cbv beta in R. rewrite K. unfold lane_mul, ival. cbn [is_signed].
  pose proof (modulus_ge _ Hb) as M. assert (0 <= i * s) by (apply Z.mul_nonneg_nonneg; lia).
  rewrite (wrap_id (vb t)) by (unfold pattern; lia).
  apply wrap_id. unfold pattern. change (modulus 1) with 256. lia.
Qed.

Lemma wrap1_small z : 0 <= z < 256 -> wrap 1 z = z.
Proof. intros. apply wrap_id. exact H. Qed.

Lemma add_u8x16 x y : add u8x16 x y = map2 (fun p q => wrap 1 (p + q)) x y.
Proof. reflexivity. Qed.

Ltac byte_sums :=
  rewrite add_u8x16; unfold byte_indices; cbn [flat_map map seq app map2];
  repeat (match goal with |- wrap 1 ?z :: _ = _ => rewrite (wrap1_small z) by lia end; apply f_equal2; [lia|]);
  reflexivity.

Lemma dyn_u16x8_ok tg self ix : (0 < t_ptr tg)%nat ->
  is_vector u16x8 self -> is_vector u16x8 ix -> Forall (fun i => i < 8) ix ->
  dyn_u16x8 tg self ix = Ok (map (pick self) ix).
Proof.
  intros P VS VI R. pose proof VI as [L F].
  assert (B : Forall (fun i => 0 <= i < Z.of_nat 8) ix).
  { apply Forall_forall. intros i I. rewrite Forall_forall in R, F. specialize (R i I). specialize (F i I).
    cbv beta in *. lia. }
  unfold dyn_u16x8. change u8x8 with (V KUint 1 (vn u16x8)) at 1. rewrite scaled_indices; auto; try (cbn; lia).
  2:{ eapply Forall_impl; [|exact B]. cbv beta. lia. }
  cbn [bind].
  clear VI R F.
  do 8 (destruct ix as [|? ix]; [discriminate L|]). destruct ix; [|discriminate L].
  cbn [map]. cbn [shuffle1 shuffle2 length shuffle_arity existsb Nat.eqb orb andb shuffle_lanes vkind vb u8x8
                  simd_shuffle map nth_error app collect shuffled bind].
  match type of B with Forall _ ?l => apply (wide_gather tg 2 8 self l); auto end.
  repeat match goal with H : Forall _ (_ :: _) |- _ => inversion H; clear H; subst end.
  byte_sums.
Qed.

Lemma dyn_u32x4_ok tg self ix : (0 < t_ptr tg)%nat ->
  is_vector u32x4 self -> is_vector u32x4 ix -> Forall (fun i => i < 4) ix ->
  dyn_u32x4 tg self ix = Ok (map (pick self) ix).
Proof.
  intros P VS VI R. pose proof VI as [L F].
  assert (B : Forall (fun i => 0 <= i < Z.of_nat 4) ix).
  { apply Forall_forall. intros i I. rewrite Forall_forall in R, F. specialize (R i I). specialize (F i I).
    cbv beta in *. lia. }
  unfold dyn_u32x4. destruct (_ && _).
  { f_equal. unfold permutevar_ps. apply map_ext_in. intros i I. rewrite Forall_forall in B.
    specialize (B i I). cbv beta in B. rewrite Z.mod_small by lia. reflexivity. }
  change u8x4 with (V KUint 1 (vn u32x4)) at 1. rewrite scaled_indices; auto; try (cbn; lia).
  2:{ eapply Forall_impl; [|exact B]. cbv beta. lia. }
  cbn [bind]. clear VI R F.
  do 4 (destruct ix as [|? ix]; [discriminate L|]). destruct ix; [|discriminate L].
  cbn [map]. cbn [shuffle1 shuffle2 length shuffle_arity existsb Nat.eqb orb andb shuffle_lanes vkind vb u8x4
                  simd_shuffle map nth_error app collect shuffled bind].
  match type of B with Forall _ ?l => apply (wide_gather tg 4 4 self l); auto end.
  repeat match goal with H : Forall _ (_ :: _) |- _ => inversion H; clear H; subst end.
  byte_sums.
Qed.

Lemma dyn_u64x2_ok tg self ix : (0 < t_ptr tg)%nat ->
  is_vector u64x2 self -> is_vector u64x2 ix -> Forall (fun i => i < 2) ix ->
  dyn_u64x2 tg self ix = Ok (map (pick self) ix).
Proof.
  intros P VS VI R. pose proof VI as [L F].
  assert (B : Forall (fun i => 0 <= i < Z.of_nat 2) ix).
  { apply Forall_forall. intros i I. rewrite Forall_forall in R, F. specialize (R i I). specialize (F i I).
    cbv beta in *. lia. }
  unfold dyn_u64x2. clear VI R F.
  do 2 (destruct ix as [|? ix]; [discriminate L|]). destruct ix; [|discriminate L].
  destruct (_ && _).
  { repeat match goal with H : Forall _ (_ :: _) |- _ => inversion H; clear H; subst end. cbv beta in *.
    assert (A : forall z, 0 <= z < Z.of_nat 2 -> z = 0 \/ z = 1) by (clear; lia).
    destruct (A z) as [-> | ->]; auto; destruct (A z0) as [-> | ->]; auto. }
  change u8x2 with (V KUint 1 (vn u64x2)) at 1. rewrite scaled_indices; auto; try (cbn; lia).
  2:{ eapply Forall_impl; [|exact B]. cbv beta. lia. }
  cbn [bind].
  cbn [map]. cbn [shuffle1 shuffle2 length shuffle_arity existsb Nat.eqb orb andb shuffle_lanes vkind vb u8x2
                  simd_shuffle map nth_error app collect shuffled bind].
  match type of B with Forall _ ?l => apply (wide_gather tg 8 2 self l); auto end.
  repeat match goal with H : Forall _ (_ :: _) |- _ => inversion H; clear H; subst end.
  byte_sums.
Qed.

Lemma dyn_unsigned_ok tg sz b n self ix : (0 < t_ptr tg)%nat ->
  vector_type (V KUint b n) -> (n <= 64)%nat ->
  is_vector (V KUint b n) self -> is_vector (V KUint b n) ix -> Forall (fun i => i < Z.of_nat n) ix ->
  dyn_unsigned tg sz b n self ix = Ok (map (pick self) ix).
Proof.
  intros P T N VS VI R.
  pose proof (dyn_fallback_ok tg (V KUint b n) self ix P T N VS VI R) as FB.
  unfold dyn_unsigned. destruct sz; auto.
  destruct (Nat.eq_dec b 1) as [-> |B1].
  { destruct (Nat.eq_dec n 8) as [-> |N8]; [now apply dyn_u8x8_ok|].
    destruct (Nat.eq_dec n 16) as [-> |N16]; [now apply dyn_u8x16_ok|].
    do 17 (destruct n as [|n]; [exact FB || congruence|]). exact FB. }
  destruct (Nat.eq_dec b 2) as [-> |B2].
  { destruct (Nat.eq_dec n 8) as [-> |N8]; [now apply dyn_u16x8_ok|].
    do 9 (destruct n as [|n]; [exact FB || congruence|]). exact FB. }
  destruct (Nat.eq_dec b 4) as [-> |B4].
  { destruct (Nat.eq_dec n 4) as [-> |N8]; [now apply dyn_u32x4_ok|].
    do 5 (destruct n as [|n]; [exact FB || congruence|]). exact FB. }
  destruct (Nat.eq_dec b 8) as [-> |B8].
  { destruct (Nat.eq_dec n 2) as [-> |N8]; [now apply dyn_u64x2_ok|].
    do 3 (destruct n as [|n]; [exact FB || congruence|]). exact FB. }
  destruct (Nat.eq_dec b 16) as [-> |B16].
  { destruct (Nat.eq_dec n 1) as [-> |N1].
    - unfold dyn_u128x1. destruct VS as [LS FS], VI as [LI FI]. cbn [vn] in *.
      destruct ix as [|i [|? ?]]; try discriminate. destruct self as [|x [|? ?]]; try discriminate.
      inversion R; inversion FI; subst. cbv beta in *. assert (i = 0) as -> by lia. reflexivity.
    - do 2 (destruct n as [|n]; [exact FB || congruence|]). exact FB. }
  do 17 (destruct b as [|b]; [exact FB || congruence|]). exact FB.
Qed.

(** C24 *)
Theorem shuffle1_dyn_in_range tg sz t v ix :
  (0 < t_ptr tg)%nat -> vector_type t -> (vn t <= 64)%nat ->
  is_vector t v -> is_vector (V KUint (vb t) (vn t)) ix ->
  (forall k i, lane ix k i -> i < Z.of_nat (vn t)) ->
  exists r, shuffle1_dyn tg sz t v ix = Ok r /\ is_vector t r /\
    forall k i p, lane ix k i -> lane v (Z.to_nat i) p -> lane r k p.
Proof.
  intros P T N V VI R. exists (map (pick v) ix).
  assert (RF : Forall (fun i => i < Z.of_nat (vn t)) ix).
  { apply Forall_of_nth_error. intros k i K. exact (R k i K). }
  assert (W : is_vector t (map (pick v) ix)).
  { split; [rewrite map_length; apply VI|]. apply Forall_forall. intros q Q.
    apply in_map_iff in Q as (p & <- & _). exact (pick_pattern _ _ _ _ V). }
  split; [|split; auto].
  - unfold shuffle1_dyn.
    assert (ID : forall x, is_vector t x -> transmute (t_big_endian tg) (vb t) (vb t) (vn t) x = x)
      by (intros x X; apply transmute_id; exact X).
    pose proof (dyn_unsigned_ok tg sz (vb t) (vn t) v ix P T N V VI RF) as E.
    rewrite ID by auto.
    destruct (vkind t); auto; rewrite E; cbn [bind]; now rewrite ID.
  - intros k i p K L. unfold lane in *. rewrite nth_error_map, K. cbn. f_equal.
    unfold pick. now apply nth_error_nth.
Qed.

(** C25 *)
Theorem shuffle1_dyn_targets_agree tg tg' sz t v ix :
  (0 < t_ptr tg)%nat -> (0 < t_ptr tg')%nat -> vector_type t -> (vn t <= 64)%nat ->
  is_vector t v -> is_vector (V KUint (vb t) (vn t)) ix ->
  (forall k i, lane ix k i -> i < Z.of_nat (vn t)) ->
  shuffle1_dyn tg sz t v ix = shuffle1_dyn tg' sz t v ix.
Proof.
  intros P P' T N V VI R.
  destruct (shuffle1_dyn_in_range tg sz t v ix P T N V VI R) as (r & E & [L _] & A).
  destruct (shuffle1_dyn_in_range tg' sz t v ix P' T N V VI R) as (r' & E' & [L' _] & A').
  rewrite E, E'. f_equal. apply nth_error_ext; [congruence|]. intros k a b HA HB.
  assert (K : (k < length ix)%nat) by (apply nth_error_lt in HA; destruct VI as [LI _]; cbn [vn] in LI; congruence).
  destruct (nth_error_ex ix k K) as [i I].
  pose proof (R k i I) as RI. destruct VI as [LI FI].
  assert (PI := Forall_nth_error _ _ _ _ FI I). cbv beta in PI.
  assert (J : (Z.to_nat i < length v)%nat) by (destruct V as [-> _]; lia).
  destruct (nth_error_ex v _ J) as [p PL].
  specialize (A k i p I PL). specialize (A' k i p I PL). unfold lane in *. congruence.
Qed.

(** ** Arbitrary indices *)

Definition drawn (v : vec) (p : Z) : Prop := p = 0 \/ In p v.

Lemma pick_drawn v i : drawn v (pick v i).
Proof. unfold pick. destruct (nth_in_or_default (Z.to_nat i) v 0); [right|left]; auto. Qed.

(** The outcome is a panic or a vector of lanes drawn from the operand. *)
Definition mild (t : vty) (v : vec) (o : outcome vec) : Prop :=
  o = Panic \/ exists r, o = Ok r /\ is_vector t r /\ Forall (drawn v) r.

Lemma mild_map t v (f : Z -> Z) (ix : list Z) : is_vector t v -> length ix = vn t -> (forall i, drawn v (f i)) ->
  mild t v (Ok (map f ix)).
Proof.
  intros [L F] LI D. right. exists (map f ix). split; auto. split; [split|].
  - now rewrite map_length.
  - apply Forall_forall. intros q Q. apply in_map_iff in Q as (p & <- & _).
    destruct (D p) as [-> |I]; [apply (zero_pattern (vb t))|]. rewrite Forall_forall in F. auto.
  - apply Forall_forall. intros q Q. apply in_map_iff in Q as (p & <- & _). auto.
Qed.

Lemma dyn_fallback_mild tg t v ix : vector_type t -> is_vector t v -> is_vector t ix ->
  mild t v (dyn_fallback tg t v ix).
Proof.
  intros T V VI. rewrite dyn_fallback_eq by auto. destruct (forallb _ _); [|now left].
  apply mild_map; auto; [apply VI|]. intros; apply pick_drawn.
Qed.

Lemma gather_general be b (f h : Z -> Z) ms :
  (forall m j, In m ms -> (j < b)%nat ->
     f (Z.of_nat b * m + Z.of_nat j) = nth j (lane_bytes be b (h m)) 0) ->
  map f (byte_indices b ms) = image be b (map h ms).
Proof.
  intros H. unfold byte_indices, image. induction ms as [|m ms IH]; cbn [flat_map map]; auto.
  rewrite map_app, IH by (intros; apply H; cbn; auto). f_equal.
  rewrite map_map. apply nth_error_ext; [now rewrite map_length, seq_length, lane_bytes_length|].
  intros k x y X Y. rewrite nth_error_map in X.
  destruct (nth_error (seq 0 b) k) as [j|] eqn:J; [|discriminate]. cbn in X. injection X as <-.
  pose proof (nth_error_lt _ _ _ J) as K. rewrite seq_length in K.
  assert (j = k) as ->.
  { apply nth_error_nth with (d := 0%nat) in J. rewrite seq_nth in J by auto. lia. }
  rewrite H by (cbn; auto). now apply nth_error_nth.
Qed.

Lemma nth_lane_bytes_zero be b j : nth j (lane_bytes be b 0) 0 = 0.
Proof.
  rewrite lane_bytes_zero. revert j. induction b as [|b IH]; intros [|j]; cbn; auto.
Qed.

Lemma pick_image be b n v m j : wf b n v -> 0 <= m < Z.of_nat n -> (j < b)%nat ->
  pick (image be b v) (Z.of_nat b * m + Z.of_nat j) = nth j (lane_bytes be b (pick v m)) 0.
Proof.
  intros [L F] M J. rewrite <- L in M. pose proof (pick_lane v m M) as P.
  pose proof (nth_error_image be b v _ _ j P J) as E.
  pose proof (nth_error_lane_bytes be b (pick v m) j J) as E'.
  rewrite (nth_error_nth _ _ 0 E').
  unfold pick at 1. apply nth_error_nth. rewrite <- E. f_equal. lia.
Qed.

Lemma pick_image_oob be b n v m j : wf b n v -> Z.of_nat n <= m ->
  pick (image be b v) (Z.of_nat b * m + Z.of_nat j) = 0.
Proof.
  intros [L F] M. unfold pick. apply nth_overflow. rewrite image_length, L. nia.
Qed.

Lemma byte_indices_in b ms i : In i (byte_indices b ms) ->
  exists m j, In m ms /\ (j < b)%nat /\ i = Z.of_nat b * m + Z.of_nat j.
Proof.
  intros H. apply in_flat_map in H as (k & K & H). apply in_map_iff in H as (j & <- & J).
  apply in_seq in J. exists k, j. split; auto. split; auto. lia.
Qed.

Lemma byte_indices_length b ms : length (byte_indices b ms) = (b * length ms)%nat.
Proof.
  unfold byte_indices. induction ms as [|i ix IH]; cbn [flat_map length]; [lia|].
  rewrite app_length, map_length, seq_length, IH. lia.
Qed.

Lemma testbit7 i : 0 <= i < 256 -> Z.testbit i 7 = (128 <=? i).
Proof.
  intros I. rewrite Z.testbit_eqb by lia. change (2 ^ 7) with 128.
  destruct (Z.leb_spec 128 i).
  - replace (i / 128) with 1 by (clear - I H; lia). reflexivity.
  - rewrite Z.div_small by lia. reflexivity.
Qed.

Lemma wide_mild tg t v ms : (0 < t_ptr tg)%nat -> (0 < vb t)%nat -> (vb t * vn t = 16)%nat ->
  is_vector t v -> length ms = vn t -> Forall (fun m => 0 <= m < 16 * Z.of_nat (vn t)) ms ->
  mild t v (r <- dyn_u8x16 tg (transmute (t_big_endian tg) (vb t) 1 16 v) (byte_indices (vb t) ms) ;;
            Ok (transmute (t_big_endian tg) 1 (vb t) (vn t) r)).
Proof.
  intros P Hb E W L R. set (be := t_big_endian tg). set (b := vb t) in *. set (n := vn t) in *.
  assert (W1 : wf 1 16 (transmute be b 1 16 v)) by (apply (transmute_wf be b n); auto).
  assert (I : transmute be b 1 16 v = image be b v).
  { rewrite <- (image_1 be (transmute be b 1 16 v)) by apply W1.
    apply (transmute_image be b n 1 16); auto. }
  assert (B : forall i, In i (byte_indices b ms) -> 0 <= i < 256).
  { intros i H. apply byte_indices_in in H as (m & j & M & J & ->).
    rewrite Forall_forall in R. specialize (R m M). cbv beta in R. nia. }
  assert (BI : is_vector u8x16 (byte_indices b ms)).
  { split; [rewrite byte_indices_length, L; exact E|]. apply Forall_forall. intros i H. apply B in H. exact H. }
  assert (G : forall f h, (forall m, drawn v (h m)) ->
    (forall m j, In m ms -> (j < b)%nat -> f (Z.of_nat b * m + Z.of_nat j) = nth j (lane_bytes be b (h m)) 0) ->
    mild t v (r <- Ok (map f (byte_indices b ms)) ;; Ok (transmute be 1 b n r))).
  { intros f h D H. cbn [bind]. rewrite (gather_general be b f h) by auto.
    replace (transmute be 1 b n (image be b (map h ms))) with (map h ms); [now apply mild_map|].
    symmetry. unfold transmute. rewrite image_1.
    + apply of_image_image. destruct (mild_map t v h ms W L D) as [M|(r & [= <-] & M & _)]; [discriminate|exact M].
    + eapply Forall_impl; [|apply image_byte]. intros x X. exact X. }
  assert (Rm : forall m, In m ms -> 0 <= m < 16 * Z.of_nat n) by (intros m M; rewrite Forall_forall in R; apply (R m M)).
  unfold dyn_u8x16. rewrite I. destruct (is_x86 tg && t_ssse3 tg); [|destruct (_ && _)].
  - apply (G _ (fun m => if 8 * Z.of_nat n <=? m then 0 else pick v (m mod Z.of_nat n))).
    + intros m. destruct (_ <=? _); [now left|apply pick_drawn].
    + intros m j M J. specialize (Rm m M).
      assert (M16 : Z.of_nat b * Z.of_nat n = 16) by nia.
      assert (0 < Z.of_nat n) by nia.
      rewrite testbit7 by nia.
      replace (128 <=? Z.of_nat b * m + Z.of_nat j) with (8 * Z.of_nat n <=? m)
        by (apply eq_true_iff_eq; rewrite !Z.leb_le; nia).
      destruct (_ <=? m); [now rewrite nth_lane_bytes_zero|].
      rewrite <- (pick_image be b n v (m mod Z.of_nat n) j W) by (auto; apply Z.mod_pos_bound; lia).
      unfold pick at 1. f_equal. f_equal.
      rewrite <- M16. rewrite (Z.div_mod m (Z.of_nat n)) at 1 by lia.
      replace (Z.of_nat b * (Z.of_nat n * (m / Z.of_nat n) + m mod Z.of_nat n) + Z.of_nat j)
        with (Z.of_nat b * (m mod Z.of_nat n) + Z.of_nat j + (m / Z.of_nat n) * (Z.of_nat b * Z.of_nat n)) by ring.
      rewrite Z.mod_add by nia. apply Z.mod_small.
      pose proof (Z.mod_pos_bound m (Z.of_nat n)). nia.
  - apply (G _ (fun m => if m <? Z.of_nat n then pick v m else 0)).
    + intros m. destruct (_ <? _); [apply pick_drawn|now left].
    + intros m j M J. specialize (Rm m M). destruct (Z.ltb_spec m (Z.of_nat n)).
      * apply (pick_image be b n); auto. lia.
      * rewrite nth_lane_bytes_zero. now apply (pick_image_oob be b n).
  - rewrite dyn_fallback_eq; auto.
    + destruct (forallb _ _) eqn:FB; [|now left].
      rewrite (map_ext_in _ (pick (image be b v))).
      2:{ intros i HI. rewrite wrap_id; auto. apply B in HI. pose proof (modulus_ge _ P). unfold pattern. lia. }
      apply (G _ (pick v)); [apply pick_drawn|].
      intros m j M J. apply (pick_image be b n); auto. specialize (Rm m M).
      rewrite forallb_forall in FB. specialize (FB (Z.of_nat b * m + Z.of_nat j)).
      assert (HI : In (Z.of_nat b * m + Z.of_nat j) (byte_indices b ms)).
      { apply in_flat_map. exists m. split; auto. apply in_map_iff. exists j. split; auto. apply in_seq. lia. }
      specialize (FB HI). apply B in HI. rewrite wrap_id in FB.
      * apply Z.ltb_lt in FB. change (Z.of_nat (vn u8x16)) with 16 in FB. nia.
      * pose proof (modulus_ge _ P). unfold pattern. lia.
    + split; [|split]; cbn; lia.
    + rewrite <- I. exact W1.
Qed.

Lemma reduced_indices t (s c : Z) ix : vkind t = KUint ->
  length ix = vn t -> is_vector t ix -> 0 < s -> 0 < c -> s * c = 256 -> (256 | modulus (vb t)) ->
  cast PlainCast t (V KUint 1 (vn t)) (mul_vs t ix s) = Ok (map (fun i => s * (i mod c)) ix).
Proof.
  intros K L VI S C SC D. unfold mul_vs, mul, simd_mul, splat.
  rewrite map2_repeat_r by auto. unfold cast, from_cast, from_cast_plain. cbn [vkind vb].
  rewrite (simd_cast_int t (V KUint 1 (vn t))) by (unfold int_like; auto). cbn [vb].
  f_equal. rewrite map_map. apply map_ext_in. intros i I.
  rewrite K. unfold lane_mul, ival. cbn [is_signed]. unfold wrap.
  change (modulus 1) with 256. destruct D as [q D].
  pose proof (modulus_pos (vb t)) as MP.
  rewrite D in *. rewrite <- Znumtheory.Zmod_div_mod; [|lia|nia|exists q; ring].
  rewrite <- SC. rewrite Z.mul_comm. apply Z.mul_mod_distr_l; lia.
Qed.

Ltac byte_sums' :=
  rewrite add_u8x16; unfold byte_indices; cbn [flat_map map seq app map2];
  repeat (match goal with |- wrap 1 ?z :: _ = _ => rewrite (wrap1_small z) by lia end; apply f_equal2; [lia|]);
  reflexivity.

Lemma dyn_unsigned_mild tg sz b n v ix : (0 < t_ptr tg)%nat -> vector_type (V KUint b n) ->
  is_vector (V KUint b n) v -> is_vector (V KUint b n) ix ->
  mild (V KUint b n) v (dyn_unsigned tg sz b n v ix).
Proof.
  intros P T VV VI.
  pose proof (dyn_fallback_mild tg (V KUint b n) v ix T VV VI) as FB.
  unfold dyn_unsigned. destruct sz; auto.
  destruct (Nat.eq_dec b 1) as [-> |B1].
  { destruct (Nat.eq_dec n 8) as [-> |N8].
    { unfold dyn_u8x8. destruct (_ && _); auto. apply (mild_map (V KUint 1 8)); auto; [apply VI|].
      intros i. apply pick_drawn. }
    destruct (Nat.eq_dec n 16) as [-> |N16].
    { unfold dyn_u8x16. destruct (_ && _); [|destruct (_ && _); auto].
      - apply (mild_map (V KUint 1 16)); auto; [apply VI|].
        intros i. destruct (Z.testbit i 7); [now left|]. apply (pick_drawn v (i mod 16)).
      - apply (mild_map (V KUint 1 16)); auto; [apply VI|]. intros i. apply pick_drawn. }
    do 17 (destruct n as [|n]; [exact FB || congruence|]). exact FB. }
  destruct (Nat.eq_dec b 2) as [-> |B2].
  { destruct (Nat.eq_dec n 8) as [-> |N8].
    2:{ do 9 (destruct n as [|n]; [exact FB || congruence|]). exact FB. }
    unfold dyn_u16x8. change u8x8 with (V KUint 1 (vn u16x8)) at 1.
    rewrite (reduced_indices u16x8 2 128); auto; [|apply VI|lia|lia|exists 256; reflexivity].
    cbn [bind]. pose proof VI as [L _]. clear FB VI.
    rewrite <- (map_map (fun i => i mod 128) (fun m => 2 * m)).
    assert (B : Forall (fun m => 0 <= m < 16 * Z.of_nat (vn u16x8)) (map (fun i => i mod 128) ix)).
    { apply Forall_forall. intros m M. apply in_map_iff in M as (i & <- & _).
      exact (Z.mod_pos_bound i 128 eq_refl). }
    assert (LM : length (map (fun i => i mod 128) ix) = 8%nat) by (rewrite map_length; exact L).
    set (ms := map (fun i => i mod 128) ix) in *. clearbody ms. clear L ix.
    pose proof (wide_mild tg u16x8 v ms P ltac:(cbn; lia) eq_refl VV LM B) as M.
    do 8 (destruct ms as [|? ms]; [discriminate LM|]). destruct ms; [|discriminate LM].
    cbn [map]. cbn [shuffle1 shuffle2 length shuffle_arity existsb Nat.eqb orb andb shuffle_lanes vkind vb u8x8
                  simd_shuffle map nth_error app collect shuffled bind].
    match goal with |- mild _ _ (bind (dyn_u8x16 _ _ ?x) _) =>
      replace x with (byte_indices (vb u16x8) [z; z0; z1; z2; z3; z4; z5; z6]) end; [exact M|].
    change (Z.of_nat (vn u16x8)) with 8 in B. clear M.
    repeat match goal with H : Forall _ (_ :: _) |- _ => inversion H; clear H; subst end.
    cbv beta in *. symmetry. change (vb u16x8) with 2%nat. byte_sums'. }
  destruct (Nat.eq_dec b 4) as [-> |B4].
  { destruct (Nat.eq_dec n 4) as [-> |N8].
    2:{ do 5 (destruct n as [|n]; [exact FB || congruence|]). exact FB. }
    unfold dyn_u32x4. destruct (_ && _).
    { apply (mild_map (V KUint 4 4)); auto; [apply VI|]. intros i. apply (pick_drawn v (i mod 4)). }
    change u8x4 with (V KUint 1 (vn u32x4)) at 1.
    rewrite (reduced_indices u32x4 4 64); auto; [|apply VI|lia|lia|exists (256*256*256); reflexivity].
    cbn [bind]. pose proof VI as [L _]. clear FB VI.
    rewrite <- (map_map (fun i => i mod 64) (fun m => 4 * m)).
    assert (B : Forall (fun m => 0 <= m < 16 * Z.of_nat (vn u32x4)) (map (fun i => i mod 64) ix)).
    { apply Forall_forall. intros m M. apply in_map_iff in M as (i & <- & _).
      exact (Z.mod_pos_bound i 64 eq_refl). }
    assert (LM : length (map (fun i => i mod 64) ix) = 4%nat) by (rewrite map_length; exact L).
    set (ms := map (fun i => i mod 64) ix) in *. clearbody ms. clear L ix.
    pose proof (wide_mild tg u32x4 v ms P ltac:(cbn; lia) eq_refl VV LM B) as M.
    do 4 (destruct ms as [|? ms]; [discriminate LM|]). destruct ms; [|discriminate LM].
    cbn [map]. cbn [shuffle1 shuffle2 length shuffle_arity existsb Nat.eqb orb andb shuffle_lanes vkind vb u8x4
                  simd_shuffle map nth_error app collect shuffled bind].
    match goal with |- mild _ _ (bind (dyn_u8x16 _ _ ?x) _) =>
      replace x with (byte_indices (vb u32x4) [z; z0; z1; z2]) end; [exact M|].
    change (Z.of_nat (vn u32x4)) with 4 in B. clear M.
    repeat match goal with H : Forall _ (_ :: _) |- _ => inversion H; clear H; subst end.
    cbv beta in *. symmetry. change (vb u32x4) with 4%nat. byte_sums'. }
  destruct (Nat.eq_dec b 8) as [-> |B8].
  { destruct (Nat.eq_dec n 2) as [-> |N8].
    2:{ do 3 (destruct n as [|n]; [exact FB || congruence|]). exact FB. }
    unfold dyn_u64x2. destruct (_ && _).
    { unfold shl_scalar, shl, simd_shl, splat. pose proof VI as [L _]. rewrite map2_repeat_r by exact L.
      rewrite (all_ok_map_total _ (fun i => wrap 8 (Z.shiftl i 1))) by (intros; reflexivity).
      cbn [bind]. apply (mild_map (V KUint 8 2)); auto; [rewrite map_length; apply VI|].
      intros i. destruct (Z.testbit i 1); [apply (pick_drawn v 1)|apply (pick_drawn v 0)]. }
    change u8x2 with (V KUint 1 (vn u64x2)) at 1.
    rewrite (reduced_indices u64x2 8 32); auto; [|apply VI|lia|lia|exists (2^56); reflexivity].
    cbn [bind]. pose proof VI as [L _]. clear FB VI.
    rewrite <- (map_map (fun i => i mod 32) (fun m => 8 * m)).
    assert (B : Forall (fun m => 0 <= m < 16 * Z.of_nat (vn u64x2)) (map (fun i => i mod 32) ix)).
    { apply Forall_forall. intros m M. apply in_map_iff in M as (i & <- & _).
      exact (Z.mod_pos_bound i 32 eq_refl). }
    assert (LM : length (map (fun i => i mod 32) ix) = 2%nat) by (rewrite map_length; exact L).
    set (ms := map (fun i => i mod 32) ix) in *. clearbody ms. clear L ix.
    pose proof (wide_mild tg u64x2 v ms P ltac:(cbn; lia) eq_refl VV LM B) as M.
    do 2 (destruct ms as [|? ms]; [discriminate LM|]). destruct ms; [|discriminate LM].
    cbn [map]. cbn [shuffle1 shuffle2 length shuffle_arity existsb Nat.eqb orb andb shuffle_lanes vkind vb u8x2
                  simd_shuffle map nth_error app collect shuffled bind].
    match goal with |- mild _ _ (bind (dyn_u8x16 _ _ ?x) _) =>
      replace x with (byte_indices (vb u64x2) [z; z0]) end; [exact M|].
    change (Z.of_nat (vn u64x2)) with 2 in B. clear M.
    repeat match goal with H : Forall _ (_ :: _) |- _ => inversion H; clear H; subst end.
    cbv beta in *. symmetry. change (vb u64x2) with 8%nat. byte_sums'. }
  destruct (Nat.eq_dec b 16) as [-> |B16].
  { destruct (Nat.eq_dec n 1) as [-> |N1].
    - unfold dyn_u128x1. right. exists v. split; auto. split; auto. apply Forall_forall. now right.
    - do 2 (destruct n as [|n]; [exact FB || congruence|]). exact FB. }
  do 17 (destruct b as [|b]; [exact FB || congruence|]). exact FB.
Qed.

Theorem shuffle1_dyn_any_index tg sz t v ix :
  (0 < t_ptr tg)%nat -> vector_type t ->
  is_vector t v -> is_vector (V KUint (vb t) (vn t)) ix ->
  shuffle1_dyn tg sz t v ix = Panic \/
  exists r, shuffle1_dyn tg sz t v ix = Ok r /\ is_vector t r /\
    forall k p, lane r k p -> p = 0 \/ exists j, lane v j p.
Proof.
  intros P T V VI. pose proof (dyn_unsigned_mild tg sz (vb t) (vn t) v ix P T V VI) as M.
  assert (ID : forall x, is_vector t x -> transmute (t_big_endian tg) (vb t) (vb t) (vn t) x = x)
    by (intros x X; apply transmute_id; exact X).
  assert (G : shuffle1_dyn tg sz t v ix = dyn_unsigned tg sz (vb t) (vn t) v ix).
  { unfold shuffle1_dyn. rewrite ID by auto. destruct (vkind t); auto;
    (destruct M as [-> |(r & -> & R & _)]; cbn [bind]; [auto|now rewrite ID]). }
  rewrite G. destruct M as [-> |(r & -> & R & D)]; auto. right. exists r. split; auto. split; auto.
  intros k p L. pose proof (Forall_nth_error _ _ _ _ D L) as [-> |I]; auto.
  right. apply In_nth_error in I as [j J]. eauto.
Qed.

Lemma not_dedicated tg sz t v ix : sz = true \/ dedicated t = false ->
  dyn_unsigned tg sz (vb t) (vn t) v ix = dyn_fallback tg (V KUint (vb t) (vn t)) v ix.
Proof.
  intros [-> |D]; [reflexivity|]. unfold dyn_unsigned. destruct sz; auto.
  destruct t as [k b n]. unfold dedicated in D. cbn [vb vn existsb fst snd] in *.
  destruct (Nat.eq_dec b 1) as [-> |B1].
  { do 17 (destruct n as [|n]; [reflexivity || discriminate|]). reflexivity. }
  destruct (Nat.eq_dec b 2) as [-> |B2].
  { do 9 (destruct n as [|n]; [reflexivity || discriminate|]). reflexivity. }
  destruct (Nat.eq_dec b 4) as [-> |B4].
  { do 5 (destruct n as [|n]; [reflexivity || discriminate|]). reflexivity. }
  destruct (Nat.eq_dec b 8) as [-> |B8].
  { do 3 (destruct n as [|n]; [reflexivity || discriminate|]). reflexivity. }
  destruct (Nat.eq_dec b 16) as [-> |B16].
  { do 2 (destruct n as [|n]; [reflexivity || discriminate|]). reflexivity. }
  do 17 (destruct b as [|b]; [reflexivity || congruence|]). reflexivity.
Qed.

Theorem shuffle1_dyn_fallback tg sz t v ix :
  (0 < t_ptr tg)%nat -> vector_type t -> sz = true \/ dedicated t = false ->
  is_vector t v -> is_vector (V KUint (vb t) (vn t)) ix ->
  ((exists k i, lane ix k i /\ Z.of_nat (vn t) <= i mod 2 ^ (8 * Z.of_nat (t_ptr tg))) ->
     shuffle1_dyn tg sz t v ix = Panic) /\
  ((forall k i, lane ix k i -> i mod 2 ^ (8 * Z.of_nat (t_ptr tg)) < Z.of_nat (vn t)) ->
     exists r, shuffle1_dyn tg sz t v ix = Ok r /\ is_vector t r /\
       forall k i p, lane ix k i -> lane v (Z.to_nat (i mod 2 ^ (8 * Z.of_nat (t_ptr tg)))) p -> lane r k p).
Proof.
  intros P T D V VI.
  assert (ID : forall x, is_vector t x -> transmute (t_big_endian tg) (vb t) (vb t) (vn t) x = x)
    by (intros x X; apply transmute_id; exact X).
  pose proof (not_dedicated tg sz t v ix D) as N.
  rewrite dyn_fallback_eq in N by auto. cbn [vn] in N.
  split.
  - intros (k & i & L & I).
    replace (forallb _ ix) with false in N.
    + unfold shuffle1_dyn. rewrite ID by auto. rewrite N. destruct (vkind t); reflexivity.
    + symmetry. apply not_true_iff_false. intros F. rewrite forallb_forall in F.
      specialize (F i (nth_error_In _ _ L)). apply Z.ltb_lt in F. unfold wrap, modulus, bits in F.
      apply (Z.lt_irrefl (Z.of_nat (vn t))). eapply Z.le_lt_trans; eauto.
  - intros H. replace (forallb _ ix) with true in N.
    + set (g := fun i => pick v (wrap (t_ptr tg) i)) in N.
      assert (W : is_vector t (map g ix)).
      { split; [rewrite map_length; apply VI|]. apply Forall_forall. intros q Q.
        apply in_map_iff in Q as (p & <- & _). exact (pick_pattern _ _ _ _ V). }
      exists (map g ix). split; [|split; auto].
      * unfold shuffle1_dyn. rewrite ID by auto. rewrite N. destruct (vkind t); cbn [bind]; rewrite ?ID; auto.
      * intros k i p L Q. unfold lane in *. rewrite nth_error_map, L. cbn. f_equal.
        unfold g, pick. apply nth_error_nth. exact Q.
    + symmetry. apply forallb_forall. intros i I. apply In_nth_error in I as [k K].
      apply Z.ltb_lt. exact (H k i K).
Qed.
