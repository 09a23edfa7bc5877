From Coq Require Import ZArith List Bool Lia Reals Lra Psatz.
From Flocq Require Import Core Relative.
From Verif.Model Require Import Base FloatLane Llvm Tables Minimal MaskReduce Ops Cmp Cast ExMandelbrot.
From Verif.Spec Require Import Spec Floats Orbits.
From Verif.Proofs Require Import Lib MinimalP BitManipP OpsP MaskReduceP CmpP FloatP FloatOpsP FloatVecP.
Import ListNotations.
Open Scope Z_scope.

Lemma fs8 : fsize 8.
Proof. now right. Qed.

(** ** Rounding errors *)
Definition eps : R := (/ 1000000)%R.

Lemma rounding_error x : (Rabs (rounded 8 x - x) <= bpow radix2 (-53) * Rabs x + bpow radix2 (-1074))%R.
Proof.
  unfold rounded. change (1 - bias 8 - sig_width 8) with (-1074). change (sig_width 8 + 1) with 53.
  destruct (error_N_FLT radix2 (-1074) 53 eq_refl (fun z => negb (Z.even z)) x) as (e & h & E & H & _ & ->).
  assert (E' : (Rabs e <= bpow radix2 (-53))%R).
  { replace (bpow radix2 (-53)) with (/ 2 * bpow radix2 (-53 + 1))%R; [exact E|].
    rewrite bpow_plus. change (bpow radix2 1) with 2%R. field. }
  assert (H' : (Rabs h <= bpow radix2 (-1074))%R).
  { eapply Rle_trans; [exact H|]. pose proof (bpow_gt_0 radix2 (-1074)). lra. }
  replace (x * (1 + e) + h - x)%R with (e * x + h)%R by ring.
  eapply Rle_trans; [apply Rabs_triang|]. apply Rplus_le_compat; [|exact H'].
  rewrite Rabs_mult. apply Rmult_le_compat_r; [apply Rabs_pos|exact E'].
Qed.

Lemma small_20 : (bpow radix2 (-20) <= eps)%R.
Proof. unfold eps. cbn [bpow]. change (Z.pow_pos radix2 20) with 1048576. lra. Qed.
Lemma small_53 : (bpow radix2 (-53) <= eps)%R.
Proof. apply Rle_trans with (bpow radix2 (-20)); [apply bpow_le; discriminate|exact small_20]. Qed.

Definition err (r x : R) : Prop := (Rabs (r - x) <= eps * Rabs x + eps)%R.
Lemma rounded_err x : err (rounded 8 x) x.
Proof.
  unfold err. eapply Rle_trans; [apply rounding_error|]. pose proof small_53. pose proof (Rabs_pos x).
  assert (bpow radix2 (-1074) <= eps)%R
    by (apply Rle_trans with (bpow radix2 (-20)); [apply bpow_le; discriminate|exact small_20]).
  nra.
Qed.

Section Reals.
Local Open Scope R_scope.

Lemma err_arg r x M : err r x -> Rabs r <= M -> Rabs x <= M + 3 * eps * (M + 1).
Proof.
  unfold err, eps. intros H R. pose proof (Rabs_pos x). pose proof (Rabs_pos r).
  assert (Rabs x <= Rabs r + Rabs (r - x)).
  { replace x with (r + - (r - x)) at 1 by ring. eapply Rle_trans; [apply Rabs_triang|].
    rewrite Rabs_Ropp. lra. }
  lra.
Qed.
Lemma err_res r x M : err r x -> Rabs x <= M -> Rabs (r - x) <= eps * (M + 1).
Proof. unfold err, eps. intros H R. lra. Qed.
Lemma err_both r x M : err r x -> Rabs r <= M -> M <= 20 -> Rabs (r - x) <= / 10000.
Proof.
  intros E R M20. pose proof (err_arg r x M E R) as A. pose proof (err_res r x _ E A) as B.
  unfold eps in *. lra.
Qed.

Lemma abs_le x M : Rabs x <= M -> - M <= x <= M.
Proof. intros H. unfold Rabs in H. destruct (Rcase_abs x); lra. Qed.

Lemma near_sq x y M d : - M <= x <= M -> - d <= x - y <= d -> y * y <= x * x + d * (2 * M + d).
Proof. intros H K. assert (- (2 * M + d) <= x + y <= 2 * M + d) by lra. nra. Qed.
Lemma near_sq' x y M d : - M <= x <= M -> - d <= y - x <= d -> y * y <= x * x + d * (2 * M + d).
Proof. intros H K. apply near_sq; lra. Qed.
Lemma sq_abs x M : 0 <= M -> x * x <= M * M -> - M <= x <= M.
Proof. intros H K. split; nra. Qed.
Lemma sq_le x M : - M <= x <= M -> x * x <= M * M.
Proof. intros H. nra. Qed.
Lemma sq_nonneg x : 0 <= x * x.
Proof. nra. Qed.
Lemma lower_square a b : 0 <= a -> a <= b -> a * a <= b * b.
Proof. nra. Qed.
Lemma small_min X Y : X * Y * (X * Y) <= 41 / 10 -> Y * Y <= X * X -> Y * Y <= 21 / 10.
Proof.
  intros H C. destruct (Rle_or_lt (Y * Y) (21 / 10)) as [L|L]; [assumption|]. exfalso.
  assert (21 / 10 * (21 / 10) <= (X * X) * (Y * Y)) by (apply Rmult_le_compat; lra). lra.
Qed.

Lemma sq_bound X Y A B P D S :
  err A (X * X) -> err B (Y * Y) -> err P (X * Y) -> err D (A - B) -> err S (P + P) ->
  Rabs D <= 4 -> Rabs S <= 4 -> 4 < A + B -> 159 / 10 <= D * D + S * S.
Proof.
  intros HA HB HP HD HS D4 S4 AB.
  pose proof (err_both D (A - B) 4 HD D4 ltac:(lra)) as ED.
  pose proof (err_both S (P + P) 4 HS S4 ltac:(lra)) as ES.
  apply abs_le in ED, ES. apply abs_le in D4 as D4'. apply abs_le in S4 as S4'.
  assert (P3 : Rabs P <= 3) by (apply Rabs_le; lra).
  pose proof (err_both P (X * Y) 3 HP P3 ltac:(lra)) as EP. apply abs_le in EP.
  assert (XY : - 201 / 100 <= X * Y <= 201 / 100) by lra.
  assert (QA : A <= X * X + / 10000 * (X * X) + / 10000 /\ X * X <= A + / 10000 * (X * X) + / 10000).
  { unfold err, eps in HA. rewrite (Rabs_pos_eq (X * X)) in HA by apply sq_nonneg. apply abs_le in HA. pose proof (Rle_0_sqr X). unfold Rsqr in *. lra. }
  assert (QB : B <= Y * Y + / 10000 * (Y * Y) + / 10000 /\ Y * Y <= B + / 10000 * (Y * Y) + / 10000).
  { unfold err, eps in HB. rewrite (Rabs_pos_eq (Y * Y)) in HB by apply sq_nonneg. apply abs_le in HB. pose proof (Rle_0_sqr Y). unfold Rsqr in *. lra. }
  assert (DIFF : - 41 / 10 <= A - B <= 41 / 10) by lra.
  assert (BX : X * X <= 7 /\ Y * Y <= 7).
  { assert (Q : X * Y * (X * Y) <= 41 / 10) by (pose proof (sq_le (X * Y) (201 / 100) ltac:(lra)); lra).
    destruct (Rle_or_lt (Y * Y) (X * X)) as [C|C].
    - pose proof (small_min X Y Q C). lra.
    - assert (Q' : Y * X * (Y * X) <= 41 / 10) by (rewrite (Rmult_comm Y X); exact Q).
      pose proof (small_min Y X Q' ltac:(lra)). lra. }
  set (a := X * X) in *. set (b := Y * Y) in *. set (c := X * Y) in *.
  assert (K : c * c = a * b) by (unfold a, b, c; ring).
  assert (a0 : 0 <= a) by apply sq_nonneg. assert (b0 : 0 <= b) by apply sq_nonneg. clearbody a b c.
  assert (N : 3997 / 1000 <= a + b) by lra.
  assert (d1 : - 4 / 1000 <= D - (a - b) <= 4 / 1000) by lra.
  assert (s1 : - 4 / 1000 <= S - 2 * c <= 4 / 1000) by lra.
  clear - d1 s1 N K a0 b0 D4' S4'.
  assert (T : (a - b) * (a - b) + (2 * c) * (2 * c) >= 3997 / 1000 * (3997 / 1000)).
  { replace ((a - b) * (a - b) + 2 * c * (2 * c)) with ((a + b) * (a + b) + 4 * (c * c - a * b)) by ring.
    rewrite K. pose proof (lower_square (3997 / 1000) (a + b) ltac:(lra) N). lra. }
  pose proof (near_sq D (a - b) 4 (4 / 1000) ltac:(lra) ltac:(lra)).
  pose proof (near_sq S (2 * c) 4 (4 / 1000) ltac:(lra) ltac:(lra)).
  lra.
Qed.

Lemma escape_reals X Y A B P D S X' Y' A' B' N' cx cy :
  err A (X * X) -> err B (Y * Y) -> err P (X * Y) -> err D (A - B) -> err S (P + P) ->
  err X' (cx + D) -> err Y' (cy + S) -> err A' (X' * X') -> err B' (Y' * Y') -> err N' (A' + B') ->
  cx * cx + cy * cy <= 7 / 2 -> 4 < A + B -> N' <= 4 -> False.
Proof.
  intros HA HB HP HD HS HX HY HA' HB' HN C AB N4.
  assert (QA : X' * X' <= A' + / 10000 * (X' * X') + / 10000).
  { unfold err, eps in HA'. rewrite (Rabs_pos_eq (X' * X')) in HA' by apply sq_nonneg. apply abs_le in HA'. pose proof (Rle_0_sqr X'). unfold Rsqr in *. lra. }
  assert (QB : Y' * Y' <= B' + / 10000 * (Y' * Y') + / 10000).
  { unfold err, eps in HB'. rewrite (Rabs_pos_eq (Y' * Y')) in HB' by apply sq_nonneg. apply abs_le in HB'. pose proof (Rle_0_sqr Y'). unfold Rsqr in *. lra. }
  assert (S1 : A' + B' <= 4001 / 1000).
  { destruct (Rle_or_lt (A' + B') 0); [lra|]. unfold err, eps in HN. rewrite (Rabs_pos_eq (A' + B')) in HN by lra.
    apply abs_le in HN. lra. }
  assert (S2 : X' * X' + Y' * Y' <= 4002 / 1000) by (pose proof (Rle_0_sqr X'); pose proof (Rle_0_sqr Y'); unfold Rsqr in *; lra).
  assert (BX : Rabs X' <= 2001 / 1000) by (apply Rabs_le, sq_abs; [lra|]; pose proof (sq_nonneg Y'); lra).
  assert (BY : Rabs Y' <= 2001 / 1000) by (apply Rabs_le, sq_abs; [lra|]; pose proof (sq_nonneg X'); lra).
  pose proof (err_both _ _ _ HX BX ltac:(lra)) as EX. pose proof (err_both _ _ _ HY BY ltac:(lra)) as EY.
  apply abs_le in EX, EY, BX, BY.
  set (U := cx + D) in *. set (W := cy + S) in *.
  assert (UW : U * U + W * W <= 401 / 100).
  { pose proof (near_sq X' U _ (/ 10000) BX ltac:(lra)). pose proof (near_sq Y' W _ (/ 10000) BY ltac:(lra)). lra. }
  assert (DS : D * D + S * S <= 1505 / 100).
  { replace D with (U - cx) by (unfold U; ring). replace S with (W - cy) by (unfold W; ring). clearbody U W.
    assert (2 * - (U * cx) <= 15 / 16 * (U * U) + 16 / 15 * (cx * cx)).
    { assert (0 <= (15 * U + 16 * cx) * (15 * U + 16 * cx)) by apply sq_nonneg. clear - H. nra. }
    assert (2 * - (W * cy) <= 15 / 16 * (W * W) + 16 / 15 * (cy * cy)).
    { assert (0 <= (15 * W + 16 * cy) * (15 * W + 16 * cy)) by apply sq_nonneg. clear - H0. nra. }
    clear - UW C H H0. nra. }
  assert (D4 : Rabs D <= 4) by (apply Rabs_le, sq_abs; [lra|]; pose proof (sq_nonneg S); lra).
  assert (S4 : Rabs S <= 4) by (apply Rabs_le, sq_abs; [lra|]; pose proof (sq_nonneg D); lra).
  pose proof (sq_bound X Y A B P D S HA HB HP HD HS D4 S4 AB). lra.
Qed.
End Reals.

(** ** One step of the sequence on data *)
Section Data.
Local Open Scope R_scope.

Lemma rounds_fin b x z s r : rounds_to b x z (Fin s r) -> r = rounded b x.
Proof. intros (s0 & _ & E). destruct (Rlt_bool _ _); now inversion E. Qed.
Lemma add_fin x y s r : ieee_add 8 x y (Fin s r) ->
  exists a u b v, x = Fin a u /\ y = Fin b v /\ r = rounded 8 (u + v).
Proof.
  unfold ieee_add. destruct x as [|a|a u], y as [|b|b v]; try discriminate.
  - now destruct (Bool.eqb a b).
  - intros H. apply rounds_fin in H. exists a, u, b, v. auto.
Qed.
Lemma sub_fin x y s r : ieee_sub 8 x y (Fin s r) ->
  exists a u b v, x = Fin a u /\ y = Fin b v /\ r = rounded 8 (u - v).
Proof.
  intros H. apply add_fin in H as (a & u & b & v & -> & E & ->). destruct y as [|c|c w]; try discriminate.
  cbn [negated] in E. inversion E; subst. exists a, u, c, w. auto.
Qed.
Lemma mul_fin x y s r : ieee_mul 8 x y (Fin s r) ->
  exists a u b v, x = Fin a u /\ y = Fin b v /\ r = rounded 8 (u * v).
Proof.
  unfold ieee_mul. destruct x as [|a|a u], y as [|b|b v]; try discriminate.
  - now destruct (Req_bool v 0).
  - now destruct (Req_bool u 0).
  - intros H. apply rounds_fin in H. exists a, u, b, v. auto.
Qed.

Lemma rounded_mono x y : x <= y -> rounded 8 x <= rounded 8 y.
Proof. intros H. apply round_le; [apply FLT_exp_valid; reflexivity|apply valid_rnd_N|exact H]. Qed.
Lemma rounded_8_0 : rounded 8 0 = 0.
Proof. apply rounded_0. Qed.
Lemma rounded_nonneg x : 0 <= x -> 0 <= rounded 8 x.
Proof. intros H. rewrite <- rounded_8_0. now apply rounded_mono. Qed.
Lemma rounded_4 : rounded 8 4 = 4.
Proof.
  apply round_generic; [apply valid_rnd_N|]. apply generic_format_FLT.
  exists (Float radix2 4 0); cbn; [unfold F2R; cbn; lra|lia|unfold sig_width, bias; cbn; lia].
Qed.

(** A square is not negative. *)
Definition nonneg (d : datum) : Prop :=
  match d with Fin s u => s = false /\ 0 <= u | Inf s => s = false | NaN => True end.
Lemma square_nonneg x xx : ieee_mul 8 x x xx -> nonneg xx.
Proof.
  unfold ieee_mul. destruct x as [|a|a u]; [intros ->; exact I|intros ->; cbn; now destruct a|].
  intros (s & (Q1 & Q2 & Q3) & ->).
  assert (P : 0 <= u * u) by apply sq_nonneg.
  assert (s = false).
  { destruct (Rle_lt_or_eq_dec 0 _ P) as [L|L]; [now apply Q2|]. rewrite Q3; [now destruct a|now symmetry]. }
  subst. destruct (Rlt_bool _ _); cbn; auto. split; auto. now apply rounded_nonneg.
Qed.
Lemma sum_nonneg x y r : nonneg x -> nonneg y -> ieee_add 8 x y r -> nonneg r.
Proof.
  destruct x as [|a|a u], y as [|b|b v]; cbn; intros X Y H; subst; cbn; auto.
  destruct X as [-> U], Y as [-> W]. destruct H as (s & (Q1 & Q2 & Q3) & ->).
  assert (s = false).
  { destruct (Rle_lt_or_eq_dec 0 (u + v) ltac:(lra)) as [L|L]; [now apply Q2|]. now rewrite Q3. }
  subst. destruct (Rlt_bool _ _); cbn; auto. split; auto. apply rounded_nonneg. lra.
Qed.
Lemma le4 n : nonneg n -> ieee_le n (Fin false 4) -> exists s r, n = Fin s r /\ r <= 4.
Proof.
  intros P H. destruct n as [|a|a u]; cbn in P; [destruct H as [[]|[]]|subst; destruct H as [H|[]]; discriminate H|].
  exists a, u. split; [reflexivity|exact H].
Qed.

Definition norm_of (x y n : datum) : Prop :=
  exists xx yy, ieee_mul 8 x x xx /\ ieee_mul 8 y y yy /\ ieee_add 8 xx yy n.
Definition step_of (cx cy x y x' y' : datum) : Prop :=
  exists xx yy xy d s, ieee_mul 8 x x xx /\ ieee_mul 8 y y yy /\ ieee_mul 8 x y xy /\
    ieee_sub 8 xx yy d /\ ieee_add 8 xy xy s /\ ieee_add 8 cx d x' /\ ieee_add 8 cy s y'.

Lemma norm_nonneg x y n : norm_of x y n -> nonneg n.
Proof. intros (xx & yy & A & B & C). exact (sum_nonneg xx yy n (square_nonneg _ _ A) (square_nonneg _ _ B) C). Qed.

Lemma mul_fun b x y r r' : ieee_mul b x y r -> ieee_mul b x y r' -> r = r'.
Proof.
  unfold ieee_mul. destruct x, y; try congruence. intros (s & S & ->) (s' & S' & ->).
  assert (s = s').
  { destruct S as (A & B & C), S' as (A' & B' & C').
    destruct (Rtotal_order (x * x0) 0) as [L|[L|L]]; [rewrite A, A'|rewrite C, C'|rewrite B, B']; auto. }
  now subst.
Qed.

(** A point that is not within the limit does not come back. *)
Lemma no_return cx cy x y x' y' n n' :
  near cx cy -> norm_of x y n -> step_of cx cy x y x' y' -> norm_of x' y' n' ->
  ieee_le n' (Fin false 4) -> ieee_le n (Fin false 4).
Proof.
  intros (sc & u & sd & v & -> & -> & C) (xx0 & yy0 & M1 & M2 & N) (xx & yy & xy & d & s & A & B & P & D & S & X & Y) N' L.
  rewrite (mul_fun _ _ _ _ _ M1 A) in N. rewrite (mul_fun _ _ _ _ _ M2 B) in N. clear xx0 yy0 M1 M2.
  destruct (le4 n' (norm_nonneg _ _ _ N') L) as (sn & r' & -> & R').
  destruct N' as (xx' & yy' & A' & B' & N').
  apply add_fin in N' as (? & a' & ? & b' & -> & -> & E').
  apply mul_fin in A' as (? & X' & ? & X'' & -> & EX & EA). inversion EX; subst; clear EX.
  apply mul_fin in B' as (? & Y' & ? & Y'' & -> & EY & EB). inversion EY; subst; clear EY.
  apply add_fin in X as (? & cx' & ? & dd & Ecx & -> & EX). inversion Ecx; subst cx'; clear Ecx.
  apply add_fin in Y as (? & cy' & ? & ss & Ecy & -> & EY). inversion Ecy; subst cy'; clear Ecy.
  pose proof (square_nonneg _ _ A) as PA. pose proof (square_nonneg _ _ B) as PB.
  apply sub_fin in D as (? & a & ? & b & -> & -> & ED).
  apply add_fin in S as (? & p & ? & p' & -> & EP & ES). inversion EP; subst p'; clear EP.
  apply mul_fin in A as (? & ux & ? & ux2 & -> & EX1 & EA). inversion EX1; subst ux2; clear EX1.
  apply mul_fin in B as (? & uy & ? & uy2 & -> & EY1 & EB). inversion EY1; subst uy2; clear EY1.
  apply mul_fin in P as (? & ux2 & ? & uy2 & EX1 & EY1 & EP). inversion EX1; inversion EY1; subst ux2 uy2; clear EX1 EY1.
  destruct (Rle_or_lt (a + b) 4) as [G|G].
  - destruct N as (s' & _ & ->). cbn in PA, PB.
    pose proof (rounded_mono _ _ G) as R4. rewrite rounded_4 in R4.
    pose proof (rounded_nonneg (a + b) ltac:(lra)) as R0.
    rewrite Rlt_bool_true.
    + destruct (Rle_lt_or_eq_dec _ _ R4); [now left|now right].
    + rewrite Rabs_pos_eq by exact R0. eapply Rle_lt_trans; [exact R4|].
      apply Rlt_le_trans with (bpow radix2 3); [cbn; lra|apply bpow_le; vm_compute; discriminate].
  - exfalso. subst. eapply (escape_reals ux uy); try apply rounded_err; eauto.
Qed.

(** The first point outside the limit is a number. *)
Definition number (d : datum) : Prop := d <> NaN.
Lemma rounds_number b x z r : rounds_to b x z r -> number r.
Proof. intros (s & _ & ->). now destruct (Rlt_bool _ _). Qed.
Lemma add_number s u y r : number y -> ieee_add 8 (Fin s u) y r -> number r.
Proof. destruct y; cbn; intros H E; [now elim H|subst; discriminate|now apply rounds_number in E]. Qed.
Lemma square_number x r : number x -> ieee_mul 8 x x r -> number r.
Proof. destruct x; cbn; intros H E; [now elim H|subst; discriminate|now apply rounds_number in E]. Qed.
Lemma norm_number x y n : number x -> number y -> norm_of x y n -> number n.
Proof.
  intros X Y (xx & yy & A & B & N).
  pose proof (square_nonneg _ _ A) as PA. pose proof (square_nonneg _ _ B) as PB.
  apply square_number in A; auto. apply square_number in B; auto.
  destruct xx as [|a|a u], yy as [|b|b v]; cbn in *; try (now elim A); try (now elim B); subst; try discriminate.
  now apply rounds_number in N.
Qed.
Lemma next_number cx cy x y x' y' n n' :
  near cx cy -> norm_of x y n -> ieee_le n (Fin false 4) -> step_of cx cy x y x' y' -> norm_of x' y' n' -> number n'.
Proof.
  intros (sc & u & sd & v & -> & -> & C) N L (xx & yy & xy & d & s & A & B & P & D & S & X & Y) N'.
  destruct (le4 n (norm_nonneg _ _ _ N) L) as (sn & r & -> & R).
  destruct N as (xx0 & yy0 & M1 & M2 & N).
  apply add_fin in N as (? & a & ? & b & -> & -> & _).
  rewrite <- (mul_fun _ _ _ _ _ M1 A) in D. rewrite <- (mul_fun _ _ _ _ _ M2 B) in D.
  apply mul_fin in M1 as (? & ux & ? & ux2 & -> & _ & _). apply mul_fin in M2 as (? & uy & ? & uy2 & -> & _ & _).
  apply rounds_number in P. apply rounds_number in D.
  assert (number s).
  { destruct xy as [|i|i w]; [now elim P| |now apply rounds_number in S].
    cbn in S. destruct i; cbn in S; subst; discriminate. }
  exact (norm_number x' y' n' (add_number _ _ _ _ D X) (add_number _ _ _ _ H Y) N').
Qed.
Lemma first_number cx cy n : near cx cy -> norm_of cx cy n -> number n.
Proof. intros (sc & u & sd & v & -> & -> & C). apply norm_number; discriminate. Qed.
Lemma number_trichotomy n : number n -> (ieee_lt (Fin false 4) n <-> ~ ieee_le n (Fin false 4)).
Proof.
  intros H. destruct n as [|s|s u]; [now elim H|destruct s|].
  - split; [intros K; discriminate K|intros K; elim K; left; reflexivity].
  - split; [intros _ [K|[]]; discriminate K|reflexivity].
  -
  unfold ieee_le; cbn. split; [lra|]. intros K. destruct (Rlt_or_le 4 u); auto. elim K.
  destruct (Rle_lt_or_eq_dec _ _ H0); auto.
Qed.
End Data.

(** ** The scalar sequence *)
Definition good (z : complex) : Prop := pattern 8 (fst z) /\ pattern 8 (snd z).
Definition re (z : complex) : datum := datum_of 8 (fst z).
Definition im (z : complex) : datum := datum_of 8 (snd z).
Definition iter (c : complex) (k : nat) : complex := Nat.iter k (next c) c.
Definition inside (c : complex) (k : nat) : bool := fl_le 8 (norm2 (iter c k)) THRESHOLD.

Lemma threshold_pattern : pattern 8 THRESHOLD.
Proof. apply of_int_datum. exact fs8. Qed.
Lemma threshold_datum : datum_of 8 THRESHOLD = Fin false 4%R.
Proof. unfold THRESHOLD. rewrite (of_small_int 8 fs8); [reflexivity|reflexivity]. Qed.

Lemma norm_spec z : good z -> pattern 8 (norm2 z) /\ norm_of (re z) (im z) (datum_of 8 (norm2 z)).
Proof.
  destruct z as [x y]. intros [X Y]. unfold norm2, re, im. cbn [fst snd] in *.
  destruct (mul_pattern 8 fs8 x x X X) as [A A']. destruct (mul_pattern 8 fs8 y y Y Y) as [B B'].
  destruct (add_pattern 8 fs8 _ _ A B) as [N N'].
  split; [exact N|]. exists (datum_of 8 (fl_mul 8 x x)), (datum_of 8 (fl_mul 8 y y)). auto.
Qed.
Lemma next_spec c z : good c -> good z ->
  good (next c z) /\ step_of (re c) (im c) (re z) (im z) (re (next c z)) (im (next c z)).
Proof.
  destruct c as [cx cy], z as [x y]. intros [CX CY] [X Y]. unfold next, re, im. cbn [fst snd] in *.
  destruct (mul_pattern 8 fs8 x x X X) as [A A']. destruct (mul_pattern 8 fs8 y y Y Y) as [B B'].
  destruct (mul_pattern 8 fs8 x y X Y) as [P P'].
  destruct (sub_pattern 8 fs8 _ _ A B) as [D D']. destruct (add_pattern 8 fs8 _ _ P P) as [S S'].
  destruct (add_pattern 8 fs8 _ _ CX D) as [X1 X1']. destruct (add_pattern 8 fs8 _ _ CY S) as [Y1 Y1'].
  split; [split; assumption|].
  exists (datum_of 8 (fl_mul 8 x x)), (datum_of 8 (fl_mul 8 y y)), (datum_of 8 (fl_mul 8 x y)),
    (datum_of 8 (fl_sub 8 (fl_mul 8 x x) (fl_mul 8 y y))), (datum_of 8 (fl_add 8 (fl_mul 8 x y) (fl_mul 8 x y))).
  auto 10.
Qed.
Lemma iter_S c k : iter c (S k) = next c (iter c k).
Proof. reflexivity. Qed.
Lemma iter_good c k : good c -> good (iter c k).
Proof. intros C. induction k as [|k IH]; [exact C|]. rewrite iter_S. now apply next_spec. Qed.

Lemma inside_iff c k : good c -> inside c k = true <-> ieee_le (datum_of 8 (norm2 (iter c k))) (Fin false 4%R).
Proof.
  intros C. unfold inside. rewrite (fl_le_iff 8 fs8 _ _ (proj1 (norm_spec _ (iter_good c k C))) threshold_pattern).
  now rewrite threshold_datum.
Qed.
Lemma diverged_iff c k : good c -> diverged (iter c k) = true <-> ieee_lt (Fin false 4%R) (datum_of 8 (norm2 (iter c k))).
Proof.
  intros C. unfold diverged. rewrite (fl_gt_iff 8 fs8 _ _ (proj1 (norm_spec _ (iter_good c k C))) threshold_pattern).
  now rewrite threshold_datum.
Qed.

Definition close (c : complex) : Prop := good c /\ near (re c) (im c).
Lemma inside_mono c k : close c -> inside c (S k) = true -> inside c k = true.
Proof.
  intros [C N] H. rewrite inside_iff in H |- * by auto. rewrite iter_S in H.
  pose proof (iter_good c k C) as G. destruct (next_spec c (iter c k) C G) as [G' S].
  destruct (norm_spec _ G) as [_ M]. destruct (norm_spec _ G') as [_ M'].
  exact (no_return _ _ _ _ _ _ _ _ N M S M' H).
Qed.
Lemma inside_number c k : close c -> (forall j, (j < k)%nat -> inside c j = true) ->
  number (datum_of 8 (norm2 (iter c k))).
Proof.
  intros [C N] H. destruct k as [|k].
  - apply (first_number (re c) (im c)); [exact N|]. apply (norm_spec c C).
  - specialize (H k ltac:(auto)). rewrite inside_iff in H by auto. rewrite iter_S.
    pose proof (iter_good c k C) as G. destruct (next_spec c (iter c k) C G) as [G' S].
    destruct (norm_spec _ G) as [_ M]. destruct (norm_spec _ G') as [_ M'].
    exact (next_number _ _ _ _ _ _ _ _ N M H S M').
Qed.
Lemma diverged_inside c k : close c -> (forall j, (j < k)%nat -> inside c j = true) ->
  diverged (iter c k) = negb (inside c k).
Proof.
  intros H J. pose proof (number_trichotomy _ (inside_number c k H J)) as T.
  rewrite <- diverged_iff, <- inside_iff in T by apply H.
  destruct (diverged (iter c k)), (inside c k); cbn; auto; exfalso.
  - now apply (proj1 T).
  - destruct T as [_ T]. discriminate T. discriminate.
Qed.

(** How many of the first [k] points are inside. *)
Fixpoint tally (u : nat -> bool) (k : nat) : nat :=
  match k with O => O | S k' => (tally u k' + (if u k' then 1 else 0))%nat end.
Lemma tally_all u k : (forall j, (j < k)%nat -> u j = true) -> tally u k = k.
Proof. induction k as [|k IH]; cbn; intros H; [auto|]. rewrite IH, H by auto. lia. Qed.
Lemma tally_le u k : (tally u k <= k)%nat.
Proof. induction k as [|k IH]; cbn; [auto|]. destruct (u k); lia. Qed.
Lemma mono_false u : (forall j, u (S j) = true -> u j = true) -> forall k j, (k <= j)%nat -> u k = false -> u j = false.
Proof.
  intros M k j H F. induction H as [|j H IH]; auto. destruct (u (S j)) eqn:E; auto. apply M in E. congruence.
Qed.
Lemma tally_stop u : (forall j, u (S j) = true -> u j = true) ->
  forall k n, u k = false -> tally u (k + n) = tally u k.
Proof.
  intros M k n F. induction n as [|n IH]; [now rewrite Nat.add_0_r|].
  rewrite Nat.add_succ_r. cbn. rewrite (mono_false u M k (k + n)) by (auto; lia). lia.
Qed.

Lemma count_loop_tally c : close c -> forall fuel k, (k + fuel = ITER_LIMIT)%nat ->
  (forall j, (j < k)%nat -> inside c j = true) -> count_loop fuel k c (iter c k) = tally (inside c) ITER_LIMIT.
Proof.
  intros C. induction fuel as [|fuel IH]; intros k K J; cbn [count_loop].
  - rewrite Nat.add_0_r in K. subst k. now rewrite tally_all.
  - rewrite diverged_inside by auto. destruct (inside c k) eqn:E; cbn [negb].
    + rewrite <- iter_S. apply IH; [lia|]. intros j H. destruct (Nat.eq_dec j k) as [->|]; auto. apply J. lia.
    + rewrite <- K. rewrite tally_stop by (auto; intros; now apply inside_mono). now rewrite tally_all.
Qed.
Lemma count_tally c : close c -> count c = tally (inside c) ITER_LIMIT.
Proof. intros C. apply (count_loop_tally c C ITER_LIMIT 0); [auto|]. intros j H; inversion H. Qed.

(** ** What the scalar loop computes, for any point *)
Lemma count_loop_escape c : good c -> forall fuel k, (k + fuel = ITER_LIMIT)%nat ->
  (forall j, (j < k)%nat -> diverged (iter c j) = false) ->
  let r := count_loop fuel k c (iter c k) in
  (r <= ITER_LIMIT)%nat /\ (forall j, (j < r)%nat -> diverged (iter c j) = false) /\
  ((r < ITER_LIMIT)%nat -> diverged (iter c r) = true).
Proof.
  intros C. induction fuel as [|fuel IH]; intros k K J; cbn [count_loop].
  - rewrite Nat.add_0_r in K. subst k. repeat split; auto. intros H; lia.
  - destruct (diverged (iter c k)) eqn:E.
    + cbv zeta. repeat split; auto. lia.
    + rewrite <- iter_S. apply IH; [lia|]. intros j H. destruct (Nat.eq_dec j k) as [->|]; auto. apply J. lia.
Qed.
Lemma count_escape c : good c -> escape_time 50 (re c) (im c) (count c).
Proof.
  intros C. destruct (count_loop_escape c C ITER_LIMIT 0 eq_refl) as (A & B & D); [intros j H; inversion H|].
  exists (fun k => re (iter c k)), (fun k => im (iter c k)), (fun k => datum_of 8 (norm2 (iter c k))). split.
  - split; [reflexivity|]. split; [reflexivity|]. intros k.
    pose proof (iter_good c k C) as G. destruct (next_spec c (iter c k) C G) as [G' S].
    destruct (norm_spec _ G) as [_ (a & b & M1 & M2 & M3)]. destruct S as (xx & yy & xy & d & s & S1 & S2 & S3 & S4 & S5 & S6 & S7).
    rewrite (mul_fun _ _ _ _ _ M1 S1), (mul_fun _ _ _ _ _ M2 S2) in M3.
    exists xx, yy, xy, d, s. rewrite iter_S. auto 10.
  - split; [exact A|]. split.
    + intros k K H. rewrite <- diverged_iff in H by auto. rewrite B in H by auto. discriminate.
    + intros K. apply diverged_iff; auto.
Qed.

(** ** Eight points at a time *)
Lemma map2_maps {A B C D} (f : B -> C -> D) (g : A -> B) (h : A -> C) l :
  map2 f (map g l) (map h l) = map (fun a => f (g a) (h a)) l.
Proof. induction l as [|a l IH]; cbn; [auto|]. now rewrite IH. Qed.
Lemma repeat_map {A B} (x : B) (l : list A) n : length l = n -> repeat x n = map (fun _ => x) l.
Proof. intros <-. induction l as [|a l IH]; cbn; [auto|]. now rewrite IH. Qed.
Lemma select_maps {A} (u : A -> bool) (f g : A -> Z) b l : (0 < b)%nat ->
  simd_select b (map (fun a => mlane b (u a)) l) (map f l) (map g l) = Ok (map (fun a => if u a then f a else g a) l).
Proof.
  intros B. unfold simd_select.
  replace (forallb (mask_lane_ok b) (map (fun a => mlane b (u a)) l)) with true.
  - f_equal. induction l as [|a l IH]; cbn [map select_lanes]; [auto|]. rewrite IH.
    rewrite mlane_eqb0 by auto. now destruct (u a).
  - symmetry. apply forallb_forall. intros p H. apply in_map_iff in H as (a & <- & _).
    unfold mask_lane_ok, mlane. destruct (u a); [now rewrite Z.eqb_refl, orb_true_r|reflexivity].
Qed.

Definition points (cs : list complex) (k : nat) : complexes :=
  (map (fun c => fst (iter c k)) cs, map (fun c => snd (iter c k)) cs).
Definition tallies (cs : list complex) (k : nat) : vec :=
  map (fun c => Z.of_nat (tally (inside c) k)) cs.

Lemma add_f64 A (f g : A -> Z) l : add f64s (map f l) (map g l) = map (fun a => fl_add 8 (f a) (g a)) l.
Proof. exact (map2_maps (fl_add 8) f g l). Qed.
Lemma sub_f64 A (f g : A -> Z) l : sub f64s (map f l) (map g l) = map (fun a => fl_sub 8 (f a) (g a)) l.
Proof. exact (map2_maps (fl_sub 8) f g l). Qed.
Lemma mul_f64 A (f g : A -> Z) l : mul f64s (map f l) (map g l) = map (fun a => fl_mul 8 (f a) (g a)) l.
Proof. exact (map2_maps (fl_mul 8) f g l). Qed.
Lemma vle_f64 A (f g : A -> Z) l : vle f64s (map f l) (map g l) = map (fun a => mlane 8 (fl_le 8 (f a) (g a))) l.
Proof. exact (map2_maps (fun p q => mlane 8 (fl_le 8 p q)) f g l). Qed.

Lemma nexts_points cs k : nexts (points cs 0) (points cs k) = points cs (S k).
Proof.
  unfold nexts, points. rewrite !mul_f64, sub_f64, !add_f64.
  f_equal; apply map_ext; intros c; rewrite iter_S; unfold next; destruct (iter c k) as [x y]; destruct c as [u v]; reflexivity.
Qed.
Lemma undiverged_points cs k : length cs = 8%nat -> undiverged (points cs k) = map (fun c => mlane 8 (inside c k)) cs.
Proof.
  intros L. unfold undiverged, points. rewrite !mul_f64, add_f64. unfold splat. rewrite (repeat_map _ cs) by exact L.
  rewrite vle_f64. apply map_ext. intros c. unfold inside, norm2. now destruct (iter c k).
Qed.

Lemma none_mask tg cs (u : complex -> bool) : length cs = 8%nat ->
  none tg m64s (map (fun c => mlane 8 (u c)) cs) = Ok (negb (existsb u cs)).
Proof.
  intros L. unfold none.
  assert (M : canonical m64s (map (fun c => mlane 8 (u c)) cs)).
  { split; [now rewrite map_length|]. apply Forall_forall. intros p H. apply in_map_iff in H as (c & <- & _).
    unfold mlane. destruct (u c); [left; reflexivity|right; reflexivity]. }
  assert (I : In m64s mask_types) by (apply nth_error_In with (n := 17%nat); vm_compute; reflexivity).
  destruct (all_canonical_masks tg m64s _ I M) as [_ ->]. cbn [bind]. do 2 f_equal.
  unfold any_true. rewrite map_map. clear - cs. induction cs as [|c cs IH]; cbn [map existsb]; [auto|].
  rewrite IH, truth_mlane by lia. reflexivity.
Qed.

Lemma counts_loop_tally tg cs : length cs = 8%nat -> Forall close cs ->
  forall fuel k, (k + fuel = ITER_LIMIT)%nat ->
  counts_loop tg fuel (points cs 0) (points cs k) (tallies cs k) = Ok (tallies cs ITER_LIMIT).
Proof.
  intros L C. induction fuel as [|fuel IH]; intros k K; cbn [counts_loop].
  - rewrite Nat.add_0_r in K. now subst k.
  - rewrite undiverged_points, none_mask by auto. cbn [bind].
    destruct (existsb (fun c => inside c k) cs) eqn:E; cbn [negb].
    + unfold select, splat. rewrite !(repeat_map _ cs (vn u64s)) by exact L.
      change (vb m64s) with 8%nat. rewrite select_maps by lia. cbn [bind]. rewrite nexts_points.
      replace (add u64s (tallies cs k) (map (fun c => if inside c k then 1 else 0) cs)) with (tallies cs (S k));
        [apply IH; lia|].
      symmetry. unfold tallies.
      transitivity (map (fun c => wrap 8 (Z.of_nat (tally (inside c) k) + (if inside c k then 1 else 0))) cs);
        [exact (map2_maps (fun p q => wrap 8 (p + q)) _ _ cs)|].
      apply map_ext. intros c. cbn [tally]. unfold wrap.
      assert (T : (tally (inside c) k <= 50)%nat) by (etransitivity; [apply tally_le|]; clear - K; unfold ITER_LIMIT in K; lia).
      change (modulus 8) with 18446744073709551616. rewrite Z.mod_small; clear - T; destruct (inside c k); lia.
    + f_equal. apply map_ext_in. intros c H. rewrite <- K. f_equal. symmetry. apply tally_stop.
      * intros j. apply inside_mono. rewrite Forall_forall in C. auto.
      * destruct (inside c k) eqn:I; auto. rewrite <- E. symmetry. apply existsb_exists. eauto.
Qed.

Lemma counts_points tg cs : length cs = 8%nat -> Forall close cs ->
  counts tg (map fst cs, map snd cs) = Ok (map (fun c => Z.of_nat (count c)) cs).
Proof.
  intros L C. unfold counts. change (map fst cs, map snd cs) with (points cs 0).
  replace (splat u64s 0) with (tallies cs 0) by (symmetry; exact (repeat_map 0 cs 8 L)).
  rewrite counts_loop_tally by auto. cbn [bind]. unfold cast, from_cast, from_cast_plain, simd_cast.
  unfold tallies. rewrite map_map. apply all_ok_map_total. intros c H.
  rewrite Forall_forall in C. rewrite count_tally by auto.
  pose proof (tally_le (inside c) ITER_LIMIT) as T. unfold ITER_LIMIT in *.
  generalize dependent (tally (inside c) 50). clear. intros n T.
  cbn [lane_cast vkind u64s u64x8 u32s u32x8 vb].
  change (lane_cast KUint 8 KUint 4 (Z.of_nat n)) with (Some (wrap 4 (Z.of_nat n))).
  unfold wrap. change (modulus 4) with 4294967296. change (ival KUint 8 (Z.of_nat n)) with (Z.of_nat n). rewrite Z.mod_small; [reflexivity|lia].
Qed.
Lemma counts_vectors tg cs (x y : vec) : map fst cs = x -> map snd cs = y -> length cs = 8%nat -> Forall close cs ->
  counts tg (x, y) = Ok (map (fun c => Z.of_nat (count c)) cs).
Proof. intros <- <-. apply counts_points. Qed.

(** ** The image *)
Lemma seq_blocks {A} (f : nat -> A) n : forall a,
  flat_map (fun k => map (fun j => f (8 * k + j)%nat) (seq 0 8)) (seq a n) = map f (seq (8 * a) (8 * n)).
Proof.
  induction n as [|n IH]; intros a; [now rewrite Nat.mul_0_r|].
  cbn [seq flat_map]. replace (8 * S n)%nat with (8 + 8 * n)%nat by lia. rewrite seq_app, map_app. f_equal.
  - change (seq 0 8) with [0; 1; 2; 3; 4; 5; 6; 7]%nat. generalize (8 * a)%nat as z. intros z. cbn [map seq].
    repeat (f_equal; try lia).
  - replace (8 * a + 8)%nat with (8 * S a)%nat by lia. apply IH.
Qed.

Section Image.
Variables (w h : nat) (x0 x1 y0 y1 : Z).
Let X j := coordinate x0 x1 w j.
Let Y i := coordinate y0 y1 h i.

Lemma counts_row_ok tg i : (forall j, (j < w)%nat -> close (X j, Y i)) ->
  forall n a, (8 * (a + n) <= w)%nat ->
  counts_row tg (map (fun k => map (fun j => X (8 * k + j)) (seq 0 8)) (seq a n)) (splat f64s (Y i)) =
  Ok (flat_map (fun k => map (fun j => Z.of_nat (count (X (8 * k + j)%nat, Y i))) (seq 0 8)) (seq a n)).
Proof.
  intros C. induction n as [|n IH]; intros a L; [reflexivity|]. change (seq a (S n)) with (a :: seq (S a) n). rewrite map_cons. cbv beta. cbn [counts_row].
  set (cs := map (fun j => (X (8 * a + j)%nat, Y i)) (seq 0 8)).
  assert (E1 : map fst cs = map (fun j => X (8 * a + j)%nat) (seq 0 8)) by (unfold cs; now rewrite map_map).
  assert (E2 : map snd cs = splat f64s (Y i)) by (unfold cs; now rewrite map_map).
  rewrite (counts_vectors tg cs (map (fun j => X (8 * a + j)%nat) (seq 0 8)) (splat f64s (Y i)) E1 E2).
  - cbn [bind]. rewrite IH by lia. cbn [bind flat_map]. unfold cs. now rewrite map_map.
  - unfold cs. now rewrite map_length, seq_length.
  - unfold cs. apply Forall_forall. intros c H. apply in_map_iff in H as (j & <- & J). apply in_seq in J.
    apply C. clear - J L. lia.
Qed.

Lemma rows_ok tg xs (f : nat -> list Z) n : forall a,
  (forall i, (i < a + n)%nat -> counts_row tg xs (splat f64s (Y i)) = Ok (f i)) ->
  rows tg xs (map (fun i => splat f64s (Y i)) (seq a n)) = Ok (flat_map f (seq a n)).
Proof.
  induction n as [|n IH]; intros a H; [reflexivity|]. cbn [seq map rows]. rewrite H by lia. cbn [bind].
  rewrite IH by (intros; apply H; lia). reflexivity.
Qed.

Lemma simd_image tg : (w mod 8 = 0)%nat -> (0 < w)%nat ->
  (forall i j, (i < h)%nat -> (j < w)%nat -> close (X j, Y i)) ->
  simd_generate tg w h x0 x1 y0 y1 = scalar_generate w h x0 x1 y0 y1.
Proof.
  intros M W C. assert (E : (8 * (w / 8) = w)%nat) by (pose proof (Nat.div_mod w 8 ltac:(lia)); lia).
  unfold simd_generate, scalar_generate. change (lanes f64s) with 8%nat. rewrite M. cbn [Nat.eqb assert bind].
  replace (Nat.eqb (w / 8) 0) with false by (symmetry; apply Nat.eqb_neq; lia).
  replace (Nat.eqb w 0) with false by (symmetry; apply Nat.eqb_neq; lia). cbn [negb assert bind].
  rewrite (rows_ok tg _ (fun i => map (fun j => Z.of_nat (count (X j, Y i))) (seq 0 w))); [reflexivity|].
  intros i I. rewrite counts_row_ok.
  - rewrite (seq_blocks (fun j => Z.of_nat (count (X j, Y i)))). now rewrite E.
  - intros j J. apply C; auto.
  - lia.
Qed.
End Image.

(** ** The default region *)
Section Region.
Local Open Scope R_scope.

Lemma rounds_small x z r : rounds_to 8 x z r -> Rabs x <= 100 -> exists s, r = Fin s (rounded 8 x).
Proof.
  intros (s & _ & ->) B. rewrite Rlt_bool_true; [eauto|].
  pose proof (rounded_err x) as E. unfold err, eps in E.
  assert (Rabs (rounded 8 x) <= 102).
  { replace (rounded 8 x) with ((rounded 8 x - x) + x) by ring. eapply Rle_trans; [apply Rabs_triang|]. lra. }
  apply Rle_lt_trans with 102; auto. apply Rlt_le_trans with (bpow radix2 7); [cbn; lra|].
  apply bpow_le. vm_compute. discriminate.
Qed.

Lemma coordinate_datum start stop s a n j :
  pattern 8 start -> datum_of 8 start = Fin s a -> pattern 8 stop -> fl_sub 8 stop start = fl_of_int 8 2 ->
  Rabs a <= 2 -> (j < n)%nat -> (Z.of_nat n < 2 ^ 53)%Z ->
  pattern 8 (coordinate start stop n j) /\
  exists s' x, datum_of 8 (coordinate start stop n j) = Fin s' x /\ a - / 1000 <= x <= a + 2 + / 1000.
Proof.
  intros PS DS PE E A J N.
  assert (N' : (Z.abs (Z.of_nat n) < 2 ^ fprec 8)%Z) by (change (2 ^ fprec 8)%Z with (2 ^ 53)%Z; rewrite Z.abs_eq; lia).
  assert (J' : (Z.abs (Z.of_nat j) < 2 ^ fprec 8)%Z) by (change (2 ^ fprec 8)%Z with (2 ^ 53)%Z; rewrite Z.abs_eq; lia).
  pose proof (of_small_int 8 fs8 _ N') as DN. pose proof (of_small_int 8 fs8 _ J') as DJ.
  pose proof (of_small_int 8 fs8 2 ltac:(reflexivity)) as D2.
  unfold coordinate. rewrite E.
  destruct (div_pattern 8 fs8 (fl_of_int 8 2) (fl_of_int 8 (Z.of_nat n))) as [PD DD];
    try (apply of_int_datum; exact fs8).
  destruct (mul_pattern 8 fs8 _ (fl_of_int 8 (Z.of_nat j)) PD) as [PT DT];
    [apply of_int_datum; exact fs8|].
  destruct (add_pattern 8 fs8 start _ PS PT) as [PX DX]. split; [exact PX|].
  rewrite D2, DN in DD. rewrite DJ in DT. rewrite DS in DX.
  set (nr := IZR (Z.of_nat n)) in *. set (jr := IZR (Z.of_nat j)) in *.
  assert (N1 : 1 <= nr) by (apply (IZR_le 1); lia).
  assert (N2 : nr <= bpow radix2 53).
  { unfold nr. change (bpow radix2 53) with (IZR (2 ^ 53)). apply IZR_le. lia. }
  assert (J0 : 0 <= jr) by (apply (IZR_le 0); lia).
  assert (J1 : jr <= nr) by (apply IZR_le; lia).
  unfold ieee_div in DD. rewrite Req_bool_false in DD by lra.
  assert (Q0 : 0 < / nr <= 1).
  { split; [apply Rinv_0_lt_compat; lra|]. rewrite <- Rinv_1. apply Rinv_le_contravar; lra. }
  assert (Q : 0 <= 2 / nr <= 2) by (unfold Rdiv; lra).
  apply rounds_small in DD as (sd & DD); [|rewrite Rabs_pos_eq; lra].
  rewrite DD in DT. cbn [ieee_mul] in DT.
  pose proof (rounding_error (2 / nr)) as ER. rewrite (Rabs_pos_eq (2 / nr)) in ER by lra.
  pose proof (rounded_nonneg (2 / nr) (proj1 Q)) as R0.
  set (d := rounded 8 (2 / nr)) in *.
  assert (D1 : d * jr <= 2 + / 10000).
  { apply abs_le in ER.
    assert (d * jr <= d * nr) by (apply Rmult_le_compat_l; lra).
    assert (d <= 2 / nr + (bpow radix2 (-53) * (2 / nr) + bpow radix2 (-1074))) by lra.
    assert (d * nr <= (2 / nr + (bpow radix2 (-53) * (2 / nr) + bpow radix2 (-1074))) * nr)
      by (apply Rmult_le_compat_r; lra).
    replace ((2 / nr + (bpow radix2 (-53) * (2 / nr) + bpow radix2 (-1074))) * nr)
      with (2 + bpow radix2 (-53) * 2 + bpow radix2 (-1074) * nr) in H1 by (field; lra).
    assert (bpow radix2 (-1074) * nr <= bpow radix2 (-53)).
    { apply Rle_trans with (bpow radix2 (-1074) * bpow radix2 53); [apply Rmult_le_compat_l; [apply bpow_ge_0|exact N2]|].
      rewrite <- bpow_plus. apply bpow_le. discriminate. }
    pose proof small_53. unfold eps in *. lra. }
  assert (D0 : 0 <= d * jr) by (apply Rmult_le_pos; lra).
  apply rounds_small in DT as (st & DT); [|rewrite Rabs_pos_eq; lra].
  rewrite DT in DX. cbn [ieee_add] in DX.
  pose proof (rounded_err (d * jr)) as ET. unfold err in ET. rewrite (Rabs_pos_eq (d * jr)) in ET by lra.
  pose proof (rounded_nonneg (d * jr) D0) as T0.
  set (t := rounded 8 (d * jr)) in *. apply abs_le in ET. apply abs_le in A. unfold eps in ET.
  assert (AX : Rabs (a + t) <= 5) by (apply Rabs_le; lra).
  apply rounds_small in DX as (sx & DX); [|lra].
  exists sx, (rounded 8 (a + t)). split; [exact DX|].
  pose proof (rounded_err (a + t)) as EX. unfold err, eps in EX. apply abs_le in EX. lra.
Qed.

Lemma region_x_datum : datum_of 8 region_x0 = Fin true (- (3 / 2)).
Proof.
  unfold datum_of, magnitude.
  change (exp_field 8 region_x0) with 1023%Z. change (sig_field 8 region_x0) with (2 ^ 51)%Z.
  change (sign_field 8 region_x0) with true. change (1023 =? 2 ^ exp_width 8 - 1)%Z with false. change (1023 =? 0)%Z with false.
  change (1023 - bias 8 - sig_width 8)%Z with (-52)%Z. change (2 ^ sig_width 8 + 2 ^ 51)%Z with 6755399441055744%Z.
  cbv iota. f_equal. cbn [bpow]. change (Z.pow_pos radix2 52) with 4503599627370496%Z. lra.
Qed.
Lemma region_y_datum : datum_of 8 region_y0 = Fin true (- 1).
Proof.
  unfold datum_of, magnitude.
  change (exp_field 8 region_y0) with 1023%Z. change (sig_field 8 region_y0) with 0%Z.
  change (sign_field 8 region_y0) with true. change (1023 =? 2 ^ exp_width 8 - 1)%Z with false. change (1023 =? 0)%Z with false.
  change (1023 - bias 8 - sig_width 8)%Z with (-52)%Z. change (2 ^ sig_width 8 + 0)%Z with 4503599627370496%Z.
  cbv iota. f_equal. cbn [bpow]. change (Z.pow_pos radix2 52) with 4503599627370496%Z. lra.
Qed.

Lemma region_close w h i j : (Z.of_nat w < 2 ^ 53)%Z -> (Z.of_nat h < 2 ^ 53)%Z -> (i < h)%nat -> (j < w)%nat ->
  close (coordinate region_x0 region_x1 w j, coordinate region_y0 region_y1 h i).
Proof.
  intros W H I J.
  destruct (coordinate_datum region_x0 region_x1 true (- (3 / 2)) w j) as (PX & sx & x & DX & BX);
    [vm_compute; split; congruence|exact region_x_datum|vm_compute; split; congruence|vm_compute; reflexivity|apply Rabs_le; lra|assumption|assumption|].
  destruct (coordinate_datum region_y0 region_y1 true (- 1) h i) as (PY & sy & y & DY & BY);
    [vm_compute; split; congruence|exact region_y_datum|vm_compute; split; congruence|vm_compute; reflexivity|apply Rabs_le; lra|assumption|assumption|].
  split; [split; assumption|]. exists sx, x, sy, y. split; [exact DX|]. split; [exact DY|].
  pose proof (sq_le x (1502 / 1000) ltac:(lra)). pose proof (sq_le y (1002 / 1000) ltac:(lra)). lra.
Qed.
End Region.

(** ** The theorems *)
Lemma point_good x y a b i : is_vector f64x8 x -> is_vector f64x8 y -> lane x i a -> lane y i b -> good (a, b).
Proof.
  intros [_ X] [_ Y] A B. rewrite Forall_forall in X, Y. apply nth_error_In in A, B. split; [exact (X a A)|exact (Y b B)].
Qed.
Lemma combine_fst {A B} (l : list A) : forall (r : list B), length l = length r -> map fst (combine l r) = l.
Proof. induction l as [|a l IH]; intros [|b r] H; cbn in *; auto; try discriminate. f_equal. apply IH. lia. Qed.
Lemma combine_snd {A B} (l : list A) : forall (r : list B), length l = length r -> map snd (combine l r) = r.
Proof. induction l as [|a l IH]; intros [|b r] H; cbn in *; auto; try discriminate. f_equal. apply IH. lia. Qed.
Lemma nth_error_combine {A B} (l : list A) : forall (r : list B) i a b,
  nth_error (combine l r) i = Some (a, b) <-> nth_error l i = Some a /\ nth_error r i = Some b.
Proof.
  induction l as [|x l IH]; intros [|y r] [|i] a b; cbn; try (split; [discriminate|intros [? ?]; discriminate]).
  - split; [intros E; inversion E; auto|intros [E F]; inversion E; inversion F; auto].
  - apply IH.
Qed.

Theorem vector_counts tg x y :
  is_vector f64x8 x -> is_vector f64x8 y ->
  (forall i a b, lane x i a -> lane y i b -> near (datum_of 8 a) (datum_of 8 b)) ->
  exists r, counts tg (x, y) = Ok r /\
    lanewise2 u32x8 x y r (fun a b c => exists n, c = Z.of_nat n /\ n = count (a, b) /\
      escape_time 50 (datum_of 8 a) (datum_of 8 b) n).
Proof.
  intros X Y N. assert (L : length x = length y) by (rewrite (proj1 X), (proj1 Y); reflexivity).
  pose proof (combine_fst x y L) as E1. pose proof (combine_snd x y L) as E2.
  assert (LC : length (combine x y) = 8%nat) by (rewrite combine_length, <- L, Nat.min_id; apply X).
  assert (C : Forall close (combine x y)).
  { apply Forall_forall. intros [a b] H. apply In_nth_error in H as [i H]. apply nth_error_combine in H as [A B].
    split; [exact (point_good x y a b i X Y A B)|exact (N i a b A B)]. }
  rewrite (counts_vectors tg (combine x y) x y E1 E2 LC C). eexists. split; [reflexivity|]. split.
  - split; [now rewrite map_length|]. apply Forall_forall. intros p H. apply in_map_iff in H as (c & <- & H).
    rewrite Forall_forall in C. rewrite (count_tally c (C c H)).
    pose proof (tally_le (inside c) ITER_LIMIT) as T. unfold ITER_LIMIT in *.
    generalize dependent (tally (inside c) 50). clear. intros n T. change (2 ^ width u32x8) with 4294967296. lia.
  - intros i a b A B. exists (Z.of_nat (count (a, b))). split.
    + unfold lane. apply (map_nth_error (fun c => Z.of_nat (count c))). apply nth_error_combine. auto.
    + exists (count (a, b)). split; [reflexivity|]. split; [reflexivity|].
      exact (count_escape (a, b) (point_good x y a b i X Y A B)).
Qed.

Theorem scalar_counts a b : 0 <= a < 2 ^ 64 -> 0 <= b < 2 ^ 64 ->
  escape_time 50 (datum_of 8 a) (datum_of 8 b) (count (a, b)).
Proof. intros A B. apply (count_escape (a, b)). split; assumption. Qed.

Lemma rounds_fun b x z r r' : rounds_to b x z r -> rounds_to b x z r' -> r = r'.
Proof.
  intros (s & (A & B & C) & ->) (s' & (A' & B' & C') & ->).
  assert (s = s') by (destruct (Rtotal_order x 0) as [L|[L|L]]; [rewrite A, A'|rewrite C, C'|rewrite B, B']; auto).
  now subst.
Qed.
Lemma add_fun b x y r r' : ieee_add b x y r -> ieee_add b x y r' -> r = r'.
Proof. unfold ieee_add. destruct x, y; try congruence. apply rounds_fun. Qed.
Theorem escape_unique limit cx cy n m : escape_time limit cx cy n -> escape_time limit cx cy m -> n = m.
Proof.
  intros (x & y & q & (X0 & Y0 & O) & (L & A & B)) (x' & y' & q' & (X0' & Y0' & O') & (L' & A' & B')).
  assert (E : forall k, x k = x' k /\ y k = y' k /\ q k = q' k).
  { assert (G : forall k, x k = x' k -> y k = y' k -> q k = q' k /\ x (S k) = x' (S k) /\ y (S k) = y' (S k)).
    { intros k EX EY. destruct (O k) as (a & b & c & d & e & M1 & M2 & M3 & M4 & M5 & M6 & M7 & M8).
      destruct (O' k) as (a' & b' & c' & d' & e' & M1' & M2' & M3' & M4' & M5' & M6' & M7' & M8').
      rewrite <- EX, <- EY in *.
      rewrite (mul_fun _ _ _ _ _ M1' M1), (mul_fun _ _ _ _ _ M2' M2), (mul_fun _ _ _ _ _ M3' M3) in *.
      rewrite (add_fun _ _ _ _ _ M5' M5), (add_fun _ _ _ _ _ M6' M6) in *.
      repeat split; eapply add_fun; eauto. }
    assert (P : forall k, x k = x' k /\ y k = y' k) by (induction k as [|k [IX IY]]; [split; congruence|apply (G k); auto]).
    intros k. destruct (P k). repeat split; auto. now apply G. }
  assert (E3 : forall k, q k = q' k) by (intros k; apply E).
  destruct (Nat.lt_trichotomy n m) as [H|[H|H]]; auto; exfalso.
  - apply (A' n H). rewrite <- E3. apply B. lia.
  - apply (A m H). rewrite E3. apply B'. lia.
Qed.

Lemma image_entry (f : nat -> nat -> Z) w h i j : (i < h)%nat -> (j < w)%nat ->
  nth_error (flat_map (fun i => map (f i) (seq 0 w)) (seq 0 h)) (i * w + j) = Some (f i j).
Proof.
  assert (G : forall h a i, (i < h)%nat -> (j < w)%nat ->
    nth_error (flat_map (fun i => map (f i) (seq 0 w)) (seq a h)) (i * w + j) = Some (f (a + i)%nat j)).
  { clear. induction h as [|h IH]; intros a i I J; [lia|]. cbn [seq flat_map].
    destruct i as [|i].
    - rewrite nth_error_app1 by (rewrite map_length, seq_length; lia). cbn [Nat.mul Nat.add].
      rewrite (map_nth_error _ _ (seq 0 w) (d := j)); [now rewrite Nat.add_0_r|].
      rewrite (nth_error_nth' _ 0%nat) by (now rewrite seq_length). now rewrite seq_nth.
    - rewrite nth_error_app2 by (rewrite map_length, seq_length; lia). rewrite map_length, seq_length.
      replace (S i * w + j - w)%nat with (i * w + j)%nat by lia. rewrite IH by lia. do 2 f_equal. lia. }
  intros I J. exact (G h 0%nat i I J).
Qed.
Lemma image_length (f : nat -> nat -> Z) w h : forall a, length (flat_map (fun i => map (f i) (seq 0 w)) (seq a h)) = (h * w)%nat.
Proof.
  induction h as [|h IH]; intros a; cbn [seq flat_map]; [reflexivity|].
  rewrite app_length, map_length, seq_length, IH. lia.
Qed.

Theorem region_image tg w h x0 x1 y0 y1 :
  (w mod 8 = 0)%nat -> (0 < w)%nat ->
  (forall i j, (i < h)%nat -> (j < w)%nat -> close (coordinate x0 x1 w j, coordinate y0 y1 h i)) ->
  exists l, scalar_generate w h x0 x1 y0 y1 = Ok l /\
    simd_generate tg w h x0 x1 y0 y1 = Ok l /\
    length l = (h * w)%nat /\
    forall i j, (i < h)%nat -> (j < w)%nat -> exists n, nth_error l (i * w + j) = Some (Z.of_nat n) /\
      escape_time 50 (datum_of 8 (coordinate x0 x1 w j)) (datum_of 8 (coordinate y0 y1 h i)) n.
Proof.
  intros M W0 C. rewrite (simd_image w h x0 x1 y0 y1 tg M W0 C).
  unfold scalar_generate. replace (Nat.eqb w 0) with false by (symmetry; apply Nat.eqb_neq; lia).
  cbn [negb assert bind]. eexists. split; [reflexivity|]. split; [reflexivity|].
  split; [apply (image_length (fun i j => Z.of_nat (count (coordinate x0 x1 w j, coordinate y0 y1 h i))))|].
  intros i j I J. exists (count (coordinate x0 x1 w j, coordinate y0 y1 h i)). split.
  - exact (image_entry (fun i j => Z.of_nat (count (coordinate x0 x1 w j, coordinate y0 y1 h i))) w h i j I J).
  - exact (count_escape (coordinate x0 x1 w j, coordinate y0 y1 h i) (proj1 (C i j I J))).
Qed.

Lemma coordinate_grid start stop n j :
  pattern 8 start -> pattern 8 stop -> Z.of_nat n < 2 ^ 53 -> (j < n)%nat ->
  grid_point (datum_of 8 start) (datum_of 8 stop) n j (datum_of 8 (coordinate start stop n j)).
Proof.
  intros PS PE N J.
  assert (N' : Z.abs (Z.of_nat n) < 2 ^ fprec 8) by (change (2 ^ fprec 8) with (2 ^ 53); rewrite Z.abs_eq; lia).
  assert (J' : Z.abs (Z.of_nat j) < 2 ^ fprec 8) by (change (2 ^ fprec 8) with (2 ^ 53); rewrite Z.abs_eq; lia).
  pose proof (of_small_int 8 fs8 _ N') as DN. pose proof (of_small_int 8 fs8 _ J') as DJ.
  rewrite (proj2 (Z.ltb_ge _ _)) in DN by lia. rewrite (proj2 (Z.ltb_ge _ _)) in DJ by lia.
  destruct (of_int_datum 8 fs8 (Z.of_nat n)) as [PN _]. destruct (of_int_datum 8 fs8 (Z.of_nat j)) as [PJ _].
  unfold coordinate.
  destruct (sub_pattern 8 fs8 _ _ PE PS) as [P1 D1]. destruct (div_pattern 8 fs8 _ _ P1 PN) as [P2 D2].
  destruct (mul_pattern 8 fs8 _ _ P2 PJ) as [P3 D3]. destruct (add_pattern 8 fs8 _ _ PS P3) as [P4 D4].
  rewrite DN in D2. rewrite DJ in D3.
  exists (datum_of 8 (fl_sub 8 stop start)), (datum_of 8 (fl_div 8 (fl_sub 8 stop start) (fl_of_int 8 (Z.of_nat n)))),
    (datum_of 8 (fl_mul 8 (fl_div 8 (fl_sub 8 stop start) (fl_of_int 8 (Z.of_nat n))) (fl_of_int 8 (Z.of_nat j)))).
  auto.
Qed.
Lemma region_x1_datum : datum_of 8 region_x1 = region_right.
Proof.
  unfold datum_of, magnitude.
  change (exp_field 8 region_x1) with 1022. change (sig_field 8 region_x1) with 0.
  change (sign_field 8 region_x1) with false. change (1022 =? 2 ^ exp_width 8 - 1) with false. change (1022 =? 0) with false.
  change (1022 - bias 8 - sig_width 8) with (-53). change (2 ^ sig_width 8 + 0) with 4503599627370496.
  cbv iota. unfold region_right. f_equal. cbn [bpow]. change (Z.pow_pos radix2 53) with 9007199254740992. lra.
Qed.
Lemma region_y1_datum : datum_of 8 region_y1 = region_bottom.
Proof.
  unfold datum_of, magnitude.
  change (exp_field 8 region_y1) with 1023. change (sig_field 8 region_y1) with 0.
  change (sign_field 8 region_y1) with false. change (1023 =? 2 ^ exp_width 8 - 1) with false. change (1023 =? 0) with false.
  change (1023 - bias 8 - sig_width 8) with (-52). change (2 ^ sig_width 8 + 0) with 4503599627370496.
  cbv iota. unfold region_bottom. f_equal. cbn [bpow]. change (Z.pow_pos radix2 52) with 4503599627370496. lra.
Qed.

Theorem default_image tg w h :
  (w mod 8 = 0)%nat -> (0 < w)%nat -> Z.of_nat w < 2 ^ 53 -> Z.of_nat h < 2 ^ 53 ->
  exists l, scalar_generate w h region_x0 region_x1 region_y0 region_y1 = Ok l /\
    simd_generate tg w h region_x0 region_x1 region_y0 region_y1 = Ok l /\
    length l = (h * w)%nat /\
    forall i j, (i < h)%nat -> (j < w)%nat -> exists cx cy n,
      grid_point region_left region_right w j cx /\ grid_point region_top region_bottom h i cy /\
      nth_error l (i * w + j) = Some (Z.of_nat n) /\ escape_time 50 cx cy n.
Proof.
  intros M W0 W H.
  destruct (region_image tg w h region_x0 region_x1 region_y0 region_y1 M W0 (fun i j I J => region_close w h i j W H I J))
    as (l & L1 & L2 & L3 & L4).
  exists l. split; [exact L1|]. split; [exact L2|]. split; [exact L3|].
  intros i j I J. destruct (L4 i j I J) as (n & N1 & N2).
  assert (GX : grid_point region_left region_right w j (datum_of 8 (coordinate region_x0 region_x1 w j))).
  { rewrite <- region_x1_datum. unfold region_left. rewrite <- region_x_datum.
    apply coordinate_grid; auto; vm_compute; split; congruence. }
  assert (GY : grid_point region_top region_bottom h i (datum_of 8 (coordinate region_y0 region_y1 h i))).
  { rewrite <- region_y1_datum. unfold region_top. rewrite <- region_y_datum.
    apply coordinate_grid; auto; vm_compute; split; congruence. }
  revert GX GY N2. generalize (datum_of 8 (coordinate region_x0 region_x1 w j)) as cx, (datum_of 8 (coordinate region_y0 region_y1 h i)) as cy.
  intros cx cy GX GY N2. exists cx, cy, n. auto.
Qed.

Theorem generate_panics tg w h x0 x1 y0 y1 :
  (scalar_generate w h x0 x1 y0 y1 = Panic <-> w = 0%nat) /\
  ((w mod 8 <> 0)%nat -> simd_generate tg w h x0 x1 y0 y1 = Panic) /\
  (w = 0%nat -> simd_generate tg w h x0 x1 y0 y1 = Panic).
Proof.
  unfold scalar_generate, simd_generate. change (lanes f64s) with 8%nat. split; [|split].
  - destruct (Nat.eqb w 0) eqn:E; cbn [negb assert bind].
    + apply Nat.eqb_eq in E. intuition.
    + apply Nat.eqb_neq in E. split; [discriminate|contradiction].
  - intros H. apply Nat.eqb_neq in H. now rewrite H.
  - intros ->. reflexivity.
Qed.
