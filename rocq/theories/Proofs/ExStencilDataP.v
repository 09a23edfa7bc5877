(** The data the stencil example starts with, cell by cell. *)
From Coq Require Import ZArith List Bool Lia Reals Lra.
From Flocq Require Import Core.
From Verif.Model Require Import Base FloatLane Llvm Tables MathTables Math ExStencil.
From Verif.Spec Require Import Spec Floats MathSpec Stencil.
From Verif.Proofs Require Import Lib FloatP FloatOpsP FloatVecP FloatApiP ExStencilP ExStencilMainP.
Import ListNotations.
Open Scope Z_scope.

Lemma nth_range n k d : (k < Z.to_nat n)%nat -> nth k (range 0 n) d = Z.of_nat k.
Proof.
  intros H. unfold range. rewrite Z.sub_0_r.
  rewrite (nth_indep _ d (0 + Z.of_nat 0)) by now rewrite map_length, seq_length.
  rewrite (map_nth (fun i => 0 + Z.of_nat i)). rewrite seq_nth by exact H. reflexivity.
Qed.
Lemma nth_flat {A B} (g : A -> list B) m (l : list A) i j d e : (forall x, length (g x) = m) -> (i < length l)%nat -> (j < m)%nat ->
  nth (i * m + j) (flat_map g l) d = nth j (g (nth i l e)) d.
Proof.
  intros H. revert i. induction l as [|x l IH]; intros i Hi Hj; [cbn in Hi; lia|]. cbn [flat_map].
  destruct i as [|i]; cbn [nth].
  - rewrite app_nth1 by (rewrite H; lia). reflexivity.
  - rewrite app_nth2 by (rewrite H; lia). rewrite H. replace (S i * m + j - m)%nat with (i * m + j)%nat by lia.
    apply IH; [cbn [length] in Hi; lia|exact Hj].
Qed.
Lemma range_length n : 0 <= n -> length (range 0 n) = Z.to_nat n.
Proof. intros H. unfold range. rewrite map_length, seq_length, Z.sub_0_r. reflexivity. Qed.

Lemma grid_cell r f x y z : in_grid r x y z -> nth (Z.to_nat ((z * n_y r + y) * n_x r + x)) (grid r f) 0 = f z y x.
Proof.
  intros (Hx & Hy & Hz). unfold grid.
  set (nx := n_x r) in *. set (ny := n_y r) in *. set (nz := n_z r) in *.
  assert (E : Z.to_nat ((z * ny + y) * nx + x) =
    (Z.to_nat z * (Z.to_nat ny * Z.to_nat nx) + (Z.to_nat y * Z.to_nat nx + Z.to_nat x))%nat).
  { apply Nat2Z.inj. assert (0 <= (z * ny + y) * nx + x).
    { apply Z.add_nonneg_nonneg; [|lia]. apply Z.mul_nonneg_nonneg; [|lia]. apply Z.add_nonneg_nonneg; [|lia]. apply Z.mul_nonneg_nonneg; lia. }
    rewrite Z2Nat.id by assumption. rewrite !Nat2Z.inj_add, !Nat2Z.inj_mul, !Z2Nat.id by lia. ring. }
  rewrite E.
  assert (LX : forall z y, length (map (fun x => f z y x) (range 0 nx)) = Z.to_nat nx).
  { intros. rewrite map_length. apply range_length. lia. }
  assert (LY : forall z, length (flat_map (fun y => map (fun x => f z y x) (range 0 nx)) (range 0 ny)) = (Z.to_nat ny * Z.to_nat nx)%nat).
  { intros z'. rewrite <- (range_length ny) by lia. generalize (range 0 ny). intros l. induction l as [|a l IH]; [reflexivity|].
    cbn [flat_map length]. rewrite app_length, IH, LX. lia. }
  assert (JX : (Z.to_nat x < Z.to_nat nx)%nat) by lia. assert (JY : (Z.to_nat y < Z.to_nat ny)%nat) by lia.
  rewrite (nth_flat _ (Z.to_nat ny * Z.to_nat nx) _ _ _ 0 0 LY); [|rewrite range_length by lia; lia|].
  2:{ revert JX JY. generalize (Z.to_nat x) (Z.to_nat nx) (Z.to_nat y) (Z.to_nat ny). clear. intros a b c e A B. nia. }
  rewrite (nth_range nz) by lia. rewrite Z2Nat.id by lia.
  rewrite (nth_flat _ (Z.to_nat nx) _ _ _ 0 0 (LX z)); [|rewrite range_length by lia; lia|lia].
  rewrite (nth_range ny) by lia. rewrite Z2Nat.id by lia.
  rewrite (nth_indep _ 0 (f z y 0)) by (rewrite LX; lia).
  rewrite (map_nth (fun x => f z y x)). rewrite (nth_range nx) by lia. rewrite Z2Nat.id by lia. reflexivity.
Qed.

Definition quotient (a b : Z) (r : datum) : Prop :=
  exists x y, rounds_to 4 (IZR a) false x /\ rounds_to 4 (IZR b) false y /\ ieee_div 4 x y r.
Lemma quotient_ok a b : quotient a b (datum_of 4 (fl_div 4 (fl_of_int 4 a) (fl_of_int 4 b))).
Proof.
  destruct (of_int_datum 4 fsz4 a) as [P D]. destruct (of_int_datum 4 fsz4 b) as [P' D'].
  exists (datum_of 4 (fl_of_int 4 a)), (datum_of 4 (fl_of_int 4 b)). split; [exact D|]. split; [exact D'|].
  exact (proj2 (div_pattern 4 fsz4 _ _ P P')).
Qed.

(** The start data of the program. *)
Theorem start_data r x y z : in_grid r x y z ->
  quotient (x * y * z) (n_x r * n_y r * n_z r) (cell r (init_vsq r) x y z) /\
  (if x <? Z.quot (n_x r) 2 then quotient x (n_x r) (cell r (init_a r) x y z) else quotient y (n_y r) (cell r (init_a r) x y z)) /\
  cell r (init_zero r) x y z = Fin false 0.
Proof.
  intros G. unfold cell, init_vsq, init_a, init_zero. rewrite !grid_cell by exact G.
  split; [apply quotient_ok|]. split; [destruct (x <? Z.quot (n_x r) 2); apply quotient_ok|].
  exact (of_small_int 4 fsz4 0 ltac:(reflexivity)).
Qed.
Lemma coef_values : map (coefficient the_coef) [0; 1; 2; 3]%nat = [Fin false (/ 2); Fin true (- / 4); Fin false (/ 8); Fin true (- / 16)].
Proof.
  unfold coefficient, the_coef. cbn [map nth].
  assert (E : forall p e s, exp_field 4 p = e -> 0 < e < 127 -> sig_field 4 p = 0 -> sign_field 4 p = s ->
    datum_of 4 p = Fin s (if s then - (/ IZR (2 ^ (127 - e))) else / IZR (2 ^ (127 - e)))%R).
  { intros p e s E1 E2 E3 E4. unfold datum_of, magnitude. rewrite E1, E3, E4. change (2 ^ exp_width 4 - 1) with 255.
    destruct (Z.eqb_spec e 255); [lia|]. destruct (Z.eqb_spec e 0); [lia|]. change (bias 4) with 127. change (sig_width 4) with 23.
    assert (B : (IZR (2 ^ 23 + 0) * bpow radix2 (e - 127 - 23) = / IZR (2 ^ (127 - e)))%R).
    { replace (2 ^ 23 + 0) with (2 ^ 23) by reflexivity. change 2 with (radix_val radix2) at 1. rewrite IZR_Zpower by lia.
      rewrite <- bpow_plus. replace (23 + (e - 127 - 23)) with (- (127 - e)) by ring. rewrite bpow_opp. f_equal.
      rewrite <- IZR_Zpower by lia. reflexivity. }
    rewrite B. reflexivity. }
  rewrite (E 0x3f000000 126 false), (E 0xbe800000 125 true), (E 0x3e000000 124 false), (E 0xbd800000 123 true); try reflexivity; lia.
Qed.

(** The parallel version checks that there are at most as many planes as z coordinates. *)
Lemma par_checks order X tg r t0 t1 coef vsq a : n_z r < z1 r - z0 r -> x8_par order X tg r t0 t1 coef vsq a = Panic.
Proof. intros H. unfold x8_par, assert. destruct (Z.leb_spec (z1 r - z0 r) (n_z r)); [lia|reflexivity]. Qed.
