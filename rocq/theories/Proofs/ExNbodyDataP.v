(** The n-body example: the start data and the scalar program. *)
From Coq Require Import ZArith List Bool Lia Reals Lra QArith.
From Flocq Require Import Core.
From Verif.Model Require Import Base FloatLane Tables ExStencil ExOptions ExNbody.
From Verif.Spec Require Import Spec Floats Rays Formulas Gravity.
From Verif.Proofs Require Import Lib FloatP FloatOpsP FloatVecP FloatApiP FloatConstsP FormulaP ExNbodyP.
Import ListNotations.
Open Scope Z_scope.
Local Notation pat := (pattern 8).
Local Notation dat := (datum_of 8).
Local Opaque fl_add fl_sub fl_mul fl_div fl_sqrt.

(** A literal. *)
Definition num8 (p : Z) (x : R) : Prop := pat p /\ dat p = Fin (Rlt_bool x 0) (rounded 8 x).
Lemma num8_neg q y p x : q = f64_neg p -> (0 < x)%R -> y = (- x)%R -> num8 p x -> num8 q y.
Proof. intros -> X -> [P D]. split; [now apply q_neg|now apply neg_num]. Qed.
Lemma n_x00 : num8 0x40135da0343cd92c (484143144246472090 / 10 ^ 17).
Proof. split; [apply q_lit; vm_compute; split; congruence|]. dec8 484143144246472090 (10 ^ 17)%positive 50. Qed.
Lemma n_x01' : num8 0x3ff290abc01fdb7c (116032004402742839 / 10 ^ 17).
Proof. split; [apply q_lit; vm_compute; split; congruence|]. dec8 116032004402742839 (10 ^ 17)%positive 52. Qed.
Lemma n_x01 : num8 0xbff290abc01fdb7c (- 116032004402742839 / 10 ^ 17).
Proof. apply (num8_neg 0xbff290abc01fdb7c _ 0x3ff290abc01fdb7c (116032004402742839 / 10 ^ 17) eq_refl); [lra|unfold Rdiv; ring|exact n_x01']. Qed.
Lemma n_x02' : num8 0x3fba86f96c25ebf0 (103622044471123109 / 10 ^ 18).
Proof. split; [apply q_lit; vm_compute; split; congruence|]. dec8 103622044471123109 (10 ^ 18)%positive 56. Qed.
Lemma n_x02 : num8 0xbfba86f96c25ebf0 (- 103622044471123109 / 10 ^ 18).
Proof. apply (num8_neg 0xbfba86f96c25ebf0 _ 0x3fba86f96c25ebf0 (103622044471123109 / 10 ^ 18) eq_refl); [lra|unfold Rdiv; ring|exact n_x02']. Qed.
Lemma n_v00 : num8 0x3f5b32ddb8ec9209 (166007664274403694 / 10 ^ 20).
Proof. split; [apply q_lit; vm_compute; split; congruence|]. dec8 166007664274403694 (10 ^ 20)%positive 62. Qed.
Lemma n_v01 : num8 0x3f7f88ff93f670b6 (769901118419740425 / 10 ^ 20).
Proof. split; [apply q_lit; vm_compute; split; congruence|]. dec8 769901118419740425 (10 ^ 20)%positive 60. Qed.
Lemma n_v02' : num8 0x3f12199946debd80 (690460016972063023 / 10 ^ 22).
Proof. split; [apply q_lit; vm_compute; split; congruence|]. dec8 690460016972063023 (10 ^ 22)%positive 66. Qed.
Lemma n_v02 : num8 0xbf12199946debd80 (- 690460016972063023 / 10 ^ 22).
Proof. apply (num8_neg 0xbf12199946debd80 _ 0x3f12199946debd80 (690460016972063023 / 10 ^ 22) eq_refl); [lra|unfold Rdiv; ring|exact n_v02']. Qed.
Lemma n_m0 : num8 0x3f4f49601333c135 (954791938424326609 / 10 ^ 21).
Proof. split; [apply q_lit; vm_compute; split; congruence|]. dec8 954791938424326609 (10 ^ 21)%positive 63. Qed.
Lemma n_x10 : num8 0x4020afcdc332ca67 (834336671824457987 / 10 ^ 17).
Proof. split; [apply q_lit; vm_compute; split; congruence|]. dec8 834336671824457987 (10 ^ 17)%positive 49. Qed.
Lemma n_x11 : num8 0x40107fcb31de01b0 (412479856412430479 / 10 ^ 17).
Proof. split; [apply q_lit; vm_compute; split; congruence|]. dec8 412479856412430479 (10 ^ 17)%positive 50. Qed.
Lemma n_x12' : num8 0x3fd9d353e1eb467c (403523417114321381 / 10 ^ 18).
Proof. split; [apply q_lit; vm_compute; split; congruence|]. dec8 403523417114321381 (10 ^ 18)%positive 54. Qed.
Lemma n_x12 : num8 0xbfd9d353e1eb467c (- 403523417114321381 / 10 ^ 18).
Proof. apply (num8_neg 0xbfd9d353e1eb467c _ 0x3fd9d353e1eb467c (403523417114321381 / 10 ^ 18) eq_refl); [lra|unfold Rdiv; ring|exact n_x12']. Qed.
Lemma n_v10' : num8 0x3f66abb60a8e1d76 (276742510726862411 / 10 ^ 20).
Proof. split; [apply q_lit; vm_compute; split; congruence|]. dec8 276742510726862411 (10 ^ 20)%positive 61. Qed.
Lemma n_v10 : num8 0xbf66abb60a8e1d76 (- 276742510726862411 / 10 ^ 20).
Proof. apply (num8_neg 0xbf66abb60a8e1d76 _ 0x3f66abb60a8e1d76 (276742510726862411 / 10 ^ 20) eq_refl); [lra|unfold Rdiv; ring|exact n_v10']. Qed.
Lemma n_v11 : num8 0x3f747956257578b8 (499852801234917238 / 10 ^ 20).
Proof. split; [apply q_lit; vm_compute; split; congruence|]. dec8 499852801234917238 (10 ^ 20)%positive 60. Qed.
Lemma n_v12 : num8 0x3ef829379cad4ac0 (230417297573763929 / 10 ^ 22).
Proof. split; [apply q_lit; vm_compute; split; congruence|]. dec8 230417297573763929 (10 ^ 22)%positive 68. Qed.
Lemma n_m1 : num8 0x3f32bc5eeff5e6f8 (285885980666130812 / 10 ^ 21).
Proof. split; [apply q_lit; vm_compute; split; congruence|]. dec8 285885980666130812 (10 ^ 21)%positive 64. Qed.
Lemma n_x20 : num8 0x4029c9eacea7d9cf (128943695621391310 / 10 ^ 16).
Proof. split; [apply q_lit; vm_compute; split; congruence|]. dec8 128943695621391310 (10 ^ 16)%positive 49. Qed.
Lemma n_x21' : num8 0x402e38e8d626667e (151111514016986312 / 10 ^ 16).
Proof. split; [apply q_lit; vm_compute; split; congruence|]. dec8 151111514016986312 (10 ^ 16)%positive 49. Qed.
Lemma n_x21 : num8 0xc02e38e8d626667e (- 151111514016986312 / 10 ^ 16).
Proof. apply (num8_neg 0xc02e38e8d626667e _ 0x402e38e8d626667e (151111514016986312 / 10 ^ 16) eq_refl); [lra|unfold Rdiv; ring|exact n_x21']. Qed.
Lemma n_x22' : num8 0x3fcc9557be257da0 (223307578892655734 / 10 ^ 18).
Proof. split; [apply q_lit; vm_compute; split; congruence|]. dec8 223307578892655734 (10 ^ 18)%positive 55. Qed.
Lemma n_x22 : num8 0xbfcc9557be257da0 (- 223307578892655734 / 10 ^ 18).
Proof. apply (num8_neg 0xbfcc9557be257da0 _ 0x3fcc9557be257da0 (223307578892655734 / 10 ^ 18) eq_refl); [lra|unfold Rdiv; ring|exact n_x22']. Qed.
Lemma n_v20 : num8 0x3f6849383e87d954 (296460137564761618 / 10 ^ 20).
Proof. split; [apply q_lit; vm_compute; split; congruence|]. dec8 296460137564761618 (10 ^ 20)%positive 61. Qed.
Lemma n_v21 : num8 0x3f637c044ac0ace1 (237847173959480950 / 10 ^ 20).
Proof. split; [apply q_lit; vm_compute; split; congruence|]. dec8 237847173959480950 (10 ^ 20)%positive 61. Qed.
Lemma n_v22' : num8 0x3eff1983fedbfaa0 (296589568540237556 / 10 ^ 22).
Proof. split; [apply q_lit; vm_compute; split; congruence|]. dec8 296589568540237556 (10 ^ 22)%positive 68. Qed.
Lemma n_v22 : num8 0xbeff1983fedbfaa0 (- 296589568540237556 / 10 ^ 22).
Proof. apply (num8_neg 0xbeff1983fedbfaa0 _ 0x3eff1983fedbfaa0 (296589568540237556 / 10 ^ 22) eq_refl); [lra|unfold Rdiv; ring|exact n_v22']. Qed.
Lemma n_m2 : num8 0x3f06e44607a13bd6 (436624404335156298 / 10 ^ 22).
Proof. split; [apply q_lit; vm_compute; split; congruence|]. dec8 436624404335156298 (10 ^ 22)%positive 67. Qed.
Lemma n_x30 : num8 0x402ec267a905572a (153796971148509165 / 10 ^ 16).
Proof. split; [apply q_lit; vm_compute; split; congruence|]. dec8 153796971148509165 (10 ^ 16)%positive 49. Qed.
Lemma n_x31' : num8 0x4039eb5833c8a220 (259193146099879641 / 10 ^ 16).
Proof. split; [apply q_lit; vm_compute; split; congruence|]. dec8 259193146099879641 (10 ^ 16)%positive 48. Qed.
Lemma n_x31 : num8 0xc039eb5833c8a220 (- 259193146099879641 / 10 ^ 16).
Proof. apply (num8_neg 0xc039eb5833c8a220 _ 0x4039eb5833c8a220 (259193146099879641 / 10 ^ 16) eq_refl); [lra|unfold Rdiv; ring|exact n_x31']. Qed.
Lemma n_x32 : num8 0x3fc6f1f393abe540 (179258772950371181 / 10 ^ 18).
Proof. split; [apply q_lit; vm_compute; split; congruence|]. dec8 179258772950371181 (10 ^ 18)%positive 55. Qed.
Lemma n_v30 : num8 0x3f65f5c9e51b4320 (268067772490389322 / 10 ^ 20).
Proof. split; [apply q_lit; vm_compute; split; congruence|]. dec8 268067772490389322 (10 ^ 20)%positive 61. Qed.
Lemma n_v31 : num8 0x3f5aad5736999d88 (162824170038242295 / 10 ^ 20).
Proof. split; [apply q_lit; vm_compute; split; congruence|]. dec8 162824170038242295 (10 ^ 20)%positive 62. Qed.
Lemma n_v32' : num8 0x3f18f2070b7f9750 (951592254519715870 / 10 ^ 22).
Proof. split; [apply q_lit; vm_compute; split; congruence|]. dec8 951592254519715870 (10 ^ 22)%positive 66. Qed.
Lemma n_v32 : num8 0xbf18f2070b7f9750 (- 951592254519715870 / 10 ^ 22).
Proof. apply (num8_neg 0xbf18f2070b7f9750 _ 0x3f18f2070b7f9750 (951592254519715870 / 10 ^ 22) eq_refl); [lra|unfold Rdiv; ring|exact n_v32']. Qed.
Lemma n_m3 : num8 0x3f0b0213ca2d0eec (515138902046611451 / 10 ^ 22).
Proof. split; [apply q_lit; vm_compute; split; congruence|]. dec8 515138902046611451 (10 ^ 22)%positive 67. Qed.

Lemma planets_ok i x v m xs vs ms : nth_error planets i = Some (x, v, m) -> nth_error planet_literals i = Some (xs, vs, ms) ->
  num8 ms m /\ forall a, (a < 3)%nat -> num8 (nth a xs 0) (nth a x 0%R) /\ num8 (nth a vs 0) (nth a v 0%R).
Proof.
  destruct i as [|[|[|[|i]]]]; cbn [nth_error planets planet_literals].
  - intros [= <- <- <-] [= <- <- <-]. split; [exact n_m0|]. intros a A. case3 a; split; cbn [nth]; [exact n_x00|exact n_v00|exact n_x01|exact n_v01|exact n_x02|exact n_v02].
  - intros [= <- <- <-] [= <- <- <-]. split; [exact n_m1|]. intros a A. case3 a; split; cbn [nth]; [exact n_x10|exact n_v10|exact n_x11|exact n_v11|exact n_x12|exact n_v12].
  - intros [= <- <- <-] [= <- <- <-]. split; [exact n_m2|]. intros a A. case3 a; split; cbn [nth]; [exact n_x20|exact n_v20|exact n_x21|exact n_v21|exact n_x22|exact n_v22].
  - intros [= <- <- <-] [= <- <- <-]. split; [exact n_m3|]. intros a A. case3 a; split; cbn [nth]; [exact n_x30|exact n_v30|exact n_x31|exact n_v31|exact n_x32|exact n_v32].
  - destruct i; discriminate.
Qed.

Lemma literals_len i x v m : nth_error planets i = Some (x, v, m) -> exists xs vs ms, nth_error planet_literals i = Some (xs, vs, ms).
Proof.
  intros H. destruct (nth_error planet_literals i) as [[[xs vs] ms]|] eqn:E; [eauto|].
  apply nth_error_None in E. assert (i < length planets)%nat by (apply nth_error_Some; congruence). cbn [length planets planet_literals] in *. lia.
Qed.
Lemma literals_shape i xs vs ms : nth_error planet_literals i = Some (xs, vs, ms) ->
  length xs = 3%nat /\ length vs = 3%nat /\ Forall pat xs /\ Forall pat vs /\ pat ms.
Proof.
  intros H. assert (E : exists x v m, nth_error planets i = Some (x, v, m)).
  { destruct (nth_error planets i) as [[[x v] m]|] eqn:E; [eauto|]. apply nth_error_None in E.
    assert (i < length planet_literals)%nat by (apply nth_error_Some; congruence). cbn [length planets planet_literals] in *. lia. }
  destruct E as (x & v & m & E). destruct (planets_ok _ _ _ _ _ _ _ E H) as [PM PA].
  assert (L : length xs = 3%nat /\ length vs = 3%nat).
  { clear E PM PA. destruct i as [|[|[|[|i]]]]; cbn [nth_error planet_literals] in H; try (injection H as <- <- _; split; reflexivity).
    destruct i; discriminate. }
  destruct L as [L1 L2]. split; [exact L1|]. split; [exact L2|].
  split; [|split; [|exact (proj1 PM)]]; apply Forall_forall; intros p Hp.
  - destruct (In_nth _ _ 0 Hp) as (a & A & <-). rewrite L1 in A. apply (PA a A).
  - destruct (In_nth _ _ 0 Hp) as (a & A & <-). rewrite L2 in A. apply (PA a A).
Qed.

Lemma bodies_nth pad i xs vs ms : nth_error planet_literals i = Some (xs, vs, ms) ->
  nth (S i) (bodies_with pad) nobody =
  {| b_x := xs ++ pad; b_v := map (fun c => fl_mul 8 c DAYS_PER_YEAR) vs ++ pad; b_mass := fl_mul 8 ms SOLAR_MASS |}.
Proof.
  intros H. apply nth_error_nth. cbn [bodies_with nth_error]. rewrite nth_error_map, H. reflexivity.
Qed.
Local Opaque SOLAR_MASS DAYS_PER_YEAR.

Lemma bodies_five pad : Forall pat pad -> five_bodies (3 + length pad) (bodies_with pad).
Proof.
  intros PP. split; [reflexivity|]. unfold bodies_with. constructor.
  - cbn [b_mass b_x b_v]. split; [exact q_solar|].
    assert (F : Forall pat ([f64_0; f64_0; f64_0] ++ pad)) by (repeat (constructor; [exact q_zero|]); exact PP).
    split; [reflexivity|]. split; [exact F|]. split; [reflexivity|exact F].
  - rewrite Forall_map. apply Forall_forall. intros [[xs vs] ms] H. destruct (In_nth_error _ _ H) as (i & E).
    destruct (literals_shape _ _ _ _ E) as (L1 & L2 & F1 & F2 & PM). cbn [b_mass b_x b_v].
    split; [apply q_mul; [exact PM|exact q_solar]|]. rewrite !app_length, map_length, L1, L2.
    split; [reflexivity|]. split; [apply Forall_app; now split|]. split; [reflexivity|]. apply Forall_app. split; [|exact PP].
    rewrite Forall_map. eapply Forall_impl; [|exact F2]. intros p P. apply q_mul; [exact P|exact q_days].
Qed.

Lemma bodies_start pad : solar_system in_f64 (system_of (bodies_with pad)).
Proof.
  split.
  - split; [apply solar_ok|]. intros a A. unfold in_f64, sun. case3 a; split; apply e_num; exact pos_zero.
  - intros i x v m H. destruct (literals_len _ _ _ _ H) as (xs & vs & ms & E).
    destruct (planets_ok _ _ _ _ _ _ _ H E) as [[P1 N1] PA]. destruct (literals_shape _ _ _ _ E) as (L1 & L2 & _).
    unfold system_of. cbn [mass place speed]. rewrite (bodies_nth pad _ _ _ _ E). cbn [b_mass b_x b_v]. unfold in_f64.
    split; [apply e_times; [exact P1|exact q_solar|apply e_num; exact N1|apply solar_ok]|].
    intros a A. destruct (PA a A) as [[P2 N2] [P3 N3]]. rewrite !app_nth1 by (rewrite ?map_length; lia).
    split; [apply e_num; exact N2|].
    rewrite (nth_indep _ 0 (fl_mul 8 0 DAYS_PER_YEAR)) by (rewrite map_length; lia).
    rewrite (map_nth (fun c => fl_mul 8 c DAYS_PER_YEAR)).
    apply e_times; [exact P3|exact q_days|apply e_num; exact N3|apply e_num; exact days_num].
Qed.

(** *** The scalar program *)
Lemma foreach_steps {S} (Inv : S -> Prop) (R : S -> S -> Prop) (f : S -> S) : (forall x, Inv x -> Inv (f x) /\ R x (f x)) ->
  forall n k x, Inv x -> exists st : nat -> S, st 0%nat = x /\ foreach (seq k n) x (fun _ y => Ok (f y)) = Ok (st n) /\
    (forall j, (j <= n)%nat -> Inv (st j)) /\ (forall j, (j < n)%nat -> R (st j) (st (j + 1)%nat)).
Proof.
  intros H. induction n as [|n IH]; intros k x I.
  - exists (fun _ => x). cbn [seq foreach]. repeat split; auto. intros j J. lia.
  - destruct (H x I) as [I' Rx]. destruct (IH (1 + k)%nat (f x) I') as (st & S0 & E & Is & Rs).
    exists (fun j => match j with O => x | S j => st j end). cbn [seq foreach bind]. split; [reflexivity|]. split; [exact E|]. split.
    + intros [|j] J; [exact I|apply Is; lia].
    + intros [|j] J; cbn [Nat.add]; [now rewrite S0|apply Rs; lia].
Qed.

Lemma time_datum : dat f64_step = time_step.
Proof. rewrite step_num. unfold time_step. f_equal. apply Rlt_bool_false. lra. Qed.

Lemma scalar_run_ok n : exists s0 s1 s2 a b, scalar_run n = Ok (a, b) /\ pat a /\ pat b /\
  solar_system in_f64 s0 /\ stopped_by_total in_f64 s0 s1 /\ steps in_f64 scalar_version time_step n s1 s2 /\
  energy in_f64 scalar_version s1 (dat a) /\ energy in_f64 scalar_version s2 (dat b).
Proof.
  destruct (scalar_offset_ok scalar_BODIES (bodies_five [] (Forall_nil _))) as (l1 & E1 & F1 & O).
  destruct (foreach_steps (five_bodies 3) (fun x y => step in_f64 scalar_version time_step (system_of x) (system_of y)) (fun x => scalar_advance x f64_step)) with (n := n) (k := 0%nat) (x := l1)
    as (st & S0 & E2 & Is & Rs); [|exact F1|].
  { intros x I. rewrite <- time_datum. apply scalar_step; [exact I|exact q_step]. }
  destruct (scalar_energy_ok l1 F1) as [P1 A1]. destruct (scalar_energy_ok (st n) (Is n (le_n n))) as [P2 A2].
  exists (system_of scalar_BODIES), (system_of l1), (system_of (st n)), (scalar_energy l1), (scalar_energy (st n)).
  split; [unfold scalar_run; rewrite E1; cbn [bind]; rewrite E2; reflexivity|]. split; [exact P1|]. split; [exact P2|].
  split; [apply bodies_start|]. split; [exact O|]. split; [|split; [exact A1|exact A2]].
  exists (fun k => system_of (st k)). split; [now rewrite S0|]. split; [reflexivity|]. intros k K.
  rewrite <- (Nat.add_1_r k). now apply Rs.
Qed.
