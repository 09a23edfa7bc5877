(** Proofs for the stencil example. *)
From Coq Require Import ZArith List Bool Lia Reals Lra Permutation.
From Verif.Model Require Import Base FloatLane Tables MathTables Math Minimal Ops ExStencil.
From Verif.Spec Require Import Spec Floats MathSpec Stencil.
From Verif.Proofs Require Import Lib FloatP FloatOpsP FloatVecP FloatApiP MathApiP ExMandelbrotP.
Import ListNotations.
Open Scope Z_scope.

(** ** Lists *)
Definition at_ (a : list Z) (p : Z) : Z := nth (Z.to_nat p) a 0.

Lemma get_ok a i : 0 <= i < Z.of_nat (length a) -> get a i = Ok (at_ a i).
Proof.
  intros H. unfold get, within. destruct (Z.leb_spec 0 i), (Z.ltb_spec i (Z.of_nat (length a))); try lia. reflexivity.
Qed.
Lemma set_ok a i x : 0 <= i < Z.of_nat (length a) -> set a i x = Ok (update a (Z.to_nat i) x).
Proof.
  intros H. unfold set, within. destruct (Z.leb_spec 0 i), (Z.ltb_spec i (Z.of_nat (length a))); try lia. reflexivity.
Qed.
Lemma nth_update_same {A} (l : list A) i x d : (i < length l)%nat -> nth i (update l i x) d = x.
Proof. intros H. apply nth_error_nth. now apply nth_error_update_same. Qed.
Lemma nth_update_other {A} (l : list A) i j x d : i <> j -> nth j (update l i x) d = nth j l d.
Proof.
  revert i j. induction l as [|y l IH]; intros [|i] [|j] H; cbn [update nth]; auto; try lia.
Qed.
Lemma at_update a i x p : 0 <= i < Z.of_nat (length a) -> 0 <= p ->
  at_ (update a (Z.to_nat i) x) p = if p =? i then x else at_ a p.
Proof.
  intros Hi Hp. unfold at_. destruct (Z.eqb_spec p i) as [->|N].
  - apply nth_update_same. lia.
  - apply nth_update_other. lia.
Qed.
Lemma at_pattern r a p : is_grid r a -> 0 <= p < n_x r * n_y r * n_z r -> pattern 4 (at_ a p).
Proof.
  intros [L F] H. rewrite Forall_forall in F. apply F. apply nth_In. lia.
Qed.

Lemma in_range a b x : In x (range a b) <-> a <= x < b.
Proof.
  unfold range. rewrite in_map_iff. split.
  - intros (i & <- & I). apply in_seq in I. lia.
  - intros H. exists (Z.to_nat (x - a)). split; [lia|]. apply in_seq. lia.
Qed.
Lemma nodup_map {A B} (f : A -> B) l : (forall x y, f x = f y -> x = y) -> NoDup l -> NoDup (map f l).
Proof.
  intros I. induction 1 as [|x l N D IH]; cbn [map]; constructor; auto.
  rewrite in_map_iff. intros (y & E & Y). apply I in E. congruence.
Qed.
Lemma range_nodup a b : NoDup (range a b).
Proof. apply nodup_map; [intros; lia|apply seq_NoDup]. Qed.
Lemma in_range_by a b x : In x (range_by 8 a b) <-> exists i, 0 <= i /\ x = a + 8 * i /\ x < b.
Proof.
  unfold range_by. rewrite in_map_iff. split.
  - intros (i & <- & I). apply in_seq in I. exists (Z.of_nat i). split; [lia|split; [lia|]].
    assert (Z.of_nat i < (b - a + (8 - 1)) / 8) by lia. clear - H. lia.
  - intros (i & P & -> & H). exists (Z.to_nat i). split; [lia|]. apply in_seq.
    assert (i < (b - a + (8 - 1)) / 8) by lia. clear H. lia.
Qed.
Lemma range_by_nodup a b : NoDup (range_by 8 a b).
Proof. apply nodup_map; [intros; lia|apply seq_NoDup]. Qed.
Lemma range_step a b : a < b -> range a b = a :: range (a + 1) b.
Proof.
  intros H. unfold range. replace (Z.to_nat (b - a)) with (S (Z.to_nat (b - (a + 1)))) by lia.
  rewrite <- cons_seq. cbn [map]. f_equal; [lia|]. rewrite <- seq_shift, map_map. apply map_ext. intros i. lia.
Qed.
Lemma range_empty a b : b <= a -> range a b = [].
Proof. intros H. unfold range. replace (Z.to_nat (b - a)) with 0%nat by lia. reflexivity. Qed.

(** ** A loop over disjoint parts of an array *)
Definition upd (n : Z) (B : Z -> Prop) (R : Z -> Z -> Z -> Prop) (a a' : list Z) : Prop :=
  forall p, 0 <= p < n -> (B p -> R p (at_ a p) (at_ a' p)) /\ (~ B p -> at_ a' p = at_ a p).

Lemma upd_ext n (B B' : Z -> Prop) R a a' : (forall p, 0 <= p < n -> B p <-> B' p) -> upd n B R a a' -> upd n B' R a a'.
Proof. intros E U p Hp. specialize (U p Hp). specialize (E p Hp). tauto. Qed.

Lemma foreach_blocks {A S} (view : S -> list Z) (ok : S -> Prop) n (B : A -> Z -> Prop) R (body : A -> S -> outcome S) l :
  NoDup l ->
  (forall x y p, In x l -> In y l -> 0 <= p < n -> B x p -> B y p -> x = y) ->
  (forall x s, In x l -> ok s -> exists s', body x s = Ok s' /\ ok s' /\ upd n (B x) R (view s) (view s')) ->
  forall s, ok s -> exists s', foreach l s body = Ok s' /\ ok s' /\
    upd n (fun p => exists x, In x l /\ B x p) R (view s) (view s').
Proof.
  induction 1 as [|x l N D IH]; intros DJ ST s K.
  - exists s. split; [reflexivity|split; [exact K|]]. intros p Hp. split; [intros (x & [] & _)|reflexivity].
  - destruct (ST x s) as (s1 & E1 & K1 & U1); [now left|exact K|].
    destruct (IH) with (s := s1) as (s2 & E2 & K2 & U2); auto.
    { intros; eapply DJ; eauto; now right. }
    { intros; apply ST; auto. now right. }
    exists s2. cbn [foreach bind]. rewrite E1. cbn [bind]. split; [exact E2|split; [exact K2|]].
    intros p Hp. destruct (U1 p Hp) as [U1y U1n], (U2 p Hp) as [U2y U2n]. split.
    + intros (y & [<-|Y] & Bp).
      * rewrite U2n; [auto|]. intros (z & Zl & Bz). assert (x = z) by (eapply DJ; eauto; [now left|now right]). congruence.
      * rewrite <- U1n; [apply U2y; eauto|]. intros Bx. assert (x = y) by (eapply DJ; eauto; [now left|now right]). congruence.
    + intros NB. rewrite U2n, U1n; [reflexivity| |].
      * intros Bx. apply NB. exists x. split; [now left|exact Bx].
      * intros (y & Y & By). apply NB. exists y. split; [now right|exact By].
Qed.

(** ** The grid *)
Definition pos (r : bounds) (x y z : Z) : Z := (z * n_y r + y) * n_x r + x.
Definition cells (r : bounds) : Z := n_x r * n_y r * n_z r.

Lemma pos_inj r x y z x' y' z' : 0 <= x < n_x r -> 0 <= y < n_y r -> 0 <= x' < n_x r -> 0 <= y' < n_y r ->
  pos r x y z = pos r x' y' z' -> x = x' /\ y = y' /\ z = z'.
Proof.
  unfold pos. intros Hx Hy Hx' Hy' E.
  destruct (Z.div_mod_unique (n_x r) (z * n_y r + y) (z' * n_y r + y') x x') as [Q ->].
  { left. exact Hx. } { left. exact Hx'. } { rewrite !(Z.mul_comm (n_x r)). exact E. }
  destruct (Z.div_mod_unique (n_y r) z z' y y') as [-> ->].
  { left. exact Hy. } { left. exact Hy'. } { rewrite !(Z.mul_comm (n_y r)). exact Q. }
  auto.
Qed.
Lemma pos_range r x y z : in_grid r x y z -> 0 <= pos r x y z < cells r.
Proof.
  intros (Hx & Hy & Hz). unfold pos, cells.
  assert (0 <= z * n_y r + y) by nia. assert (z * n_y r + y <= n_z r * n_y r - 1) by nia. split; [nia|].
  assert ((z * n_y r + y) * n_x r <= (n_z r * n_y r - 1) * n_x r) by nia. nia.
Qed.

(** Cells with three planes below and above. *)
Definition inner (r : bounds) (p : Z) : Prop := 3 * n_xy r <= p < cells r - 3 * n_xy r.
Lemma box_inner r x y z : box_fits r -> in_box r x y z -> inner r (pos r x y z).
Proof.
  intros (Nx & Ny & X0 & X1 & Y0 & Y1 & Z0 & Z1) (Hx & Hy & Hz). unfold inner, pos, cells, n_xy.
  assert (3 * n_y r <= z * n_y r + y) by nia. assert (z * n_y r + y <= (n_z r - 3) * n_y r - 1) by nia. split; [nia|].
  assert ((z * n_y r + y) * n_x r <= ((n_z r - 3) * n_y r - 1) * n_x r) by nia. nia.
Qed.
Lemma inner_near r p i : box_fits r -> inner r p -> 1 <= i <= 3 ->
  0 <= p < cells r /\ 0 <= p + i < cells r /\ 0 <= p - i < cells r /\ 0 <= p + i * n_x r < cells r /\ 0 <= p - i * n_x r < cells r /\
  0 <= p + i * n_xy r < cells r /\ 0 <= p - i * n_xy r < cells r.
Proof.
  intros (Nx & Ny & _) [P1 P2] I. unfold n_xy in *.
  assert (n_x r <= n_x r * n_y r) by nia. assert (1 <= n_x r * n_y r) by nia.
  assert (n_x r <= i * n_x r <= 3 * n_x r) by nia.
  assert (n_x r * n_y r <= i * (n_x r * n_y r) <= 3 * (n_x r * n_y r)) by nia.
  generalize dependent (cells r). generalize dependent (i * (n_x r * n_y r)). generalize dependent (n_x r * n_y r).
  generalize dependent (i * n_x r). intros. lia.
Qed.

(** The scheme in terms of positions. *)
Definition dat (a : list Z) (p : Z) : datum := datum_of 4 (at_ a p).
Definition near_sum (r : bounds) (a : list Z) (p i : Z) (s : datum) : Prop :=
  exists s1 s2 s3 s4,
    ieee_add 4 (dat a (p + i)) (dat a (p - i)) s1 /\
    ieee_add 4 s1 (dat a (p + i * n_x r)) s2 /\
    ieee_add 4 s2 (dat a (p - i * n_x r)) s3 /\
    ieee_add 4 s3 (dat a (p + i * n_xy r)) s4 /\
    ieee_add 4 s4 (dat a (p - i * n_xy r)) s.
Definition scheme (mad : mul_adder) (r : bounds) (coef vsq cur : list Z) (p : Z) (prev next : datum) : Prop :=
  exists d0 s1 d1 s2 d2 s3 d3 e,
    ieee_mul 4 (coefficient coef 0) (dat cur p) d0 /\
    near_sum r cur p 1 s1 /\ mad (coefficient coef 1) s1 d0 d1 /\
    near_sum r cur p 2 s2 /\ mad (coefficient coef 2) s2 d1 d2 /\
    near_sum r cur p 3 s3 /\ mad (coefficient coef 3) s3 d2 d3 /\
    mad (dat cur p) datum_2 (negated prev) e /\ mad (dat vsq p) d3 e next.

Lemma dat_cell r a x y z p : p = pos r x y z -> dat a p = cell r a x y z.
Proof. intros ->. reflexivity. Qed.
Lemma near_around r a x y z i s : near_sum r a (pos r x y z) i s <-> around r a x y z i s.
Proof.
  unfold near_sum, around.
  rewrite (dat_cell r a (x + i) y z (pos r x y z + i)), (dat_cell r a (x - i) y z (pos r x y z - i)),
    (dat_cell r a x (y + i) z (pos r x y z + i * n_x r)), (dat_cell r a x (y - i) z (pos r x y z - i * n_x r)),
    (dat_cell r a x y (z + i) (pos r x y z + i * n_xy r)), (dat_cell r a x y (z - i) (pos r x y z - i * n_xy r))
    by (unfold pos, n_xy; ring). reflexivity.
Qed.
Lemma scheme_cell mad r coef vsq cur x y z prev next :
  scheme mad r coef vsq cur (pos r x y z) prev next -> wave_cell mad r coef vsq cur x y z prev next.
Proof.
  intros (d0 & s1 & d1 & s2 & d2 & s3 & d3 & e & H). exists d0, s1, d1, s2, d2, s3, d3, e.
  rewrite !near_around in H. exact H.
Qed.

Definition box_pos (r : bounds) (p : Z) : Prop := exists x y z, in_box r x y z /\ p = pos r x y z.
Lemma box_in_grid r x y z : box_fits r -> in_box r x y z -> in_grid r x y z.
Proof. unfold box_fits, in_box, in_grid. lia. Qed.

Definition step_rel mad r coef vsq cur : Z -> Z -> Z -> Prop :=
  fun p old new => scheme mad r coef vsq cur p (datum_of 4 old) (datum_of 4 new).

Lemma upd_wave mad r coef vsq cur prev next : box_fits r -> is_grid r next ->
  upd (cells r) (box_pos r) (step_rel mad r coef vsq cur) prev next ->
  wave_step mad r coef vsq cur prev next.
Proof.
  intros BF G U. split; [exact G|]. intros x y z I. destruct (U (pos r x y z) (pos_range r x y z I)) as [Uy Un]. split.
  - intros B. apply scheme_cell. apply Uy. exists x, y, z. auto.
  - intros NB. apply Un. intros (x' & y' & z' & B & E). pose proof (box_in_grid r x' y' z' BF B) as I'.
    destruct I as (Ix & Iy & _), I' as (Ix' & Iy' & _).
    destruct (pos_inj r x y z x' y' z' Ix Iy Ix' Iy' E) as (-> & -> & ->). contradiction.
Qed.

(** ** Arithmetic *)
Lemma fsz4 : fsize 4. Proof. now left. Qed.
Lemma add_comm_ieee x y r : ieee_add 4 x y r -> ieee_add 4 y x r.
Proof.
  destruct x as [|s|s u], y as [|s'|s' v]; cbn [ieee_add]; auto.
  - destruct s, s'; auto.
  - rewrite Rplus_comm, andb_comm. auto.
Qed.
Lemma mul_comm_ieee x y r : ieee_mul 4 x y r -> ieee_mul 4 y x r.
Proof.
  destruct x as [|s|s u], y as [|s'|s' v]; cbn [ieee_mul]; auto.
  - now rewrite xorb_comm.
  - rewrite Rmult_comm, xorb_comm. auto.
Qed.
Lemma two_pattern : pattern 4 two.
Proof. apply of_int_datum. exact fsz4. Qed.
Lemma two_datum : datum_of 4 two = datum_2.
Proof. unfold two. rewrite (of_small_int 4 fsz4); [reflexivity|reflexivity]. Qed.

Lemma add4 p q : pattern 4 p -> pattern 4 q ->
  pattern 4 (fl_add 4 p q) /\ ieee_add 4 (datum_of 4 p) (datum_of 4 q) (datum_of 4 (fl_add 4 p q)).
Proof. exact (add_pattern 4 fsz4 p q). Qed.
Lemma sub4 p q : pattern 4 p -> pattern 4 q ->
  pattern 4 (fl_sub 4 p q) /\ ieee_sub 4 (datum_of 4 p) (datum_of 4 q) (datum_of 4 (fl_sub 4 p q)).
Proof. exact (sub_pattern 4 fsz4 p q). Qed.
Lemma mul4 p q : pattern 4 p -> pattern 4 q ->
  pattern 4 (fl_mul 4 p q) /\ ieee_mul 4 (datum_of 4 p) (datum_of 4 q) (datum_of 4 (fl_mul 4 p q)).
Proof. exact (mul_pattern 4 fsz4 p q). Qed.

(** ** Scalar version *)
Section Scalar.
Variables (r : bounds) (coef vsq cur : list Z).
Hypothesis BF : box_fits r.
Hypothesis Co : length coef = 4%nat /\ Forall (fun p => 0 <= p < 2 ^ 32) coef.
Hypothesis Gv : is_grid r vsq.
Hypothesis Gc : is_grid r cur.

Lemma coef_pattern i : (i < 4)%nat -> pattern 4 (coef_at coef i).
Proof. intros H. destruct Co as [L F]. rewrite Forall_forall in F. apply F. apply nth_In. now rewrite L. Qed.

Lemma get_cell a p : is_grid r a -> 0 <= p < cells r -> get a p = Ok (at_ a p).
Proof. intros [L _] H. apply get_ok. unfold cells in H. rewrite L. exact H. Qed.

Lemma scalar_around_ok p i : inner r p -> 1 <= i <= 3 ->
  exists s, scalar_around r cur p i = Ok s /\ pattern 4 s /\ near_sum r cur p i (datum_of 4 s).
Proof.
  intros I Hi. destruct (inner_near r p i BF I Hi) as (_ & H1 & H2 & H3 & H4 & H5 & H6).
  unfold scalar_around. cbv zeta.
  replace (p + i + 0 * n_x r + 0 * n_xy r) with (p + i) by ring.
  replace (p + - i + 0 * n_x r + 0 * n_xy r) with (p - i) by ring.
  replace (p + 0 + i * n_x r + 0 * n_xy r) with (p + i * n_x r) by ring.
  replace (p + 0 + - i * n_x r + 0 * n_xy r) with (p - i * n_x r) by ring.
  replace (p + 0 + 0 * n_x r + i * n_xy r) with (p + i * n_xy r) by ring.
  replace (p + 0 + 0 * n_x r + - i * n_xy r) with (p - i * n_xy r) by ring.
  rewrite !(get_cell cur) by assumption. cbn [bind].
  pose proof (at_pattern r cur _ Gc H1) as P1. pose proof (at_pattern r cur _ Gc H2) as P2.
  pose proof (at_pattern r cur _ Gc H3) as P3. pose proof (at_pattern r cur _ Gc H4) as P4.
  pose proof (at_pattern r cur _ Gc H5) as P5. pose proof (at_pattern r cur _ Gc H6) as P6.
  eexists. split; [reflexivity|].
  destruct (add4 _ _ P1 P2) as [Q1 A1]. destruct (add4 _ _ Q1 P3) as [Q2 A2]. destruct (add4 _ _ Q2 P4) as [Q3 A3].
  destruct (add4 _ _ Q3 P5) as [Q4 A4]. destruct (add4 _ _ Q4 P6) as [Q5 A5].
  split; [exact Q5|]. do 4 eexists. split; [exact A1|split; [exact A2|split; [exact A3|split; [exact A4|exact A5]]]].
Qed.

Lemma scalar_cell_ok x y z a : in_box r x y z -> is_grid r a ->
  exists a', scalar_cell r coef vsq cur z y x a = Ok a' /\ is_grid r a' /\
    upd (cells r) (fun p => p = pos r x y z) (step_rel rounded_twice r coef vsq cur) a a'.
Proof.
  intros B G. unfold scalar_cell.
  replace (z * n_xy r + y * n_x r + x) with (pos r x y z) by (unfold pos, n_xy; ring).
  pose proof (box_inner r x y z BF B) as I. set (p := pos r x y z) in *.
  destruct (inner_near r p 1 BF I) as (H0 & _); [lia|].
  rewrite !get_cell by assumption. cbn [bind foreach].
  destruct (scalar_around_ok p 1 I) as (s1 & E1 & P1 & N1); [lia|].
  destruct (scalar_around_ok p 2 I) as (s2 & E2 & P2 & N2); [lia|].
  destruct (scalar_around_ok p 3 I) as (s3 & E3 & P3 & N3); [lia|].
  change (Z.of_nat 1) with 1. change (Z.of_nat 2) with 2. change (Z.of_nat 3) with 3.
  rewrite E1. cbn [bind]. rewrite E2. cbn [bind]. rewrite E3. cbn [bind].
  rewrite set_ok by (rewrite (proj1 G); exact H0).
  eexists. split; [reflexivity|].
  pose proof (coef_pattern 0 ltac:(lia)) as C0. pose proof (coef_pattern 1 ltac:(lia)) as C1.
  pose proof (coef_pattern 2 ltac:(lia)) as C2. pose proof (coef_pattern 3 ltac:(lia)) as C3.
  pose proof (at_pattern r cur p Gc H0) as Pc. pose proof (at_pattern r vsq p Gv H0) as Pv. pose proof (at_pattern r a p G H0) as Pa.
  destruct (mul4 _ _ C0 Pc) as [Q0 M0].
  destruct (mul4 _ _ C1 P1) as [Q1 M1]. destruct (add4 _ _ Q0 Q1) as [R1 A1].
  destruct (mul4 _ _ C2 P2) as [Q2 M2]. destruct (add4 _ _ R1 Q2) as [R2 A2].
  destruct (mul4 _ _ C3 P3) as [Q3 M3]. destruct (add4 _ _ R2 Q3) as [R3 A3].
  destruct (mul4 _ _ two_pattern Pc) as [Q4 M4]. destruct (sub4 _ _ Q4 Pa) as [R4 A4].
  destruct (mul4 _ _ Pv R3) as [Q5 M5]. destruct (add4 _ _ R4 Q5) as [R5 A5].
  split.
  - split; [rewrite update_length; exact (proj1 G)|]. apply Forall_update; [exact (proj2 G)|exact R5].
  - intros q Hq. pose proof (proj1 G : _ = cells r) as LG. rewrite at_update by (rewrite ?LG; lia). split.
    + intros ->. rewrite Z.eqb_refl. rewrite two_datum in M4. do 8 eexists.
      split; [exact M0|]. split; [exact N1|].
      split; [eexists; split; [exact M1|apply add_comm_ieee; exact A1]|].
      split; [exact N2|]. split; [eexists; split; [exact M2|apply add_comm_ieee; exact A2]|].
      split; [exact N3|]. split; [eexists; split; [exact M3|apply add_comm_ieee; exact A3]|].
      split; [eexists; split; [apply mul_comm_ieee; exact M4|exact A4]|].
      eexists. split; [exact M5|]. apply add_comm_ieee. exact A5.
    + intros N. destruct (Z.eqb_spec q p); [contradiction|reflexivity].
Qed.

Lemma scalar_step_ok a : is_grid r a ->
  exists a', scalar_step r coef vsq cur a = Ok a' /\ wave_step rounded_twice r coef vsq cur a a'.
Proof.
  intros G. unfold scalar_step.
  pose proof (fun x y z => box_in_grid r x y z BF) as BG.
  destruct (foreach_blocks (fun a => a) (is_grid r) (cells r)
    (fun z p => exists y x, in_box r x y z /\ p = pos r x y z) (step_rel rounded_twice r coef vsq cur)
    (fun z a => foreach (range (y0 r) (y1 r)) a (fun y a_out => foreach (range (x0 r) (x1 r)) a_out (fun x a_out =>
        scalar_cell r coef vsq cur z y x a_out))) (range (z0 r) (z1 r))) with (s := a) as (a' & E & G' & U); auto.
  { apply range_nodup. }
  { intros z z' p _ _ _ (y & x & B & E) (y' & x' & B' & E').
    destruct (BG _ _ _ B) as (? & ? & _), (BG _ _ _ B') as (? & ? & _).
    rewrite E in E'. now apply pos_inj in E'. }
  { intros z b Iz Gb. apply in_range in Iz.
    destruct (foreach_blocks (fun a => a) (is_grid r) (cells r)
      (fun y p => exists x, in_box r x y z /\ p = pos r x y z) (step_rel rounded_twice r coef vsq cur)
      (fun y a_out => foreach (range (x0 r) (x1 r)) a_out (fun x a_out =>
        scalar_cell r coef vsq cur z y x a_out)) (range (y0 r) (y1 r))) with (s := b) as (b' & Eb & Gb' & Ub); auto.
    { apply range_nodup. }
    { intros y y' p _ _ _ (x & B & E) (x' & B' & E').
      destruct (BG _ _ _ B) as (? & ? & _), (BG _ _ _ B') as (? & ? & _).
      rewrite E in E'. now apply pos_inj in E'. }
    { intros y c Iy Gc0. apply in_range in Iy.
      destruct (foreach_blocks (fun a => a) (is_grid r) (cells r)
        (fun x p => p = pos r x y z) (step_rel rounded_twice r coef vsq cur)
        (fun x a_out => scalar_cell r coef vsq cur z y x a_out) (range (x0 r) (x1 r))) with (s := c) as (c' & Ec & Gc' & Uc); auto.
      { apply range_nodup. }
      { intros x x' p I I' _ -> E. unfold pos in E. lia. }
      { intros x d Ix Gd. apply in_range in Ix. apply scalar_cell_ok; auto. repeat split; lia. }
      exists c'. split; [exact Ec|split; [exact Gc'|]]. revert Uc. apply upd_ext. intros p _. split.
      - intros (x & Ix & ->). apply in_range in Ix. exists x. split; [|reflexivity]. repeat split; lia.
      - intros (x & (Ix & _) & ->). exists x. split; [now apply in_range|reflexivity]. }
    exists b'. split; [exact Eb|split; [exact Gb'|]]. revert Ub. apply upd_ext. intros p _. split.
    - intros (y & _ & x & B & ->). exists y, x. auto.
    - intros (y & x & B & ->). exists y. split; [apply in_range; apply B|exists x; auto]. }
  exists a'. split; [exact E|]. apply upd_wave; auto. revert U. apply upd_ext. intros p _. split.
  - intros (z & _ & y & x & B & ->). exists x, y, z. auto.
  - intros (x & y & z & B & ->). exists z. split; [apply in_range; apply B|exists y, x; auto].
Qed.
End Scalar.

(** ** The time loop *)
Lemma time_loop_ok mad r coef vsq step : 
  (forall t cur prev, is_grid r cur -> is_grid r prev ->
     exists next, step t cur prev = Ok next /\ wave_step mad r coef vsq cur prev next) ->
  forall n t0 t1 a, Z.to_nat (t1 - t0) = n -> is_grid r (fst a) -> is_grid r (snd a) ->
  exists a', time_loop step t0 t1 a = Ok a' /\ wave mad r coef vsq t0 t1 a a' /\ is_grid r (fst a') /\ is_grid r (snd a').
Proof.
  intros ST. induction n as [|n IH]; intros t0 t1 a En Ge Go.
  - exists a. unfold time_loop. rewrite range_empty by lia. split; [reflexivity|split; [|auto]].
    exists (fun t => at_time t a). repeat split; intros; lia.
  - unfold time_loop. rewrite range_step by lia. cbn [foreach].
    assert (exists a1, (if Z.even t0 then o <- step t0 (fst a) (snd a) ;; Ok (fst a, o)
       else e <- step t0 (snd a) (fst a) ;; Ok (e, snd a)) = Ok a1 /\ is_grid r (fst a1) /\ is_grid r (snd a1) /\
       at_time t0 a1 = at_time t0 a /\
       wave_step mad r coef vsq (at_time t0 a) (at_time (t0 - 1) a) (at_time (t0 + 1) a1)) as (a1 & E1 & Ge1 & Go1 & K & W).
    { unfold at_time. rewrite Z.even_sub, Z.even_add. change (Z.even 1) with false.
      destruct (Z.even t0) eqn:Ev; cbn [Bool.eqb].
      - destruct (ST t0 (fst a) (snd a)) as (o & Eo & Wo); auto. rewrite Eo. cbn [bind]. exists (fst a, o). cbn [fst snd].
        split; [reflexivity|]. split; [exact Ge|split; [exact (proj1 Wo)|auto]].
      - destruct (ST t0 (snd a) (fst a)) as (o & Eo & Wo); auto. rewrite Eo. cbn [bind]. exists (o, snd a). cbn [fst snd].
        split; [reflexivity|]. split; [exact (proj1 Wo)|split; [exact Go|auto]]. }
    rewrite E1. cbn [bind].
    destruct (IH (t0 + 1) t1 a1) as (a' & E' & (u & U0 & U1 & U2 & U3 & U4) & G'); auto; [lia|].
    unfold wave. cbv zeta. rewrite !Z.max_r in * by lia.
    exists a'. split; [exact E'|split; [|exact G']].
    replace (t0 + 1 - 1) with t0 in U1 by ring.
    exists (fun t => if t =? t0 - 1 then at_time (t0 - 1) a else u t).
    rewrite Z.eqb_refl.
    destruct (Z.eqb_spec t0 (t0 - 1)); [lia|]. destruct (Z.eqb_spec t1 (t0 - 1)); [lia|]. destruct (Z.eqb_spec (t1 - 1) (t0 - 1)); [lia|].
    split; [congruence|split; [reflexivity|split; [|auto]]].
    intros t Ht. destruct (Z.eqb_spec t (t0 - 1)); [lia|]. destruct (Z.eqb_spec (t + 1) (t0 - 1)); [lia|].
    destruct (Z.eqb_spec (t - 1) (t0 - 1)).
    + assert (t = t0) as -> by lia. rewrite U0, U1, K. exact W.
    + apply U2. lia.
Qed.
