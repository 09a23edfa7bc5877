(** Proofs for the vector versions of the stencil example. *)
From Coq Require Import ZArith List Bool Lia Reals Lra Permutation.
From Verif.Model Require Import Base FloatLane Tables MathTables Math Minimal Ops ExStencil.
From Verif.Spec Require Import Spec Floats MathSpec Stencil.
From Verif.Proofs Require Import Lib BytesP FloatP FloatOpsP FloatVecP FloatApiP MathApiP ExMandelbrotP ExStencilP.
Import ListNotations.
Open Scope Z_scope.

(** ** Vectors of eight f32 *)
Definition D (v : vec) (j : nat) : datum := datum_of 4 (nth j v 0).
Lemma f8_float : float_type f32x8.
Proof. split; [reflexivity|split; [now left|]]. vm_compute. repeat split; lia. Qed.
Lemma lane8 v j : is_vector f32x8 v -> (j < 8)%nat -> lane v j (nth j v 0).
Proof. intros [L _] H. apply nth_error_nth'. rewrite L. exact H. Qed.
Lemma lane_nth v j p : lane v j p -> nth j v 0 = p.
Proof. intros H. now apply nth_error_nth. Qed.

Lemma vadd x y : is_vector f32x8 x -> is_vector f32x8 y ->
  is_vector f32x8 (add f32x8 x y) /\ forall j, (j < 8)%nat -> ieee_add 4 (D x j) (D y j) (D (add f32x8 x y) j).
Proof.
  intros X Y. destruct (float_arithmetic f32x8 x y f8_float X Y) as ((V & L) & _). split; [exact V|].
  intros j J. destruct (L j _ _ (lane8 x j X J) (lane8 y j Y J)) as (c & C & H). unfold D at 3. rewrite (lane_nth _ _ _ C). exact H.
Qed.
Lemma vmul_sv s x : pattern 4 s -> is_vector f32x8 x ->
  is_vector f32x8 (mul_sv f32x8 s x) /\ forall j, (j < 8)%nat -> ieee_mul 4 (datum_of 4 s) (D x j) (D (mul_sv f32x8 s x) j).
Proof.
  intros S X. destruct (float_scalar_arithmetic f32x8 x s f8_float X S) as (_ & _ & _ & _ & _ & (V & L) & _). split; [exact V|].
  intros j J. destruct (L j _ (lane8 x j X J)) as (c & C & H). unfold D at 2. rewrite (lane_nth _ _ _ C). exact H.
Qed.
Lemma vneg x : is_vector f32x8 x ->
  is_vector f32x8 (neg f32x8 x) /\ forall j, (j < 8)%nat -> D (neg f32x8 x) j = negated (D x j).
Proof.
  intros X. destruct (float_negation f32x8 x f8_float X) as (V & L). split; [exact V|].
  intros j J. destruct (L j _ (lane8 x j X J)) as (c & C & H). unfold D at 1. rewrite (lane_nth _ _ _ C). exact H.
Qed.
Lemma vsplat s : pattern 4 s ->
  is_vector f32x8 (splat f32x8 s) /\ forall j, (j < 8)%nat -> D (splat f32x8 s) j = datum_of 4 s.
Proof.
  intros S. split.
  - split; [apply repeat_length|]. apply Forall_forall. intros p H. apply repeat_spec in H as ->. exact S.
  - intros j J. unfold D, splat. change (vn f32x8) with 8%nat. f_equal.
    do 8 (destruct j as [|j]; [reflexivity|]). lia.
Qed.

(** mul_adde of f32x8 computes every lane with [mad]. *)
Definition adds (X : externals) (tg : target) (mad : mul_adder) : Prop :=
  forall x y z, is_vector f32x8 x -> is_vector f32x8 y -> is_vector f32x8 z ->
    exists r, mul_adde X tg f32x8 x y z = Some r /\ is_vector f32x8 r /\
      forall j, (j < 8)%nat -> mad (D x j) (D y j) (D z j) (D r j).

Definition patterns (a : list Z) : Prop := Forall (fun p => 0 <= p < 2 ^ 32) a.

Lemma nth_firstn_lt {A} (l : list A) d : forall n j, (j < n)%nat -> nth j (firstn n l) d = nth j l d.
Proof.
  induction l as [|x l IH]; intros [|n] [|j] H; cbn [firstn nth]; try lia; auto. apply IH. lia.
Qed.
Lemma nth_skipn {A} (l : list A) d : forall n j, nth j (skipn n l) d = nth (n + j) l d.
Proof.
  induction l as [|x l IH]; intros [|n] j; cbn [skipn Nat.add]; auto; [destruct j; reflexivity|]. rewrite IH. reflexivity.
Qed.

Lemma eight_true a k : 0 <= k -> k + 8 <= Z.of_nat (length a) -> ExStencil.eight a k = true.
Proof.
  intros H1 H2. unfold ExStencil.eight. destruct (Z.leb_spec 0 k), (Z.leb_spec (k + 8) (Z.of_nat (length a))); try lia; reflexivity.
Qed.
Lemma read8_ok a k : patterns a -> 0 <= k -> k + 8 <= Z.of_nat (length a) ->
  exists v, read8 a k = Ok v /\ is_vector f32x8 v /\ forall j, (j < 8)%nat -> D v j = dat a (k + Z.of_nat j).
Proof.
  intros P H1 H2. unfold read8. rewrite eight_true by assumption. eexists. split; [reflexivity|]. split; [split|].
  - rewrite firstn_length, skipn_length. change (vn f32x8) with 8%nat. lia.
  - apply Forall_firstn', Forall_skipn'. exact P.
  - intros j J. unfold D, dat, at_. f_equal. rewrite nth_firstn_lt, nth_skipn by assumption. f_equal. lia.
Qed.
Lemma write8_ok a k v : patterns a -> is_vector f32x8 v -> 0 <= k -> k + 8 <= Z.of_nat (length a) ->
  exists a', write8 a k v = Ok a' /\ length a' = length a /\ patterns a' /\
    forall p, 0 <= p -> at_ a' p = if (k <=? p) && (p <? k + 8) then nth (Z.to_nat (p - k)) v 0 else at_ a p.
Proof.
  intros P [L V] H1 H2. change (vn f32x8) with 8%nat in L. unfold write8. rewrite eight_true by assumption. eexists. split; [reflexivity|].
  split; [rewrite !app_length, firstn_length, skipn_length, L; lia|]. split.
  - apply Forall_app. split; [apply Forall_firstn'; exact P|]. apply Forall_app. split; [exact V|apply Forall_skipn'; exact P].
  - intros p Hp. unfold at_.
    assert (length (firstn (Z.to_nat k) a) = Z.to_nat k) as LF by (rewrite firstn_length; lia).
    destruct (Z.leb_spec k p) as [G|G]; cbn [andb].
    + rewrite app_nth2 by lia. rewrite LF. destruct (Z.ltb_spec p (k + 8)).
      * rewrite app_nth1 by lia. f_equal. lia.
      * rewrite app_nth2 by lia. rewrite L, nth_skipn. f_equal. lia.
    + rewrite app_nth1 by lia. rewrite nth_firstn_lt by lia. reflexivity.
Qed.

(** ** Cutting the array into planes *)
Lemma chunks_spec k : (0 < k)%nat -> forall m fuel a, length a = (m * k)%nat -> (length a <= fuel)%nat ->
  length (chunks fuel k a) = m /\ Forall (fun c => length c = k) (chunks fuel k a) /\ concat (chunks fuel k a) = a.
Proof.
  intros K. induction m as [|m IH]; intros fuel a L F.
  - destruct a; [|discriminate]. destruct fuel; cbn [chunks length concat]; auto.
  - destruct a as [|x a]; [cbn [length Nat.mul] in L; lia|]. destruct fuel as [|fuel]; [cbn [length] in F; lia|].
    cbn [chunks]. set (b := x :: a) in *.
    assert (length (skipn k b) = (m * k)%nat) as LS by (rewrite skipn_length; cbn [Nat.mul] in L; lia).
    destruct (IH fuel (skipn k b) LS) as (E1 & E2 & E3).
    { rewrite skipn_length. cbn [Nat.mul] in L. lia. }
    cbn [length concat]. split; [now rewrite E1|]. split.
    + constructor; [|exact E2]. rewrite firstn_length. cbn [Nat.mul] in L. lia.
    + rewrite E3. apply firstn_skipn.
Qed.

Lemma nth_concat k : (0 < k)%nat -> forall cs i, Forall (fun c => length c = k) cs ->
  nth i (concat cs) 0 = nth (i mod k) (nth (i / k) cs []) 0.
Proof.
  intros K. induction cs as [|c cs IH]; intros i F; cbn [concat].
  - replace (nth (i / k) [] []) with (@nil Z) by (destruct (i / k)%nat; reflexivity). destruct i as [|i]; [destruct (0 mod k)%nat|destruct (S i mod k)%nat]; reflexivity.
  - apply Forall_cons_iff in F as [L F]. destruct (Nat.lt_ge_cases i k) as [H|H].
    + rewrite app_nth1 by lia. rewrite Nat.div_small, Nat.mod_small by lia. reflexivity.
    + rewrite app_nth2 by lia. rewrite L, IH by exact F.
      replace i with (i - k + 1 * k)%nat at 3 4 by lia. rewrite Nat.mod_add, Nat.div_add by lia.
      replace ((i - k) / k + 1)%nat with (S ((i - k) / k)) by lia. reflexivity.
Qed.

Lemma at_concat k cs p : 0 < k -> 0 <= p -> Forall (fun c => Z.of_nat (length c) = k) cs ->
  at_ (concat cs) p = at_ (nth (Z.to_nat (p / k)) cs []) (p mod k).
Proof.
  intros K P F. unfold at_. rewrite (nth_concat (Z.to_nat k)); [|lia|].
  - rewrite Z2Nat.inj_div, Z2Nat.inj_mod by lia. reflexivity.
  - revert F. apply Forall_impl. intros c. lia.
Qed.

Lemma skipn_seq n : forall a len, skipn n (seq a len) = seq (a + n) (len - n).
Proof.
  induction n as [|n IH]; intros a [|len]; cbn [skipn seq]; rewrite ?Nat.add_0_r, ?Nat.sub_0_r; auto.
  rewrite IH. f_equal; lia.
Qed.
Lemma firstn_seq n : forall a len, (n <= len)%nat -> firstn n (seq a len) = seq a n.
Proof.
  induction n as [|n IH]; intros a [|len] H; cbn [firstn seq]; auto; [lia|]. f_equal. apply IH. lia.
Qed.
Lemma planes_ok r : box_fits r -> z0 r <= z1 r ->
  planes r (Z.to_nat (n_z r)) = seq (Z.to_nat (z0 r)) (Z.to_nat (z1 r - z0 r)).
Proof.
  intros (_ & _ & _ & _ & _ & _ & Z0 & Z1) H. unfold planes, as_size.
  destruct (Z.ltb_spec (z1 r - z0 r) 0); [lia|]. destruct (Z.ltb_spec (z0 r) 0); [lia|].
  rewrite !Nat.min_r by lia. rewrite skipn_seq, firstn_seq by lia. reflexivity.
Qed.

Section Simd.
Variables (X : externals) (tg : target) (mad : mul_adder) (r : bounds) (coef vsq cur : list Z).
Hypothesis HM : adds X tg mad.
Hypothesis BF : box_fits r.
Hypothesis Co : length coef = 4%nat /\ Forall (fun p => 0 <= p < 2 ^ 32) coef.
Hypothesis Gv : is_grid r vsq.
Hypothesis Gc : is_grid r cur.

Lemma read_cells a p : is_grid r a -> 0 <= p -> p + 7 < cells r ->
  exists v, read8 a p = Ok v /\ is_vector f32x8 v /\ forall j, (j < 8)%nat -> D v j = dat a (p + Z.of_nat j).
Proof. intros [L P] H1 H2. apply read8_ok; [exact P|exact H1|]. unfold cells in H2. rewrite L. lia. Qed.

Lemma simd_around_ok p i : inner r p -> inner r (p + 7) -> 1 <= i <= 3 ->
  exists s, simd_around r cur p i = Ok s /\ is_vector f32x8 s /\
    forall j, (j < 8)%nat -> near_sum r cur (p + Z.of_nat j) i (D s j).
Proof.
  intros I I7 Hi. destruct (inner_near r p i BF I Hi) as (_ & H1 & H2 & H3 & H4 & H5 & H6).
  destruct (inner_near r (p + 7) i BF I7 Hi) as (_ & K1 & K2 & K3 & K4 & K5 & K6).
  unfold simd_around. cbv zeta.
  replace (p + i + 0 * n_x r + 0 * n_xy r) with (p + i) by ring.
  replace (p + - i + 0 * n_x r + 0 * n_xy r) with (p - i) by ring.
  replace (p + 0 + i * n_x r + 0 * n_xy r) with (p + i * n_x r) by ring.
  replace (p + 0 + - i * n_x r + 0 * n_xy r) with (p - i * n_x r) by ring.
  replace (p + 0 + 0 * n_x r + i * n_xy r) with (p + i * n_xy r) by ring.
  replace (p + 0 + 0 * n_x r + - i * n_xy r) with (p - i * n_xy r) by ring.
  destruct (read_cells cur (p + i) Gc) as (v1 & -> & V1 & L1); [lia|lia|].
  destruct (read_cells cur (p - i) Gc) as (v2 & -> & V2 & L2); [lia|lia|].
  destruct (read_cells cur (p + i * n_x r) Gc) as (v3 & -> & V3 & L3); [lia|lia|].
  destruct (read_cells cur (p - i * n_x r) Gc) as (v4 & -> & V4 & L4); [lia|lia|].
  destruct (read_cells cur (p + i * n_xy r) Gc) as (v5 & -> & V5 & L5); [lia|lia|].
  destruct (read_cells cur (p - i * n_xy r) Gc) as (v6 & -> & V6 & L6); [lia|lia|].
  cbn [bind]. eexists. split; [reflexivity|].
  destruct (vadd _ _ V1 V2) as [W1 A1]. destruct (vadd _ _ W1 V3) as [W2 A2]. destruct (vadd _ _ W2 V4) as [W3 A3].
  destruct (vadd _ _ W3 V5) as [W4 A4]. destruct (vadd _ _ W4 V6) as [W5 A5].
  split; [exact W5|]. intros j J.
  specialize (A1 j J). specialize (A2 j J). specialize (A3 j J). specialize (A4 j J). specialize (A5 j J).
  rewrite L1, L2 in A1 by exact J. rewrite L3 in A2 by exact J. rewrite L4 in A3 by exact J.
  rewrite L5 in A4 by exact J. rewrite L6 in A5 by exact J.
  unfold near_sum.
  replace (p + Z.of_nat j + i) with (p + i + Z.of_nat j) by ring.
  replace (p + Z.of_nat j - i) with (p - i + Z.of_nat j) by ring.
  replace (p + Z.of_nat j + i * n_x r) with (p + i * n_x r + Z.of_nat j) by ring.
  replace (p + Z.of_nat j - i * n_x r) with (p - i * n_x r + Z.of_nat j) by ring.
  replace (p + Z.of_nat j + i * n_xy r) with (p + i * n_xy r + Z.of_nat j) by ring.
  replace (p + Z.of_nat j - i * n_xy r) with (p - i * n_xy r + Z.of_nat j) by ring.
  do 4 eexists. split; [exact A1|split; [exact A2|split; [exact A3|split; [exact A4|exact A5]]]].
Qed.

(** A plane of the output. *)
Definition is_plane (c : list Z) : Prop := Z.of_nat (length c) = n_xy r /\ patterns c.
Definition plane_rel (z : Z) : Z -> Z -> Z -> Prop :=
  fun q old new => scheme mad r coef vsq cur (z * n_xy r + q) (datum_of 4 old) (datum_of 4 new).

Lemma simd_cells_ok x y z c : in_box r x y z -> in_box r (x + 7) y z -> is_plane c ->
  exists c', simd_cells X tg r coef vsq cur z y x c = Ok c' /\ is_plane c' /\
    upd (n_xy r) (fun q => x + y * n_x r <= q < x + y * n_x r + 8) (plane_rel z) c c'.
Proof.
  intros B B7 [Lc Pc]. unfold simd_cells. cbv zeta. set (q := x + y * n_x r).
  replace (z * n_xy r + q) with (pos r x y z) by (unfold q, pos, n_xy; ring).
  pose proof (box_inner r x y z BF B) as I. pose proof (box_inner r _ y z BF B7) as I7.
  assert (pos r (x + 7) y z = pos r x y z + 7) as E7 by (unfold pos; ring). rewrite E7 in I7.
  assert (0 <= q /\ q + 8 <= n_xy r) as [Q0 Q8].
  { destruct (box_in_grid r _ _ _ BF B) as (Gx & Gy & _), (box_in_grid r _ _ _ BF B7) as (Gx7 & _).
    unfold q, n_xy. split; nia. }
  assert (pos r x y z = z * n_xy r + q) as Epos by (unfold q, pos, n_xy; ring).
  set (p := pos r x y z) in *. clearbody p.
  destruct (inner_near r p 1 BF I) as (H0 & _); [lia|].
  destruct (inner_near r (p + 7) 1 BF I7) as (H7 & _); [lia|].
  destruct (read_cells cur p Gc) as (cu & -> & Vcu & Lcu); [lia|lia|]. cbn [bind foreach].
  destruct (simd_around_ok p 1 I I7) as (s1 & E1 & V1 & N1); [lia|].
  destruct (simd_around_ok p 2 I I7) as (s2 & E2 & V2 & N2); [lia|].
  destruct (simd_around_ok p 3 I I7) as (s3 & E3 & V3 & N3); [lia|].
  change (Z.of_nat 1) with 1. change (Z.of_nat 2) with 2. change (Z.of_nat 3) with 3.
  destruct (vmul_sv (coef_at coef 0) cu (coef_pattern coef Co 0 ltac:(lia)) Vcu) as [Vd0 M0].
  destruct (vsplat _ (coef_pattern coef Co 1 ltac:(lia))) as [Vc1 Lc1].
  destruct (vsplat _ (coef_pattern coef Co 2 ltac:(lia))) as [Vc2 Lc2].
  destruct (vsplat _ (coef_pattern coef Co 3 ltac:(lia))) as [Vc3 Lc3].
  destruct (vsplat _ two_pattern) as [V2' L2'].
  rewrite E1. cbn [bind]. destruct (HM _ _ _ Vc1 V1 Vd0) as (d1 & Ed1 & Vd1 & A1). rewrite Ed1. cbn [bind method].
  rewrite E2. cbn [bind]. destruct (HM _ _ _ Vc2 V2 Vd1) as (d2 & Ed2 & Vd2 & A2). rewrite Ed2. cbn [bind method].
  rewrite E3. cbn [bind]. destruct (HM _ _ _ Vc3 V3 Vd2) as (d3 & Ed3 & Vd3 & A3). rewrite Ed3. cbn [bind method].
  destruct (read_cells vsq p Gv) as (vs & -> & Vvs & Lvs); [lia|lia|]. cbn [bind].
  destruct (read8_ok c q Pc Q0) as (ol & -> & Vol & Lol); [lia|]. cbn [bind].
  destruct (vneg ol Vol) as [Vng Lng].
  destruct (HM _ _ _ Vcu V2' Vng) as (e & Ee & Ve & A4). rewrite Ee. cbn [bind method].
  destruct (HM _ _ _ Vvs Vd3 Ve) as (f & Ef & Vf & A5). rewrite Ef. cbn [bind method].
  destruct (write8_ok c q f Pc Vf Q0) as (c' & -> & Lc' & Pc' & At); [lia|].
  exists c'. split; [reflexivity|]. split; [split; [rewrite Lc'; exact Lc|exact Pc']|].
  intros k Hk. rewrite (At k) by lia. split.
  - intros [K1 K2]. destruct (Z.leb_spec q k); [|lia]. destruct (Z.ltb_spec k (q + 8)); [|lia]. cbn [andb].
    set (j := Z.to_nat (k - q)). assert (j < 8)%nat as J by (unfold j; lia).
    assert (z * n_xy r + k = p + Z.of_nat j) as Ek by (unfold j; lia).
    unfold plane_rel, scheme. rewrite Ek.
    assert (datum_of 4 (at_ c k) = D ol j) as Eo.
    { rewrite Lol by exact J. unfold dat. do 2 f_equal. unfold j. lia. }
    rewrite Eo, <- (Lng j J), <- (Lcu j J), <- (Lvs j J), <- two_datum, <- (L2' j J).
    exists (D (mul_sv f32x8 (coef_at coef 0) cu) j), (D s1 j), (D d1 j), (D s2 j), (D d2 j), (D s3 j), (D d3 j), (D e j).
    unfold coefficient. change (nth 0 coef 0) with (coef_at coef 0). change (nth 1 coef 0) with (coef_at coef 1).
    change (nth 2 coef 0) with (coef_at coef 2). change (nth 3 coef 0) with (coef_at coef 3).
    rewrite <- (Lc1 j J), <- (Lc2 j J), <- (Lc3 j J).
    split; [exact (M0 j J)|]. split; [exact (N1 j J)|]. split; [exact (A1 j J)|].
    split; [exact (N2 j J)|]. split; [exact (A2 j J)|]. split; [exact (N3 j J)|]. split; [exact (A3 j J)|].
    split; [exact (A4 j J)|]. exact (A5 j J).
  - intros NB. destruct (Z.leb_spec q k), (Z.ltb_spec k (q + 8)); cbn [andb]; try reflexivity. exfalso. apply NB. lia.
Qed.

(** The cells of a plane that are in the box. *)
Definition box_plane (q : Z) : Prop := exists x y, x0 r <= x < x1 r /\ y0 r <= y < y1 r /\ q = y * n_x r + x.

Hypothesis D8 : (8 | x1 r - x0 r).

Lemma step_x8_ok z c : z0 r <= z < z1 r -> is_plane c ->
  exists c', step_x8 X tg r z (z + 1) coef vsq cur c = Ok c' /\ is_plane c' /\ upd (n_xy r) box_plane (plane_rel z) c c'.
Proof.
  intros Hz Pc. unfold step_x8.
  assert (Z.rem (x1 r - x0 r) 8 = 0) as R8.
  { apply Z.rem_divide; [lia|exact D8]. }
  rewrite R8. cbn [Z.eqb assert bind].
  rewrite range_step, range_empty by lia. cbn [foreach].
  destruct (foreach_blocks (fun a => a) is_plane (n_xy r)
      (fun y q => exists x, x0 r <= x < x1 r /\ q = y * n_x r + x) (plane_rel z)
      (fun y a_out => foreach (range_by 8 (x0 r) (x1 r)) a_out (fun x a_out =>
        simd_cells X tg r coef vsq cur z y x a_out)) (range (y0 r) (y1 r))) with (s := c) as (c' & Ec & Gc' & Uc); auto.
  { apply range_nodup. }
  { intros y y' q I I' _ (x & Hx & E) (x' & Hx' & E').
    apply in_range in I. apply in_range in I'.
    destruct BF as (Nx & Ny & X0 & X1 & Y0 & Y1 & _). rewrite E in E'.
    destruct (Z.div_mod_unique (n_x r) y y' x x') as [-> _]; [left; lia|left; lia| |reflexivity].
    rewrite !(Z.mul_comm (n_x r)). exact E'. }
  { intros y b Iy Pb. apply in_range in Iy.
    destruct (foreach_blocks (fun a => a) is_plane (n_xy r)
      (fun x q => x + y * n_x r <= q < x + y * n_x r + 8) (plane_rel z)
      (fun x a_out => simd_cells X tg r coef vsq cur z y x a_out) (range_by 8 (x0 r) (x1 r))) with (s := b) as (b' & Eb & Pb' & Ub); auto.
    { apply range_by_nodup. }
    { intros x x' q I I' _ Q Q'. apply in_range_by in I as (i & _ & -> & _). apply in_range_by in I' as (i' & _ & -> & _).
      clear - Q Q'. lia. }
    { intros x d Ix Pd. apply in_range_by in Ix as (i & I0 & -> & Hx). destruct D8 as [w W].
      assert (x0 r + 8 * i + 7 < x1 r) by (clear - W Hx; lia).
      apply simd_cells_ok; auto; repeat split; lia. }
    exists b'. split; [exact Eb|split; [exact Pb'|]]. revert Ub. apply upd_ext. intros q _. destruct D8 as [w W]. split.
    - intros (x & Ix & Q). apply in_range_by in Ix as (i & I0 & -> & Hx). exists (q - y * n_x r). split; [|ring].
      clear - W Hx Q I0. generalize dependent (y * n_x r). intros. lia.
    - intros (x & Hx & ->). exists (x0 r + 8 * ((x - x0 r) / 8)). split.
      + apply in_range_by. exists ((x - x0 r) / 8). clear - Hx W. split; [lia|]. split; [reflexivity|lia].
      + clear - Hx. generalize (y * n_x r). intros. lia. }
  rewrite Ec. cbn [bind]. exists c'. split; [reflexivity|split; [exact Gc'|]].
  revert Uc. apply upd_ext. intros q _. split.
  - intros (y & Iy & x & Hx & ->). apply in_range in Iy. exists x, y. auto.
  - intros (x & y & Hx & Hy & ->). exists y. split; [now apply in_range|exists x; auto].
Qed.

Lemma n_xy_pos : 0 < n_xy r.
Proof. destruct BF as (Nx & Ny & _). unfold n_xy. nia. Qed.
Lemma n_z_pos : 6 <= n_z r \/ z1 r <= z0 r.
Proof. destruct BF as (_ & _ & _ & _ & _ & _ & Z0 & Z1). lia. Qed.

Definition are_planes (cs : list (list Z)) : Prop := Z.of_nat (length cs) = n_z r /\ Forall is_plane cs.

Lemma planes_grid cs : are_planes cs -> is_grid r (concat cs).
Proof.
  intros [L F]. split.
  - transitivity (Z.of_nat (length cs) * n_xy r); [|rewrite L; unfold n_xy; ring].
    clear L. induction F as [|c cs [Lc _] F IH]; [reflexivity|]. cbn [concat length]. rewrite app_length. lia.
  - clear L. induction F as [|c cs [_ Pc] F IH]; [constructor|]. cbn [concat]. apply Forall_app. auto.
Qed.
Lemma at_planes cs p : are_planes cs -> 0 <= p -> at_ (concat cs) p = at_ (nth (Z.to_nat (p / n_xy r)) cs []) (p mod n_xy r).
Proof.
  intros [_ F] P. apply at_concat; [apply n_xy_pos|exact P|]. revert F. apply Forall_impl. intros c [H _]. exact H.
Qed.

Lemma plane_step_ok (z : nat) cs : z0 r <= Z.of_nat z < z1 r -> are_planes cs ->
  exists cs', (c <- step_x8 X tg r (Z.of_nat z) (Z.of_nat z + 1) coef vsq cur (nth z cs []) ;; Ok (update cs z c)) = Ok cs' /\
    are_planes cs' /\
    upd (cells r) (fun p => p / n_xy r = Z.of_nat z /\ box_plane (p mod n_xy r)) (step_rel mad r coef vsq cur) (concat cs) (concat cs').
Proof.
  intros Hz [L F]. assert (z < length cs)%nat as Lz by (destruct BF as (_ & _ & _ & _ & _ & _ & Z0 & Z1); lia).
  assert (is_plane (nth z cs [])) as Pn by (rewrite Forall_forall in F; apply F; now apply nth_In).
  destruct (step_x8_ok (Z.of_nat z) (nth z cs []) Hz Pn) as (c' & Ec & Pc' & Uc).
  rewrite Ec. cbn [bind]. exists (update cs z c'). split; [reflexivity|].
  assert (are_planes (update cs z c')) as AP.
  { split; [now rewrite update_length|]. now apply Forall_update. }
  split; [exact AP|]. intros p Hp. rewrite !at_planes by (first [exact AP|split; assumption|lia]).
  pose proof n_xy_pos as K. pose proof (Z.mod_pos_bound p (n_xy r) K) as HM'.
  destruct (Uc (p mod n_xy r) HM') as [Uy Un].
  destruct (Z.eq_dec (p / n_xy r) (Z.of_nat z)) as [E|N].
  - rewrite E, Nat2Z.id. rewrite nth_update_same by exact Lz. split.
    + intros [_ B]. specialize (Uy B). unfold plane_rel in Uy. unfold step_rel.
      replace p with (Z.of_nat z * n_xy r + p mod n_xy r) at 1; [exact Uy|]. rewrite <- E.
      rewrite (Z.div_mod p (n_xy r)) at 3 by lia. ring.
    + intros NB. apply Un. intros B. apply NB. auto.
  - rewrite nth_update_other. 2: { intros EN. apply N. rewrite EN. rewrite Z2Nat.id; [reflexivity|]. apply Z.div_pos; lia. }
    split; [intros [E _]; contradiction|reflexivity].
Qed.

Lemma x8_step_ok order a : z0 r <= z1 r -> (forall l, Permutation (order l) l) -> is_grid r a ->
  exists a', x8_step order X tg r coef vsq cur a = Ok a' /\ wave_step mad r coef vsq cur a a'.
Proof.
  intros Hz OP G. pose proof n_xy_pos as K. unfold x8_step.
  assert (0 <= n_z r) as Nz by (destruct BF as (_ & _ & _ & _ & _ & _ & Z0 & Z1); lia).
  assert (as_size (length a) (n_xy r) = Z.to_nat (n_xy r)) as ->.
  { unfold as_size. destruct (Z.ltb_spec (n_xy r) 0); [lia|reflexivity]. }
  assert (Nat.ltb 0 (Z.to_nat (n_xy r)) = true) as -> by (apply Nat.ltb_lt; lia). cbn [assert bind].
  destruct (chunks_spec (Z.to_nat (n_xy r)) ltac:(lia) (Z.to_nat (n_z r)) (length a) a) as (CL & CF & CC); [|lia|].
  { apply Nat2Z.inj. rewrite (proj1 G), Nat2Z.inj_mul, !Z2Nat.id by lia. unfold n_xy. ring. }
  rewrite CL, planes_ok by assumption.
  set (cs := chunks (length a) (Z.to_nat (n_xy r)) a) in *. clearbody cs.
  assert (are_planes cs) as AP.
  { split; [rewrite CL; lia|]. apply Forall_forall. intros c Ic. rewrite Forall_forall in CF. specialize (CF c Ic). split; [lia|].
    apply Forall_forall. intros p Ip. destruct G as [_ GF]. rewrite Forall_forall in GF. apply GF. rewrite <- CC.
    apply in_concat. exists c. auto. }
  set (l := seq (Z.to_nat (z0 r)) (Z.to_nat (z1 r - z0 r))).
  assert (forall z, In z (order l) <-> z0 r <= Z.of_nat z < z1 r) as IO.
  { assert (3 <= z0 r) by (destruct BF as (_ & _ & _ & _ & _ & _ & Z0 & Z1); lia).
    intros z. split; intros I.
    - apply (Permutation_in _ (OP l)) in I. apply in_seq in I. lia.
    - apply (Permutation_in _ (Permutation_sym (OP l))). apply in_seq. lia. }
  destruct (foreach_blocks (@concat Z) are_planes (cells r)
    (fun (z : nat) p => p / n_xy r = Z.of_nat z /\ box_plane (p mod n_xy r)) (step_rel mad r coef vsq cur)
    (fun z cs => c <- step_x8 X tg r (Z.of_nat z) (Z.of_nat z + 1) coef vsq cur (nth z cs []) ;; Ok (update cs z c)) (order l))
    with (s := cs) as (cs' & E & AP' & U); auto.
  { apply (Permutation_NoDup (Permutation_sym (OP l))). apply seq_NoDup. }
  { intros z z' p _ _ _ [E _] [E' _]. lia. }
  { intros z b Iz Pb. apply plane_step_ok; [now apply IO|exact Pb]. }
  rewrite E. cbn [bind]. eexists. split; [reflexivity|]. rewrite CC in U.
  apply upd_wave; [exact BF|now apply planes_grid|]. revert U. apply upd_ext. intros p Hp. split.
  - intros (z & Iz & Ez & x & y & Hx & Hy & Em). apply IO in Iz. exists x, y, (Z.of_nat z). split; [now repeat split|].
    rewrite (Z.div_mod p (n_xy r)), Ez, Em by lia. unfold pos, n_xy. ring.
  - intros (x & y & z & (Hx & Hy & Hz') & ->). exists (Z.to_nat z).
    assert (3 <= z0 r) by (destruct BF as (_ & _ & _ & _ & _ & _ & Z0 & Z1); lia).
    split; [apply IO; lia|]. rewrite Z2Nat.id by lia.
    destruct (box_in_grid r x y z BF (conj Hx (conj Hy Hz'))) as (Gx & Gy & _).
    assert (0 <= y * n_x r + x < n_xy r) as Q by (unfold n_xy; nia).
    assert (pos r x y z = z * n_xy r + (y * n_x r + x)) as -> by (unfold pos, n_xy; ring).
    split.
    + rewrite Z.div_add_l by lia. rewrite Z.div_small by exact Q. ring.
    + rewrite Z.add_comm, Z_mod_plus_full, Z.mod_small by exact Q. exists x, y. auto.
Qed.
End Simd.
