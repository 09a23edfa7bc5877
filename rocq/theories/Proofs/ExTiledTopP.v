(** The images of the ambient occlusion example: all packets of rays. *)
From Coq Require Import ZArith List Bool Lia Reals Lra Permutation.
From Verif.Model Require Import Base FloatLane Llvm Tables MathTables Math Minimal MaskReduce Ops Cmp Float Reduce ExStencil ExRandom ExGeometry ExIntersect ExOcclusion ExImage.
From Verif.Spec Require Import Spec Floats MathSpec Examples Stencil Rays Occlusion Picture.
From Verif.Proofs Require Import Lib FloatP FloatVecP ExPacketP ExIntersectP ExIntersectMainP ExIntersectTopP ExOcclusionP ExOcclusionPacketP ExSceneP ExSceneTopP ExImageP ExImageTopP ExTiledP.
Import ListNotations.
Open Scope Z_scope.
Local Notation pat := (pattern 4).
Local Notation dat := f32_datum.
Local Opaque fl_add fl_sub fl_mul fl_div fl_sqrt fl_lt fl_gt fl_ge fl_abs f32_neg.

(** *** Parts of the image that are drawn one after the other *)
Section Regions.
  Context {A B T : Type}.
  Variables (im : T -> list Z) (body : A -> T -> outcome T) (n : nat) (no : A -> nat).
  Variables (R : A -> T -> B -> T -> Prop) (becomes : B -> nat -> Z -> Z -> Prop) (okT : T -> Prop) (dom : A -> Prop).
  (** Part [no a] has the pixels from [n * no a] on, [n] of them. *)
  Hypothesis HB : forall a t, dom a -> okT t -> exists b t', body a t = Ok t' /\ R a t b t' /\ okT t' /\ length (im t') = length (im t) /\
    forall j p, nth_error (im t) j = Some p -> exists q, nth_error (im t') j = Some q /\
      (((j / 3 / n)%nat = no a /\ becomes b ((j / 3) mod n)%nat p q) \/ ((j / 3 / n)%nat <> no a /\ q = p)).
  Lemma regions l : Forall dom l -> NoDup (map no l) -> forall t, okT t ->
    exists bs t', foreach l t body = Ok t' /\ in_turn R l t bs t' /\ okT t' /\ length (im t') = length (im t) /\
      forall j p, nth_error (im t) j = Some p -> exists q, nth_error (im t') j = Some q /\
        ((exists i a b, nth_error l i = Some a /\ nth_error bs i = Some b /\ (j / 3 / n)%nat = no a /\ becomes b ((j / 3) mod n)%nat p q) \/
         (~ In (j / 3 / n)%nat (map no l) /\ q = p)).
  Proof.
    induction l as [|a l IH]; intros D ND t O; cbn [foreach map].
    - exists [], t. split; [reflexivity|]. split; [constructor|]. split; [exact O|]. split; [reflexivity|].
      intros j p E. exists p. split; [exact E|]. right. split; [intros []|reflexivity].
    - inversion D as [|? ? D1 D2]; subst. inversion ND as [|? ? N1 N2]; subst.
      destruct (HB a t D1 O) as (b & t1 & E1 & R1 & O1 & L1 & H1). rewrite E1. cbn [bind].
      destruct (IH D2 N2 t1 O1) as (bs & t' & E & RT & O' & L' & H). exists (b :: bs), t'. split; [exact E|]. split; [econstructor; eassumption|].
      split; [exact O'|]. split; [congruence|]. intros j p EP. destruct (H1 j p EP) as (p1 & E2 & C1). destruct (H j p1 E2) as (q & E3 & C2).
      exists q. split; [exact E3|]. destruct C1 as [[J C1]|[J ->]].
      + left. exists 0%nat, a, b. split; [reflexivity|]. split; [reflexivity|]. split; [exact J|].
        destruct C2 as [(i & a' & b' & I1 & I2 & J' & _)|[_ ->]]; [|exact C1]. exfalso. apply N1. rewrite <- J, J'. apply in_map. eapply nth_error_In; exact I1.
      + destruct C2 as [(i & a' & b' & I1 & I2 & J' & C2)|[NI ->]].
        * left. exists (S i), a', b'. now repeat (split; [assumption|]).
        * right. split; [|reflexivity]. cbn [In]. intros [K|K]; [congruence|contradiction].
  Qed.
End Regions.

Lemma in_turn_image {A B T U} (g : T -> U) (R : A -> U -> B -> U -> Prop) l t bs t' : in_turn (fun a t b t' => R a (g t) b (g t')) l t bs t' -> in_turn R l (g t) bs (g t').
Proof. intros H. induction H; econstructor; eassumption. Qed.

Lemma concat_at {A} n (ls : list (list A)) i k : Forall (fun l => length l = n) ls -> (k < n)%nat ->
  nth_error (concat ls) (n * i + k) = match nth_error ls i with Some l => nth_error l k | None => None end.
Proof.
  intros F K. revert i. induction F as [|l ls L F IH]; intros i; cbn [concat].
  - destruct i, (n * _ + k)%nat; reflexivity.
  - destruct i as [|i]; cbn [nth_error].
    + rewrite Nat.mul_0_r, Nat.add_0_l. apply nth_error_app1. lia.
    + rewrite nth_error_app2 by lia. rewrite <- IH. f_equal. lia.
Qed.
Lemma concat_at_mod {A} n (ls : list (list A)) P : Forall (fun l => length l = n) ls -> (0 < n)%nat ->
  nth_error (concat ls) P = match nth_error ls (P / n) with Some l => nth_error l (P mod n) | None => None end.
Proof. intros F N. rewrite (Nat.div_mod P n) at 1 by lia. apply concat_at; [exact F|]. apply Nat.mod_upper_bound. lia. Qed.

Lemma list_prod_at (l : list nat) m : forall k i y j, nth_error (list_prod (map (fun c => c + k)%nat l) (seq 0 m)) i = Some (y, j) ->
  exists c, nth_error l c = Some (y - k)%nat /\ (i = c * m + j /\ j < m)%nat.
Proof.
  induction l as [|a l IH]; intros k i y j E; cbn [map list_prod] in E; [destruct i; discriminate E|].
  destruct (Nat.lt_ge_cases i m) as [I|I].
  - rewrite nth_error_app1 in E by (rewrite map_length, seq_length; exact I). rewrite nth_error_map in E.
    rewrite (nth_error_nth' (seq 0 m) 0%nat) in E by (rewrite seq_length; exact I). rewrite seq_nth in E by exact I. cbn [option_map Nat.add] in E.
    injection E as <- <-. exists 0%nat. cbn [nth_error]. split; [f_equal; lia|]. split; [reflexivity|exact I].
  - rewrite nth_error_app2 in E by (rewrite map_length, seq_length; exact I). rewrite map_length, seq_length in E.
    destruct (IH k _ _ _ E) as (c & E1 & E2 & E3). exists (S c). split; [exact E1|]. split; [|exact E3]. cbn [Nat.mul]. lia.
Qed.
Lemma grid_at a m i y j : nth_error (grid a m) i = Some (y, j) -> (i = y * m + j /\ j < m /\ y < a)%nat.
Proof.
  intros E. destruct (grid_In a m y j (nth_error_In _ _ E)) as [Y _].
  unfold grid in E. rewrite <- (map_id (seq 0 a)) in E. rewrite (map_ext (fun x => x) (fun c => c + 0)%nat) in E by (intros; lia).
  destruct (list_prod_at _ _ _ _ _ _ E) as (c & E1 & E2 & E3). rewrite Nat.sub_0_r in E1.
  assert (C : (c < a)%nat) by (rewrite <- (seq_length a 0); apply nth_error_Some; congruence).
  rewrite (nth_error_nth' (seq 0 a) 0%nat) in E1 by (rewrite seq_length; exact C). rewrite seq_nth in E1 by exact C. injection E1 as <-. lia.
Qed.
Lemma NoDup_at {A} (l : list A) (g : A -> nat) : (forall i a, nth_error l i = Some a -> g a = i) -> NoDup (map g l).
Proof.
  intros H. apply NoDup_nth_error. intros i j I E. rewrite !nth_error_map in E. rewrite map_length in I.
  destruct (nth_error l i) as [a|] eqn:EA; [|apply nth_error_None in EA; lia]. destruct (nth_error l j) as [b|] eqn:EB; [|discriminate E].
  cbn [option_map] in E. apply H in EA, EB. congruence.
Qed.
Lemma all_lists {A} (P : nat -> A -> Prop) h : (forall y, (y < h)%nat -> exists b, P y b) -> exists l, length l = h /\ forall y b, nth_error l y = Some b -> P y b.
Proof.
  induction h as [|h IH]; intros H.
  - exists []. split; [reflexivity|]. intros [|y] b E; discriminate E.
  - destruct IH as (l & L & Q); [intros y Y; apply H; lia|]. destruct (H h) as [b B]; [lia|]. exists (l ++ [b]). split; [rewrite app_length; cbn [length]; lia|].
    intros y c E. destruct (Nat.lt_ge_cases y h) as [Y|Y].
    + rewrite nth_error_app1 in E by lia. now apply Q.
    + rewrite nth_error_app2 in E by lia. destruct (y - length l)%nat eqn:D; cbn [nth_error] in E; [|destruct n; discriminate E]. injection E as <-.
      replace y with h by lia. exact B.
Qed.

Section Tiled.
  Variables (wide : bool) (X : externals) (Sx : lane_functions) (tg : target) (junk : vec) (mad : mul_adder) (cosine sine : datum -> datum -> Prop).
  Hypothesis HW : works_lanewise X Sx.
  Hypothesis HFL : follows_llvm Sx.
  Hypothesis HSL : ~ uses_sleef tg.
  Hypothesis HM : mul_adde_is tg Sx mad.
  Hypothesis HJ : is_vector (f32xN wide) junk.
  Hypothesis HT : trig_is Sx cosine sine.
  Local Notation f := (f32xN wide).
  Local Notation N := (vn (f32xN wide)).
  Context {St : Type}.
  Variables (sc : scene St) (ok : St -> Prop) (ns w h : nat).
  Hypothesis HSC : is_scene sc.
  Hypothesis HE : endless_packets wide sc ok.
  Hypothesis Hnao : Z.of_nat (nao sc * nao sc) <= 2 ^ 24.
  Hypothesis Hw : Z.of_nat w <= 2 ^ 24.
  Hypothesis Hh : Z.of_nat h <= 2 ^ 24.
  Hypothesis Hn : Z.of_nat ns <= 2 ^ 24.
  Variable m : nat.
  Hypothesis Hm : w = (m * N)%nat.
  Local Notation csl := (list (list (option datum))).
  Local Notation seen := (packets_seen wide mad cosine sine sc w h ns).

  Lemma N_pos : (0 < N)%nat.
  Proof. clear. destruct wide; cbn; lia. Qed.
  Definition cells_ok (image : list Z) : Prop := length image = (3 * (h * w))%nat /\ Forall is_f32 image.
  Definition one_becomes (b : csl) (k : nat) (p q : Z) : Prop := pat q /\ scaled_hits ns (dat p) (map (fun cs => nth k cs None) b) (dat q).
  Definition packet_body (yj : nat * nat) (s : list Z * St) : outcome (list Z * St) := tiled_packet wide false X tg junk sc ns w h (snd yj * N) (fst yj) s.

  Lemma redrawn_ok c (F : nat -> Z -> Z) image new : redrawn (N * c) N F image new -> forall j p, nth_error image j = Some p ->
    exists q, nth_error new j = Some q /\ (((j / 3 / N)%nat = c /\ q = F ((j / 3) mod N)%nat p) \/ ((j / 3 / N)%nat <> c /\ q = p)).
  Proof.
    intros [_ H] j p E. eexists. split; [exact (H j p E)|]. pose proof N_pos as NP. set (P := (j / 3)%nat).
    assert (D : P = (N * (P / N) + P mod N)%nat) by (apply Nat.div_mod; lia). assert (M : (P mod N < N)%nat) by (apply Nat.mod_upper_bound; lia).
    destruct (Nat.eq_dec (P / N) c) as [Q|Q]; [left|right]; (split; [exact Q|]).
    - assert (I1 : (N * c <=? P)%nat = true) by (apply Nat.leb_le; rewrite <- Q; lia). assert (I2 : (P <? N * c + N)%nat = true) by (apply Nat.ltb_lt; rewrite <- Q; lia).
      rewrite I1, I2. cbn [andb]. f_equal. rewrite <- Q. lia.
    - destruct ((N * c <=? P)%nat && (P <? N * c + N)%nat) eqn:I; [|reflexivity]. exfalso. apply Q. apply andb_true_iff in I. rewrite Nat.leb_le, Nat.ltb_lt in I.
      symmetry. apply (Nat.div_unique P N c (P - N * c)); lia.
  Qed.

  Lemma packet_body_ok yj (s : list Z * St) : (fst yj < h)%nat /\ (snd yj < m)%nat -> cells_ok (fst s) /\ ok (snd s) ->
    exists b s', packet_body yj s = Ok s' /\ seen yj (snd s) b (snd s') /\ (cells_ok (fst s') /\ ok (snd s')) /\ length (fst s') = length (fst s) /\
      forall j p, nth_error (fst s) j = Some p -> exists q, nth_error (fst s') j = Some q /\
        (((j / 3 / N)%nat = (fst yj * m + snd yj)%nat /\ one_becomes b ((j / 3) mod N)%nat p q) \/ ((j / 3 / N)%nat <> (fst yj * m + snd yj)%nat /\ q = p)).
  Proof.
    destruct yj as [y x], s as [image st]. cbn [fst snd]. intros [Y XM] [[L F] O]. pose proof N_pos as NP.
    assert (XN : (x * N + N <= w)%nat) by (rewrite Hm; replace (x * N + N)%nat with (S x * N)%nat by lia; apply Nat.mul_le_mono_r; exact XM).
    assert (YW : (y * w + w <= h * w)%nat) by (replace (y * w + w)%nat with (S y * w)%nat by lia; apply Nat.mul_le_mono_r; exact Y).
    destruct (tiled_packet_ok wide X Sx tg junk mad cosine sine HW HFL HSL HM HJ HT sc ok ns w h HSC HE Hnao Hw Hh Hn (x * N) y image st) as (hcs & new & st' & E & P & R & Q & O');
      [rewrite L; lia|exact XN|exact Y|exact O|].
    exists (map (lane_values wide) hcs), (new, st'). cbn [fst snd]. split; [exact E|]. split; [exact Q|].
    replace (y * w + x * N)%nat with (N * (y * m + x))%nat in R by (rewrite Hm; lia).
    assert (C : forall j p, nth_error image j = Some p -> exists q, nth_error new j = Some q /\
        (((j / 3 / N)%nat = (y * m + x)%nat /\ one_becomes (map (lane_values wide) hcs) ((j / 3) mod N)%nat p q) \/ ((j / 3 / N)%nat <> (y * m + x)%nat /\ q = p))).
    { intros j p EP. destruct (redrawn_ok _ _ _ _ R j p EP) as (q & EQ & [[J ->]|[J ->]]); eexists; (split; [exact EQ|]); [left|right]; (split; [exact J|]); [|reflexivity].
      apply (lane_becomes wide ns Hn); [apply Nat.mod_upper_bound; lia|exact P|].
      rewrite Forall_forall in F. apply F. eapply nth_error_In; exact EP. }
    split; [|split; [exact (proj1 R)|exact C]]. split; [|exact O']. split; [rewrite (proj1 R); exact L|].
    apply Forall_forall. intros q I. apply In_nth_error in I. destruct I as [j EQ].
    destruct (nth_error image j) as [p|] eqn:EP.
    - destruct (C j p EP) as (q' & EQ' & H). assert (q' = q) by congruence. subst q'. destruct H as [[_ [H _]]|[_ ->]]; [exact H|].
      rewrite Forall_forall in F. apply F. eapply nth_error_In; exact EP.
    - apply nth_error_None in EP. rewrite <- (proj1 R) in EP. apply nth_error_None in EP. congruence.
  Qed.

  (** Any packets. *)
  Lemma packets_ok l : Forall (fun yj => (fst yj < h)%nat /\ (snd yj < m)%nat) l -> NoDup (map (fun yj => fst yj * m + snd yj)%nat l) ->
    forall image st, cells_ok image -> ok st ->
    exists bs new st', foreach l (image, st) packet_body = Ok (new, st') /\ in_turn seen l st bs st' /\ ok st' /\ cells_ok new /\
      forall j p, nth_error image j = Some p -> exists q, nth_error new j = Some q /\
        ((exists i a b, nth_error l i = Some a /\ nth_error bs i = Some b /\ (j / 3 / N)%nat = (fst a * m + snd a)%nat /\ one_becomes b ((j / 3) mod N)%nat p q) \/
         (~ In (j / 3 / N)%nat (map (fun yj => fst yj * m + snd yj)%nat l) /\ q = p)).
  Proof.
    intros D ND image st C O.
    destruct (regions (@fst (list Z) St) packet_body N (fun yj => fst yj * m + snd yj)%nat (fun a t b t' => seen a (snd t) b (snd t')) one_becomes
      (fun t => cells_ok (fst t) /\ ok (snd t)) _ packet_body_ok l D ND (image, st) (conj C O)) as (bs & [new st'] & E & T & [C' O'] & L & H).
    exists bs, new, st'. split; [exact E|]. split; [exact (in_turn_image snd seen l _ _ _ T)|]. split; [exact O'|]. split; [exact C'|exact H].
  Qed.

  (** *** One packet after the other *)
  Lemma steps_m : steps w N = m.
  Proof. pose proof N_pos as NP. unfold steps. rewrite Hm. symmetry. apply (Nat.div_unique _ _ _ (N - 1)); lia. Qed.
  Lemma in_packets {A} (body : nat -> A -> outcome A) s : foreach (packets wide w) s body = foreach (seq 0 m) s (fun j => body (j * N)%nat).
  Proof. unfold packets. rewrite steps_m, foreach_map. reflexivity. Qed.
  Lemma pixels_length (b : csl) : length (pixels_of wide b) = N.
  Proof. unfold pixels_of. now rewrite map_length, seq_length. Qed.
  Lemma pixels_at (bs : list csl) P : nth_error (concat (map (pixels_of wide) bs)) P = option_map (fun b => map (fun cs => nth (P mod N) cs None) b) (nth_error bs (P / N)).
  Proof.
    pose proof N_pos as NP. rewrite (concat_at_mod N); [|apply Forall_forall; intros l I; apply in_map_iff in I; destruct I as (b & <- & _); apply pixels_length|exact NP].
    rewrite nth_error_map. destruct (nth_error bs (P / N)) as [b|]; [|reflexivity]. cbn [option_map]. unfold pixels_of. rewrite nth_error_map.
    assert (M : (P mod N < N)%nat) by (apply Nat.mod_upper_bound; lia).
    rewrite (nth_error_nth' (seq 0 N) 0%nat) by (rewrite seq_length; exact M). rewrite seq_nth by exact M. reflexivity.
  Qed.
  Lemma cell_of k c : (c < 3)%nat -> ((3 * k + c) / 3)%nat = k.
  Proof. intros C. symmetry. apply (Nat.div_unique _ _ _ c); lia. Qed.

  Theorem tiled_serial image st : cells_ok image -> ok st ->
    exists csls new st', tiled_ao wide false X tg junk sc ns w h image st = Ok (new, st') /\ in_turn seen (grid h m) st csls st' /\
      painted (scaled_hits ns) image (concat (map (pixels_of wide) csls)) new /\ ok st'.
  Proof.
    intros C O. pose proof N_pos as NP.
    destruct (packets_ok (grid h m)) with (image := image) (st := st) as (bs & new & st' & E & T & O' & C' & H); [| |exact C|exact O|].
    - apply Forall_forall. intros [y j] I. apply In_nth_error in I. destruct I as [i I]. apply grid_at in I. cbn [fst snd]. lia.
    - apply NoDup_at. intros i [y j] I. apply grid_at in I. cbn [fst snd]. lia.
    - exists bs, new, st'. split; [|split; [exact T|split; [|exact O']]].
      + unfold tiled_ao. replace (w mod N =? 0)%nat with true by (symmetry; apply Nat.eqb_eq; rewrite Hm; apply Nat.mod_mul; lia).
        rewrite <- E. unfold grid. rewrite <- (foreach_prod (fun y j => packet_body (y, j))). apply foreach_ext. intros y s _. rewrite in_packets. reflexivity.
      + split; [rewrite (proj1 C), (proj1 C'); reflexivity|]. split; [exact (proj2 C')|]. intros k c cs p q K EC EP EQ.
        rewrite pixels_at in EC. destruct (nth_error bs (k / N)) as [b|] eqn:EB; [|discriminate EC]. cbn [option_map] in EC.
        assert (ECS : cs = map (fun cs => nth (k mod N) cs None) b) by congruence. subst cs.
        destruct (H _ _ EP) as (q' & EQ' & D). assert (q' = q) by congruence. subst q'. rewrite (cell_of k c K) in D. destruct D as [(i & [y j] & b' & I1 & I2 & I3 & _ & B)|[NI _]].
        * apply grid_at in I1. cbn [fst snd] in I3. replace i with (k / N)%nat in I2 by lia. assert (b' = b) by congruence. subst b'. exact B.
        * exfalso. apply NI. apply in_map_iff.
          assert (KB : (k / N < length (grid h m))%nat) by (rewrite <- (in_turn_length _ _ _ _ _ T); apply nth_error_Some; congruence).
          destruct (nth_error (grid h m) (k / N)) as [[y j]|] eqn:EG; [|apply nth_error_None in EG; lia].
          exists (y, j). split; [|eapply nth_error_In; exact EG]. apply grid_at in EG. cbn [fst snd]. lia.
  Qed.

  (** *** The rows in any order *)
  Definition row_body (y : nat) (a : nat * (nat * nat)) (s : list Z * St) : outcome (list Z * St) :=
    tiled_rays wide false X tg junk sc ns w h (3 * (y * w + fst a)) (fst a) y (fst (snd a)) (snd (snd a)) s.
  Definition row_items : list (nat * (nat * nat)) := row_steps wide ns w.
  Definition of_row (y j : nat) : Prop := (j / 3 / w)%nat = y.
  Definition agree (y : nat) (a b : list Z) : Prop := forall j, of_row y j -> nth_error a j = nth_error b j.

  Lemma items_In a : In a row_items -> (fst a + N <= w)%nat /\ (fst (snd a) < ns)%nat /\ (snd (snd a) < ns)%nat.
  Proof.
    destruct a as [x [u v]]. unfold row_items, row_steps. intros I. apply in_prod_iff in I. destruct I as [I1 I2]. apply in_prod_iff in I2. destruct I2 as [I2 I3].
    apply in_seq in I2, I3. unfold packets in I1. rewrite steps_m in I1. apply in_map_iff in I1. destruct I1 as (j & <- & J). apply in_seq in J. cbn [fst snd].
    split; [|split; lia]. rewrite Hm. replace (j * N + N)%nat with (S j * N)%nat by lia. apply Nat.mul_le_mono_r. lia.
  Qed.
  Lemma row_of y x j : (0 < w)%nat -> (x + N <= w)%nat -> (y * w + x <= j / 3 < y * w + x + N)%nat -> of_row y j.
  Proof. intros W XN J. unfold of_row. symmetry. apply (Nat.div_unique _ _ _ (j / 3 - y * w)); lia. Qed.
  Lemma redrawn_f32 base (F : nat -> Z -> Z) image new : (forall k p, (k < N)%nat -> is_f32 p -> is_f32 (F k p)) -> redrawn base N F image new -> Forall is_f32 image -> Forall is_f32 new.
  Proof.
    intros HF [L H] FI. apply Forall_forall. intros q I. apply In_nth_error in I. destruct I as [j EQ].
    destruct (nth_error image j) as [p|] eqn:EP; [|apply nth_error_None in EP; rewrite <- L in EP; apply nth_error_None in EP; congruence].
    assert (P : is_f32 p) by (rewrite Forall_forall in FI; apply FI; eapply nth_error_In; exact EP).
    pose proof (H j p EP) as EQ'. rewrite EQ in EQ'. assert (Q : q = (if (base <=? j / 3)%nat && (j / 3 <? base + N)%nat then F (j / 3 - base)%nat p else p)) by congruence. rewrite Q.
    destruct (_ && _) eqn:B; [|exact P]. apply andb_true_iff in B. rewrite Nat.leb_le, Nat.ltb_lt in B. apply HF; [lia|exact P].
  Qed.

  (** One step of row y: it does not touch the other rows, and what it does depends on its own row only. *)
  Lemma row_local y a st : (0 < w)%nat -> (y < h)%nat -> In a row_items -> ok st ->
    exists st', ok st' /\ forall image, cells_ok image -> exists new, row_body y a (image, st) = Ok (new, st') /\ cells_ok new /\
      (forall z, z <> y -> agree z new image) /\
      forall other, cells_ok other -> agree y image other -> exists new', row_body y a (other, st) = Ok (new', st') /\ agree y new new'.
  Proof.
    intros W Y I O. destruct (items_In a I) as (XN & U & V). destruct a as [x [u v]]. cbn [fst snd] in *.
    destruct (tiled_rays_ok wide X Sx tg junk mad cosine sine HW HFL HSL HM HJ HT sc ok ns w h HSC HE Hnao Hw Hh Hn x y u v st XN Y U V O) as (hc & st' & P & _ & O' & G).
    exists st'. split; [exact O'|]. intros image [L F].
    assert (YW : (y * w + w <= h * w)%nat) by (replace (y * w + w)%nat with (S y * w)%nat by lia; apply Nat.mul_le_mono_r; exact Y).
    assert (B : (3 * (y * w + x + N) <= 3 * (h * w))%nat) by lia.
    destruct (G (y * w + x)%nat image) as (new & E & R); [rewrite L; exact B|]. exists new. split; [exact E|]. split.
    { split; [rewrite (proj1 R); exact L|]. refine (redrawn_f32 _ _ _ _ _ R F). intros k p K PP. exact (proj1 (lane_becomes wide ns Hn k [hc] K (Forall_cons _ P (Forall_nil _)) p PP)). }
    split.
    - intros z Z j J. destruct (nth_error image j) as [p|] eqn:EP.
      + rewrite (proj2 R j p EP). destruct (_ && _) eqn:Q; [|reflexivity]. exfalso. apply andb_true_iff in Q. rewrite Nat.leb_le, Nat.ltb_lt in Q.
        apply Z. rewrite <- J. exact (row_of y x j W XN Q).
      + apply nth_error_None in EP. apply nth_error_None. rewrite (proj1 R). exact EP.
    - intros other [L2 F2] A. destruct (G (y * w + x)%nat other) as (new' & E' & R'); [rewrite L2; exact B|]. exists new'. split; [exact E'|]. intros j J.
      specialize (A j J). destruct (nth_error image j) as [p|] eqn:EP.
      + rewrite (proj2 R j p EP), (proj2 R' j p (eq_sym A)). reflexivity.
      + apply nth_error_None in EP. symmetry in A. apply nth_error_None in A. transitivity (@None Z); [|symmetry]; apply nth_error_None; [rewrite (proj1 R)|rewrite (proj1 R')]; assumption.
  Qed.

  (** What has been done: of every row the first steps, as if the row were alone. *)
  Definition par_step (y : nat) (s : list Z * (nat -> list (nat * (nat * nat)) * St)) : outcome (list Z * (nat -> list (nat * (nat * nat)) * St)) :=
    let (image, rows) := s in
    match rows y with
    | ([], _) => Ok s
    | (a :: rest, st) => r <- row_body y a (image, st) ;; Ok (fst r, fun z => if Nat.eqb z y then (rest, snd r) else rows z)
    end.
  Definition rows_done (image0 : list Z) (start : nat -> St) (image : list Z) (rows : nat -> list (nat * (nat * nat)) * St) (count : nat -> nat) : Prop :=
    cells_ok image /\ forall y, (y < h)%nat -> fst (rows y) = skipn (count y) row_items /\ ok (snd (rows y)) /\
      exists own, foreach (firstn (count y) row_items) (image0, start y) (row_body y) = Ok (own, snd (rows y)) /\ cells_ok own /\ agree y image own.
  Lemma schedule_ok image0 start : (0 < w)%nat -> forall schedule, Forall (fun y => (y < h)%nat) schedule -> forall image rows count,
    rows_done image0 start image rows count ->
    exists image' rows', foreach schedule (image, rows) par_step = Ok (image', rows') /\
      rows_done image0 start image' rows' (fun y => count_occ Nat.eq_dec schedule y + count y)%nat.
  Proof.
    intros W. induction schedule as [|y l IH]; intros F image rows count [C D]; cbn [foreach].
    - exists image, rows. split; [reflexivity|]. split; [exact C|]. exact D.
    - inversion F as [|? ? Y F']; subst. destruct (D y Y) as (EF & O & own & EO & CO & A). unfold par_step at 1. destruct (rows y) as [todo st] eqn:ER. cbn [fst snd] in EF, O, EO.
      destruct todo as [|a rest].
      + cbn [bind]. destruct (IH F' image rows (fun z => if Nat.eqb z y then S (count y) else count z)) as (image' & rows' & E & C' & D').
        { split; [exact C|]. intros z Z. destruct (Nat.eqb_spec z y) as [->|NE]; [|exact (D z Z)]. rewrite ER. cbn [fst snd].
          assert (LN : (length row_items <= count y)%nat).
          { destruct (Nat.lt_ge_cases (count y) (length row_items)) as [Q|Q]; [|exact Q]. apply (f_equal (@length _)) in EF. rewrite skipn_length in EF. cbn [length] in EF. lia. }
          split; [symmetry; apply skipn_all2; lia|]. split; [exact O|]. exists own. rewrite firstn_all2 in EO by exact LN. rewrite firstn_all2 by lia. now split. }
        exists image', rows'. split; [exact E|]. split; [exact C'|]. intros z Z. specialize (D' z Z). cbn beta in D'. cbn [count_occ].
        destruct (Nat.eq_dec y z) as [<-|NE].
        * rewrite Nat.eqb_refl in D'. replace (S (count_occ Nat.eq_dec l y) + count y)%nat with (count_occ Nat.eq_dec l y + S (count y))%nat by lia. exact D'.
        * replace (z =? y)%nat with false in D' by (symmetry; apply Nat.eqb_neq; congruence). exact D'.
      + assert (EQ : row_items = firstn (count y) row_items ++ a :: rest) by (rewrite EF; symmetry; apply firstn_skipn).
        assert (IA : In a row_items) by (rewrite EQ; apply in_or_app; right; now left).
        assert (LC : (count y < length row_items)%nat).
        { destruct (Nat.lt_ge_cases (count y) (length row_items)) as [Q|Q]; [exact Q|]. apply skipn_all2 in Q. congruence. }
        assert (LF : length (firstn (count y) row_items) = count y) by (rewrite firstn_length; lia).
        assert (E1 : skipn (S (count y)) row_items = rest).
        { rewrite EQ at 1. rewrite skipn_app, LF. rewrite skipn_all2 by lia. replace (S (count y) - count y)%nat with 1%nat by lia. reflexivity. }
        assert (E2 : firstn (S (count y)) row_items = firstn (count y) row_items ++ [a]).
        { rewrite EQ at 1. rewrite firstn_app, LF. rewrite firstn_all2 by lia. replace (S (count y) - count y)%nat with 1%nat by lia. reflexivity. }
        destruct (row_local y a st W Y IA O) as (st' & O' & G). destruct (G image C) as (new & EB & CN & OT & SM). destruct (SM own CO A) as (new' & EB' & AG).
        destruct (G own CO) as (new2 & EB2 & CN2 & _). assert (new2 = new') by congruence. subst new2.
        rewrite EB. cbn [bind fst snd].
        destruct (IH F' new (fun z => if Nat.eqb z y then (rest, st') else rows z) (fun z => if Nat.eqb z y then S (count y) else count z)) as (image' & rows' & E & C' & D').
        { split; [exact CN|]. intros z Z. destruct (Nat.eqb_spec z y) as [->|NE].
          - cbn [fst snd]. split; [symmetry; exact E1|]. split; [exact O'|]. exists new'. rewrite E2, foreach_app, EO. cbn [bind foreach]. rewrite EB'. now split.
          - destruct (D z Z) as (EFz & Oz & ownz & EOz & COz & Az). split; [exact EFz|]. split; [exact Oz|]. exists ownz. split; [exact EOz|]. split; [exact COz|].
            intros j J. rewrite (OT z NE j J). exact (Az j J). }
        exists image', rows'. split; [exact E|]. split; [exact C'|]. intros z Z. specialize (D' z Z). cbn beta in D'. cbn [count_occ].
        destruct (Nat.eq_dec y z) as [<-|NE].
        * rewrite Nat.eqb_refl in D'. replace (S (count_occ Nat.eq_dec l y) + count y)%nat with (count_occ Nat.eq_dec l y + S (count y))%nat by lia. exact D'.
        * replace (z =? y)%nat with false in D' by (symmetry; apply Nat.eqb_neq; congruence). exact D'.
  Qed.

  (** A row that is alone. *)
  Lemma row_alone y image st : cells_ok image -> ok st -> (y < h)%nat ->
    exists bs new st', foreach row_items (image, st) (row_body y) = Ok (new, st') /\ in_turn seen (map (pair y) (seq 0 m)) st bs st' /\
      forall j p, of_row y j -> nth_error image j = Some p -> exists q b, nth_error new j = Some q /\
        nth_error bs (j / 3 / N - y * m) = Some b /\ one_becomes b ((j / 3) mod N)%nat p q.
  Proof.
    intros C O Y. pose proof N_pos as NP.
    assert (AT : forall i yj, nth_error (map (pair y) (seq 0 m)) i = Some yj -> (i < m)%nat /\ yj = (y, i)).
    { intros i yj E. assert (I : (i < m)%nat) by (rewrite <- (seq_length m 0), <- (map_length (pair y)); apply nth_error_Some; congruence). split; [exact I|].
      rewrite nth_error_map, (nth_error_nth' (seq 0 m) 0%nat), seq_nth in E by (rewrite ?seq_length; exact I). cbn [option_map Nat.add] in E. congruence. }
    destruct (packets_ok (map (pair y) (seq 0 m))) with (image := image) (st := st) as (bs & new & st' & E & T & O' & C' & H); [| |exact C|exact O|].
    - apply Forall_forall. intros yj I. apply In_nth_error in I. destruct I as [i I]. apply AT in I. destruct I as [I ->]. cbn [fst snd]. now split.
    - apply NoDup_nth_error. intros i k I EI. rewrite map_length, map_length, seq_length in I. rewrite !nth_error_map in EI.
      destruct (nth_error (seq 0 m) i) as [a|] eqn:EA; [|apply nth_error_None in EA; rewrite seq_length in EA; lia].
      destruct (nth_error (seq 0 m) k) as [b|] eqn:EB; [|discriminate EI]. cbn [option_map fst snd] in EI.
      pose proof (AT i (y, a)) as Ha. rewrite nth_error_map, EA in Ha. specialize (Ha eq_refl). pose proof (AT k (y, b)) as Hb. rewrite nth_error_map, EB in Hb. specialize (Hb eq_refl).
      assert (a = i) by (destruct Ha; congruence). assert (b = k) by (destruct Hb; congruence). assert ((y * m + a)%nat = (y * m + b)%nat) by congruence. lia.
    - exists bs, new, st'. split; [|split; [exact T|]].
      + rewrite <- E, foreach_map. unfold row_items, row_steps.
        rewrite <- (foreach_prod (fun x uv => row_body y (x, uv))). rewrite in_packets. apply foreach_ext. intros j s _.
        unfold packet_body, tiled_packet. rewrite (foreach_prod (fun u v s => tiled_rays wide false X tg junk sc ns w h (3 * (y * w + j * N)) (j * N) y u v s)). reflexivity.
      + intros j p J EP. destruct (H j p EP) as (q & EQ & D). exists q. destruct D as [(i & a & b & I1 & I2 & I3 & B)|[NI _]].
        * apply AT in I1. destruct I1 as [I ->]. cbn [fst snd] in I3. exists b. split; [exact EQ|]. split; [|exact B]. rewrite I3. replace (y * m + i - y * m)%nat with i by lia. exact I2.
        * exfalso. apply NI. unfold of_row in J. set (P := (j / 3)%nat) in *.
          assert (JL : (j < 3 * (h * w))%nat) by (rewrite <- (proj1 C); apply nth_error_Some; congruence).
          assert (W : (0 < w)%nat) by (destruct w; [rewrite Nat.mul_0_r in JL; cbn in JL; lia|lia]).
          assert (D : P = (w * y + P mod w)%nat) by (rewrite <- J; apply Nat.div_mod; lia). assert (M : (P mod w < w)%nat) by (apply Nat.mod_upper_bound; lia).
          set (r := (P mod w)%nat) in *. assert (D2 : r = (N * (r / N) + r mod N)%nat) by (apply Nat.div_mod; lia). assert (M2 : (r mod N < N)%nat) by (apply Nat.mod_upper_bound; lia).
          assert (Q : (r / N < m)%nat) by (apply Nat.div_lt_upper_bound; [lia|]; rewrite Hm in M; lia).
          apply in_map_iff. exists (y, r / N)%nat. split; [|apply in_map; apply in_seq; split; [apply Nat.le_0_l|exact Q]]. cbn [fst snd]. apply (Nat.div_unique _ _ _ (r mod N)); [exact M2|].
          rewrite D. clear - D2 Hm. clearbody r. generalize dependent (r / N)%nat. generalize (r mod N)%nat. intros a b ->. rewrite Hm. lia.
  Qed.

  Theorem tiled_parallel schedule start image : cells_ok image -> (forall y, ok (start y)) -> (0 < w)%nat ->
    Forall (fun y => (y < h)%nat) schedule -> (forall y, (y < h)%nat -> (m * (ns * ns) <= count_occ Nat.eq_dec schedule y)%nat) ->
    exists csss new, tiled_par_ao wide false X tg junk sc ns w h schedule start image = Ok new /\ length csss = h /\
      painted (scaled_hits ns) image (concat (map (pixels_of wide) (concat csss))) new /\
      forall y csls, nth_error csss y = Some csls -> exists st', in_turn seen (map (pair y) (seq 0 m)) (start y) csls st'.
  Proof.
    intros C O W F CT. pose proof N_pos as NP.
    assert (LI : length row_items = (m * (ns * ns))%nat).
    { unfold row_items, row_steps, packets. now rewrite !prod_length, map_length, !seq_length, steps_m. }
    destruct (schedule_ok image start W schedule F image (fun y => (row_items, start y)) (fun _ => 0%nat)) as (new & rows & E & CN & D).
    { split; [exact C|]. intros y Y. cbn [fst snd skipn firstn foreach]. split; [reflexivity|]. split; [apply O|]. exists image. split; [reflexivity|]. split; [exact C|]. intros j _. reflexivity. }
    destruct (all_lists (fun y bs => (exists st', in_turn seen (map (pair y) (seq 0 m)) (start y) bs st') /\
      forall j p, of_row y j -> nth_error image j = Some p -> exists q b, nth_error new j = Some q /\ nth_error bs (j / 3 / N - y * m) = Some b /\ one_becomes b ((j / 3) mod N)%nat p q) h) as (csss & LC & H).
    { intros y Y. destruct (D y Y) as (_ & _ & own & EO & _ & A). rewrite firstn_all2 in EO by (rewrite LI; specialize (CT y Y); lia).
      destruct (row_alone y image (start y) C (O y) Y) as (bs & new' & st' & E' & T & H). assert (new' = own) by congruence. subst new'. exists bs. split; [now exists st'|].
      intros j p J EP. destruct (H j p J EP) as (q & b & EQ & EB & B). exists q, b. split; [|now split]. rewrite (A j J). exact EQ. }
    exists csss, new. split; [|split; [exact LC|split]].
    - unfold tiled_par_ao. replace (w mod N =? 0)%nat with true by (symmetry; apply Nat.eqb_eq; rewrite Hm; apply Nat.mod_mul; lia).
      replace (w =? 0)%nat with false by (symmetry; apply Nat.eqb_neq; lia).
      replace (length image mod (3 * w) =? 0)%nat with true by (symmetry; apply Nat.eqb_eq; rewrite (proj1 C); replace (3 * (h * w))%nat with (h * (3 * w))%nat by lia; apply Nat.mod_mul; lia).
      cbn [andb negb]. change (row_steps wide ns w) with row_items.
      erewrite foreach_ext; [rewrite E; reflexivity|]. intros y [im rows0] _. unfold par_step. destruct (rows0 y) as [[|[x [u v]] rest] st]; reflexivity.
    - split; [rewrite (proj1 CN), (proj1 C); reflexivity|]. split; [exact (proj2 CN)|]. intros k c cs p q K EC EP EQ.
      assert (LS : Forall (fun l => length l = m) csss).
      { apply Forall_forall. intros l I. apply In_nth_error in I. destruct I as [y I]. destruct (H y l I) as [[st' T] _]. apply in_turn_length in T. now rewrite map_length, seq_length in T. }
      assert (M0 : (0 < m)%nat) by (destruct m; [rewrite Hm in W; cbn in W; lia|lia]).
      rewrite pixels_at, (concat_at_mod m) in EC by assumption. destruct (nth_error csss (k / N / m)) as [bs|] eqn:EY; [|discriminate EC].
      destruct (H _ _ EY) as [_ HJ']. destruct (HJ' (3 * k + c)%nat p) as (q' & b & EQ' & EB & B); [|exact EP|].
      { unfold of_row. rewrite cell_of by exact K. rewrite Nat.div_div, Hm by lia. f_equal. lia. }
      assert (q' = q) by congruence. subst q'. rewrite cell_of in EB, B by exact K.
      replace (k / N - k / N / m * m)%nat with ((k / N) mod m)%nat in EB by (rewrite (Nat.div_mod (k / N) m) at 2 by lia; lia).
      rewrite EB in EC. cbn [option_map] in EC. assert (ECS : cs = map (fun cs => nth (k mod N) cs None) b) by congruence. subst cs. exact (proj2 B).
    - intros y csls EY. exact (proj1 (H y csls EY)).
  Qed.

  (** The schedule does not matter. *)
  Theorem tiled_any_schedule l1 l2 start image : cells_ok image -> (forall y, ok (start y)) -> (0 < w)%nat ->
    (forall l, l = l1 \/ l = l2 -> Forall (fun y => (y < h)%nat) l /\ forall y, (y < h)%nat -> (m * (ns * ns) <= count_occ Nat.eq_dec l y)%nat) ->
    tiled_par_ao wide false X tg junk sc ns w h l1 start image = tiled_par_ao wide false X tg junk sc ns w h l2 start image.
  Proof.
    intros C O W HL. pose proof N_pos as NP.
    assert (LI : length row_items = (m * (ns * ns))%nat).
    { unfold row_items, row_steps, packets. now rewrite !prod_length, map_length, !seq_length, steps_m. }
    assert (G : forall l, l = l1 \/ l = l2 -> exists new, tiled_par_ao wide false X tg junk sc ns w h l start image = Ok new /\ length new = (3 * (h * w))%nat /\
      forall y, (y < h)%nat -> exists own st', foreach row_items (image, start y) (row_body y) = Ok (own, st') /\ agree y new own).
    { intros l Hl. destruct (HL l Hl) as [F CT].
      destruct (schedule_ok image start W l F image (fun y => (row_items, start y)) (fun _ => 0%nat)) as (new & rows & E & CN & D).
      { split; [exact C|]. intros y Y. cbn [fst snd skipn firstn foreach]. split; [reflexivity|]. split; [apply O|]. exists image. split; [reflexivity|]. split; [exact C|]. intros j _. reflexivity. }
      exists new. split; [|split; [exact (proj1 CN)|]].
      - unfold tiled_par_ao. replace (w mod N =? 0)%nat with true by (symmetry; apply Nat.eqb_eq; rewrite Hm; apply Nat.mod_mul; lia).
        replace (w =? 0)%nat with false by (symmetry; apply Nat.eqb_neq; lia).
        replace (length image mod (3 * w) =? 0)%nat with true by (symmetry; apply Nat.eqb_eq; rewrite (proj1 C); replace (3 * (h * w))%nat with (h * (3 * w))%nat by lia; apply Nat.mod_mul; lia).
        cbn [andb negb]. change (row_steps wide ns w) with row_items.
        erewrite foreach_ext; [rewrite E; reflexivity|]. intros y [im rows0] _. unfold par_step. destruct (rows0 y) as [[|[x [u v]] rest] st]; reflexivity.
      - intros y Y. destruct (D y Y) as (_ & _ & own & EO & _ & A). rewrite firstn_all2 in EO by (rewrite LI; specialize (CT y Y); lia). exists own, (snd (rows y)). now split. }
    destruct (G l1) as (n1 & E1 & L1 & H1); [now left|]. destruct (G l2) as (n2 & E2 & L2 & H2); [now right|]. rewrite E1, E2. f_equal.
    apply nth_error_ext; [congruence|]. intros j a b EA EB. assert (J : (j < 3 * (h * w))%nat) by (rewrite <- L1; apply nth_error_Some; congruence).
    assert (Y : (j / 3 / w < h)%nat) by (apply Nat.div_lt_upper_bound; [lia|]; apply Nat.div_lt_upper_bound; lia).
    destruct (H1 _ Y) as (o1 & s1 & F1 & A1). destruct (H2 _ Y) as (o2 & s2 & F2 & A2). assert (o1 = o2) by congruence. subst o2.
    rewrite (A1 j eq_refl) in EA. rewrite (A2 j eq_refl) in EB. congruence.
  Qed.
End Tiled.
