(** Algebraic laws that follow for whole vectors (C04, C05, C08, C09, C12, C14,
    C15, C18). *)
From Coq Require Import ZArith List Bool Lia ZifyBool ZifyNat Arith.
From Verif.Model Require Import Base Llvm Minimal MaskReduce Ops Cmp.
From Verif.Spec Require Import Spec.
From Verif.Proofs Require Import Lib MinimalP OpsP OpsP2 RotateP BytesP MaskReduceP CmpP.
Import ListNotations.
Open Scope Z_scope.

(** Two vectors with equal lane values are equal. *)
Lemma vec_ext t x y :
  is_vector t x -> is_vector t y ->
  (forall i a b, lane x i a -> lane y i b -> a = b) -> x = y.
Proof. intros [Hx _] [Hy _] H. apply nth_error_ext; [congruence|exact H]. Qed.

Lemma is_vector_splat t s : 0 <= s < 2 ^ width t -> is_vector t (splat t s).
Proof. intros H. apply splat_spec; auto. Qed.

Lemma is_vector_ex t v i : is_vector t v -> (i < vn t)%nat -> exists p, lane v i p.
Proof. intros [H _] Hi. apply nth_error_ex. lia. Qed.

Lemma add_eq t x y : integer_type t -> add t x y = map2 (fun p q => wrap (vb t) (p + q)) x y.
Proof. intros [[K _]|[K _]]; unfold add, simd_add, lane_add; rewrite K; reflexivity. Qed.
Lemma sub_eq t x y : integer_type t -> sub t x y = map2 (fun p q => wrap (vb t) (p - q)) x y.
Proof. intros [[K _]|[K _]]; unfold sub, simd_sub, lane_sub; rewrite K; reflexivity. Qed.
Lemma mul_eq t x y : integer_type t -> mul t x y = map2 (fun p q => wrap (vb t) (p * q)) x y.
Proof. intros [[K _]|[K _]]; unfold mul, simd_mul, lane_mul; rewrite K; reflexivity. Qed.

Lemma map2_comm {A C} (f : A -> A -> C) x y : (forall a b, f a b = f b a) -> map2 f x y = map2 f y x.
Proof. intros H. rewrite map2_swap. apply map2_ext. auto. Qed.

Lemma map2_assoc (f : Z -> Z -> Z) x y z :
  (forall a b c, f (f a b) c = f a (f b c)) -> map2 f (map2 f x y) z = map2 f x (map2 f y z).
Proof.
  intros H. revert y z; induction x as [|a x IH]; intros [|b y] [|c z]; cbn; auto.
  rewrite H. f_equal; apply IH.
Qed.

Lemma map2_distr (f g : Z -> Z -> Z) x y z :
  (forall a b c, f a (g b c) = g (f a b) (f a c)) ->
  map2 f x (map2 g y z) = map2 g (map2 f x y) (map2 f x z).
Proof.
  intros H. revert y z; induction x as [|a x IH]; intros [|b y] [|c z]; cbn; auto.
  rewrite H. f_equal; apply IH.
Qed.

Lemma map2_repeat_id (f : Z -> Z -> Z) s x n :
  length x = n -> (forall a, In a x -> f s a = a) -> map2 f (repeat s n) x = x.
Proof.
  intros <-. induction x; cbn; auto. intros H. f_equal; [apply H; auto|].
  apply IHx. intros; apply H; auto.
Qed.

(** ** C04: a commutative ring *)
Theorem integer_ring t x y z :
  integer_type t -> is_vector t x -> is_vector t y -> is_vector t z ->
  add t x y = add t y x /\ add t (add t x y) z = add t x (add t y z) /\
  add t (splat t 0) x = x /\ sub t x x = splat t 0 /\ add t (sub t x y) y = x /\
  mul t x y = mul t y x /\ mul t (mul t x y) z = mul t x (mul t y z) /\
  mul t (splat t 1) x = x /\ mul t (splat t 0) x = splat t 0 /\
  mul t x (add t y z) = add t (mul t x y) (mul t x z).
Proof.
  intros Ht Hx Hy Hz. rewrite ?add_eq, ?sub_eq, ?mul_eq, ?add_eq, ?sub_eq, ?mul_eq by auto.
  assert (M := modulus_pos (vb t)).
  assert (P : forall p, In p x -> pattern (vb t) p).
  { intros p Hp. destruct Hx as [_ F]. rewrite Forall_forall in F. exact (F p Hp). }
  split; [apply map2_comm; intros; f_equal; lia|].
  split; [apply map2_assoc; intros; unfold wrap; rewrite Zplus_mod_idemp_l, Zplus_mod_idemp_r; f_equal; lia|].
  split; [apply map2_repeat_id; [apply Hx|]; intros; rewrite Z.add_0_l; apply wrap_id; auto|].
  split.
  { rewrite map2_diag. unfold splat. destruct Hx as [<- _]. clear. induction x; cbn; auto.
    now rewrite IHx, Z.sub_diag. }
  split.
  { destruct Hx as [Lx _], Hy as [Ly _]. rewrite <- Ly in Lx. clear Ly Hz. revert y Lx P.
    induction x as [|a x IH]; intros [|b y] L P; cbn in *; try lia; auto. f_equal.
    - unfold wrap. rewrite Zplus_mod_idemp_l. replace (a - b + b) with a by lia. apply wrap_id, P; auto.
    - apply IH; auto. }
  split; [apply map2_comm; intros; f_equal; lia|].
  split; [apply map2_assoc; intros; unfold wrap; rewrite Zmult_mod_idemp_l, Zmult_mod_idemp_r; f_equal; lia|].
  split; [apply map2_repeat_id; [apply Hx|]; intros; rewrite Z.mul_1_l; apply wrap_id; auto|].
  split.
  { unfold splat. destruct Hx as [<- _]. clear. induction x; cbn; auto.
    now rewrite IHx. }
  apply map2_distr. intros; unfold wrap.
  rewrite Zmult_mod_idemp_r, Zplus_mod_idemp_l, Zplus_mod_idemp_r. f_equal; lia.
Qed.

(** ** C05: division with remainder *)
Theorem division_identity t x y :
  integer_type t -> is_vector t x -> is_vector t y ->
  (forall i a b, lane x i a -> lane y i b -> ~ bad_division t a b) ->
  exists q r, div t x y = Ok q /\ rem t x y = Ok r /\ add t (mul t q y) r = x.
Proof.
  intros Ht Hx Hy Hd.
  destruct (div_correct t x y Ht Hx Hy Hd) as (q & Eq & Vq & Lq).
  destruct (rem_correct t x y Ht Hx Hy Hd) as (r & Er & Vr & Lr).
  exists q, r. repeat split; auto.
  destruct (mul_wraps t q y Ht Vq Hy) as [Vm Lm].
  destruct (add_wraps t _ r Ht Vm Vr) as [Va La].
  apply (vec_ext t); auto. intros i s a Ls Lx.
  destruct (is_vector_ex t y i) as [b Lb]; auto; [eapply lane_index; eauto|].
  destruct (Lq i a b Lx Lb) as (qi & Lqi & Hq). destruct (Lr i a b Lx Lb) as (ri & Lri & Hr).
  destruct (Lm i qi b Lqi Lb) as (mi & Lmi & Hm). destruct (La i mi ri Lmi Lri) as (si & Lsi & Hs).
  unfold lane in *. assert (s = si) by congruence. subst s.
  apply (value_inj t); eauto using is_vector_lane.
  apply (wraps_to_unique t (value t a)); auto.
  - destruct Hs as [R D]. split; auto. destruct Hm as [_ Dm].
    eapply divide_sub_trans; [|exact D].
    rewrite Hq in Dm. rewrite Hr.
    replace (value t a - (value t mi + Z.rem (value t a) (value t b)))
      with (Z.quot (value t a) (value t b) * value t b - value t mi); auto.
    pose proof (Z.quot_rem' (value t a) (value t b)). nia.
  - split; [apply value_in_range; eauto using is_vector_lane|]. rewrite Z.sub_diag. apply Z.divide_0_r.
Qed.

(** ** C08: Boolean algebra *)
Lemma bits_ext t a b :
  0 <= a < 2 ^ width t -> 0 <= b < 2 ^ width t ->
  (forall j, 0 <= j < width t -> Z.testbit a j = Z.testbit b j) -> a = b.
Proof.
  intros Ha Hb H. apply Z.bits_inj'. intros j Hj.
  destruct (Z.ltb_spec j (width t)); [apply H; lia|].
  rewrite (testbit_pattern_high (vb t) a), (testbit_pattern_high (vb t) b); auto.
Qed.

Theorem bitwise_laws t x y :
  integer_type t -> is_vector t x -> is_vector t y ->
  not t (bitand t x y) = bitor t (not t x) (not t y) /\
  not t (bitor t x y) = bitand t (not t x) (not t y) /\
  not t (not t x) = x /\ bitxor t x x = splat t 0 /\
  bitand t x x = x /\ bitor t x x = x.
Proof.
  intros Ht Hx Hy.
  destruct (bitwise_operators t x y Ht Hx Hy) as ([Va La] & [Vo Lo] & _ & [Vn Ln]).
  destruct (bitwise_operators t y x Ht Hy Hx) as (_ & _ & _ & [Vny Lny]).
  destruct (bitwise_operators t (bitand t x y) x Ht Va Hx) as (_ & _ & _ & [Vna Lna]).
  destruct (bitwise_operators t (bitor t x y) x Ht Vo Hx) as (_ & _ & _ & [Vno Lno]).
  destruct (bitwise_operators t (not t x) (not t y) Ht Vn Vny) as ([Vc Lc] & [Vd Ld] & _ & [Vnn Lnn]).
  destruct (bitwise_operators t x x Ht Hx Hx) as ([Vaa Laa] & [Voo Loo] & [Vx Lx] & _).
  split; [|split; [|split; [|split; [|split]]]].
  - apply (vec_ext t); auto. intros i u v Lu Lv.
    pose proof (lane_index _ _ _ _ Vna Lu) as Hi.
    destruct (is_vector_ex t x i Hx Hi) as [a A]. destruct (is_vector_ex t y i Hy Hi) as [b B].
    destruct (La i a b A B) as (c & C & HC). destruct (Lna i c C) as (c' & C' & HC').
    destruct (Ln i a A) as (na & NA & HNA). destruct (Lny i b B) as (nb & NB & HNB).
    destruct (Ld i na nb NA NB) as (d & D & HD). unfold lane in *.
    assert (u = c') by congruence. assert (v = d) by congruence. subst.
    apply (bits_ext t); [exact (is_vector_lane _ _ _ _ Vna Lu)|exact (is_vector_lane _ _ _ _ Vd Lv)|].
    intros j Hj. rewrite HC', HC, HD, HNA, HNB by auto. apply negb_andb.
  - apply (vec_ext t); auto. intros i u v Lu Lv.
    pose proof (lane_index _ _ _ _ Vno Lu) as Hi.
    destruct (is_vector_ex t x i Hx Hi) as [a A]. destruct (is_vector_ex t y i Hy Hi) as [b B].
    destruct (Lo i a b A B) as (c & C & HC). destruct (Lno i c C) as (c' & C' & HC').
    destruct (Ln i a A) as (na & NA & HNA). destruct (Lny i b B) as (nb & NB & HNB).
    destruct (Lc i na nb NA NB) as (d & D & HD). unfold lane in *.
    assert (u = c') by congruence. assert (v = d) by congruence. subst.
    apply (bits_ext t); [exact (is_vector_lane _ _ _ _ Vno Lu)|exact (is_vector_lane _ _ _ _ Vc Lv)|].
    intros j Hj. rewrite HC', HC, HD, HNA, HNB by auto. apply negb_orb.
  - apply (vec_ext t); auto. intros i u a Lu A.
    destruct (Ln i a A) as (na & NA & HNA). destruct (Lnn i na NA) as (d & D & HD).
    unfold lane in *. assert (u = d) by congruence. subst.
    apply (bits_ext t); [exact (is_vector_lane _ _ _ _ Vnn Lu)|exact (is_vector_lane _ _ _ _ Hx A)|].
    intros j Hj. rewrite HD, HNA by auto. apply negb_involutive.
  - apply (vec_ext t); auto.
    { apply is_vector_splat. pose proof (modulus_pos (vb t)). change (modulus (vb t)) with (2 ^ width t) in *. lia. }
    intros i u v Lu Lv. pose proof (lane_index _ _ _ _ Vx Lu) as Hi.
    destruct (is_vector_ex t x i Hx Hi) as [a A]. destruct (Lx i a a A A) as (d & D & HD).
    unfold lane in *. assert (u = d) by congruence. subst.
    unfold splat in Lv. rewrite nth_error_repeat in Lv by auto. injection Lv as <-.
    apply (bits_ext t); [exact (is_vector_lane _ _ _ _ Vx Lu)| |].
    { pose proof (modulus_pos (vb t)). change (modulus (vb t)) with (2 ^ width t) in *. lia. }
    intros j Hj. rewrite HD, Z.bits_0 by auto. apply xorb_nilpotent.
  - apply (vec_ext t); auto. intros i u a Lu A. destruct (Laa i a a A A) as (d & D & HD).
    unfold lane in *. assert (u = d) by congruence. subst.
    apply (bits_ext t); [exact (is_vector_lane _ _ _ _ Vaa Lu)|exact (is_vector_lane _ _ _ _ Hx A)|].
    intros j Hj. rewrite HD by auto. apply andb_diag.
  - apply (vec_ext t); auto. intros i u a Lu A. destruct (Loo i a a A A) as (d & D & HD).
    unfold lane in *. assert (u = d) by congruence. subst.
    apply (bits_ext t); [exact (is_vector_lane _ _ _ _ Voo Lu)|exact (is_vector_lane _ _ _ _ Hx A)|].
    intros j Hj. rewrite HD by auto. apply orb_diag.
Qed.

(** ** C09 *)
Theorem neg_laws t x :
  signed_type t -> is_vector t x ->
  add t (neg t x) x = splat t 0 /\ neg t (neg t x) = x /\
  (forall i a, lane x i a -> value t a = min_value t ->
     exists c, lane (neg t x) i c /\ value t c = min_value t).
Proof.
  intros Hs Hx. assert (Ht : integer_type t) by (left; auto).
  destruct (neg_wraps t x Hs Hx) as [Vn Ln]. destruct (neg_wraps t _ Hs Vn) as [Vnn Lnn].
  destruct (add_wraps t (neg t x) x Ht Vn Hx) as [Va La].
  assert (Hb : (0 < vb t)%nat) by apply Hs.
  assert (Z0 : 0 <= 0 < 2 ^ width t).
  { pose proof (modulus_pos (vb t)). change (modulus (vb t)) with (2 ^ width t) in *. lia. }
  assert (V0 : value t 0 = 0).
  { unfold value. destruct Hs as [-> _]. pose proof (half_pos _ Hb).
    change (bits (vb t)) with (width t) in *. destruct (Z.ltb_spec 0 (2 ^ (width t - 1))); lia. }
  split; [|split].
  - apply (vec_ext t); auto using is_vector_splat. intros i u v Lu Lv.
    pose proof (lane_index _ _ _ _ Va Lu) as Hi.
    destruct (is_vector_ex t x i Hx Hi) as [a A]. destruct (Ln i a A) as (na & NA & HN).
    destruct (La i na a NA A) as (s & S & HS). unfold lane in *. assert (u = s) by congruence. subst u.
    unfold splat in Lv. rewrite nth_error_repeat in Lv by auto. injection Lv as <-.
    apply (value_inj t); eauto using is_vector_lane. rewrite V0.
    apply (wraps_to_unique t 0); auto.
    + destruct HS as [R D]. split; auto. eapply divide_sub_trans; [|exact D]. destruct HN as [_ DN].
      replace (0 - (value t na + value t a)) with (- value t a - value t na) by lia. auto.
    + split; [rewrite <- V0; apply value_in_range; auto|]. rewrite Z.sub_diag. apply Z.divide_0_r.
  - apply (vec_ext t); auto. intros i u a Lu A.
    destruct (Ln i a A) as (na & NA & [_ DN]). destruct (Lnn i na NA) as (d & D & [RD DD]).
    unfold lane in *. assert (u = d) by congruence. subst u.
    apply (value_inj t); eauto using is_vector_lane.
    apply (wraps_to_unique t (- value t na)); auto; [split; auto|].
    split; [apply value_in_range; eauto using is_vector_lane|].
    replace (- value t na - value t a) with (- value t a - value t na) by lia; auto.
  - intros i a A E. destruct (Ln i a A) as (na & NA & HN). exists na; split; auto.
    eapply (wraps_to_unique t); eauto. rewrite E. split.
    + rewrite <- E. apply value_in_range; eauto using is_vector_lane.
    + unfold min_value. destruct Hs as [-> _].
      pose proof (modulus_half _ Hb) as M. change (modulus (vb t)) with (2 ^ width t) in M.
      change (bits (vb t)) with (width t) in M. exists 1. lia.
Qed.

(** ** C12: rotates are inverse, and periodic *)
Theorem rotate_laws t x n :
  unsigned_type t -> is_vector t x -> is_vector t n ->
  (exists r, rotate_left t x n = Ok r /\ rotate_right t r n = Ok x) /\
  (exists r, rotate_right t x n = Ok r /\ rotate_left t r n = Ok x) /\
  (forall k, (forall i q, lane n i q -> q = k * width t) ->
     rotate_left t x n = Ok x /\ rotate_right t x n = Ok x).
Proof.
  intros Hu Hx Hn. destruct (unsigned_rotates t x n Hu Hx Hn) as [(l & El & Vl & Ll) (r & Er & Vr & Lr)].
  destruct (unsigned_rotates t l n Hu Vl Hn) as [_ (lr & Elr & Vlr & Llr)].
  destruct (unsigned_rotates t r n Hu Vr Hn) as [(rl & Erl & Vrl & Lrl) _].
  assert (W : 0 < width t) by (destruct Hu as [_ [? _]]; unfold width; lia).
  split; [exists l; split; auto|split; [exists r; split; auto|]].
  - rewrite Elr. f_equal. apply (vec_ext t); auto. intros i u a Lu A.
    pose proof (lane_index _ _ _ _ Hx A) as Hi. destruct (is_vector_ex t n i Hn Hi) as [q Q].
    destruct (Ll i a q A Q) as (c & C & HC). destruct (Llr i c q C Q) as (d & D & HD).
    unfold lane in *. assert (u = d) by congruence. subst u.
    apply (bits_ext t); [exact (is_vector_lane _ _ _ _ Vlr D)|exact (is_vector_lane _ _ _ _ Hx A)|].
    intros j Hj. rewrite HD by auto. rewrite HC by (apply Z.mod_pos_bound; lia).
    f_equal. rewrite Zminus_mod_idemp_l. replace (j + q - q) with j by lia. apply Z.mod_small; lia.
  - rewrite Erl. f_equal. apply (vec_ext t); auto. intros i u a Lu A.
    pose proof (lane_index _ _ _ _ Hx A) as Hi. destruct (is_vector_ex t n i Hn Hi) as [q Q].
    destruct (Lr i a q A Q) as (c & C & HC). destruct (Lrl i c q C Q) as (d & D & HD).
    unfold lane in *. assert (u = d) by congruence. subst u.
    apply (bits_ext t); [exact (is_vector_lane _ _ _ _ Vrl D)|exact (is_vector_lane _ _ _ _ Hx A)|].
    intros j Hj. rewrite HD by auto. rewrite HC by (apply Z.mod_pos_bound; lia).
    f_equal. rewrite Zplus_mod_idemp_l. replace (j - q + q) with j by lia. apply Z.mod_small; lia.
  - intros k Hk. rewrite El, Er. split; f_equal; apply (vec_ext t); auto; intros i u a Lu A;
      pose proof (lane_index _ _ _ _ Hx A) as Hi; destruct (is_vector_ex t n i Hn Hi) as [q Q].
    + destruct (Ll i a q A Q) as (c & C & HC). unfold lane in *. assert (u = c) by congruence. subst u.
      apply (bits_ext t); [exact (is_vector_lane _ _ _ _ Vl C)|exact (is_vector_lane _ _ _ _ Hx A)|].
      intros j Hj. rewrite HC by auto. f_equal. rewrite (Hk i q Q).
      replace (j - k * width t) with (j + (- k) * width t) by lia. rewrite Z_mod_plus_full. apply Z.mod_small; lia.
    + destruct (Lr i a q A Q) as (c & C & HC). unfold lane in *. assert (u = c) by congruence. subst u.
      apply (bits_ext t); [exact (is_vector_lane _ _ _ _ Vr C)|exact (is_vector_lane _ _ _ _ Hx A)|].
      intros j Hj. rewrite HC by auto. f_equal. rewrite (Hk i q Q).
      rewrite Z_mod_plus_full. apply Z.mod_small; lia.
Qed.

(** ** C14: lattice laws *)
Definition vmin' t x y := match vmin t x y with Ok r => r | _ => [] end.
Definition vmax' t x y := match vmax t x y with Ok r => r | _ => [] end.

Lemma vmin_ok t x y : integer_type t -> is_vector t x -> is_vector t y ->
  vmin t x y = Ok (vmin' t x y) /\ is_vector t (vmin' t x y) /\
  forall i a b c, lane x i a -> lane y i b -> lane (vmin' t x y) i c -> value t c = Z.min (value t a) (value t b).
Proof.
  intros Ht Hx Hy. destruct (integer_min_max t x y Ht Hx Hy) as [(r & E & V & L) _].
  unfold vmin'. rewrite E. split; auto. split; auto. intros i a b c A B C.
  destruct (L i a b A B) as (c' & C' & ?). unfold lane in *. now assert (c = c') by congruence; subst.
Qed.
Lemma vmax_ok t x y : integer_type t -> is_vector t x -> is_vector t y ->
  vmax t x y = Ok (vmax' t x y) /\ is_vector t (vmax' t x y) /\
  forall i a b c, lane x i a -> lane y i b -> lane (vmax' t x y) i c -> value t c = Z.max (value t a) (value t b).
Proof.
  intros Ht Hx Hy. destruct (integer_min_max t x y Ht Hx Hy) as [_ (r & E & V & L)].
  unfold vmax'. rewrite E. split; auto. split; auto. intros i a b c A B C.
  destruct (L i a b A B) as (c' & C' & ?). unfold lane in *. now assert (c = c') by congruence; subst.
Qed.

Theorem min_max_laws t x y z :
  integer_type t -> is_vector t x -> is_vector t y -> is_vector t z ->
  vmin t x x = Ok x /\ vmax t x x = Ok x /\
  vmin t x y = vmin t y x /\ vmax t x y = vmax t y x /\
  (exists xy yz, vmin t x y = Ok xy /\ vmin t y z = Ok yz /\ vmin t xy z = vmin t x yz) /\
  (exists xy yz, vmax t x y = Ok xy /\ vmax t y z = Ok yz /\ vmax t xy z = vmax t x yz) /\
  (exists m, vmax t x y = Ok m /\ vmin t x m = Ok x) /\
  (exists m, vmin t x y = Ok m /\ vmax t x m = Ok x).
Proof.
  intros Ht Hx Hy Hz.
  assert (X : forall u v, is_vector t u -> is_vector t v ->
    (forall i a b, (i < vn t)%nat -> lane u i a -> lane v i b -> value t a = value t b) -> u = v).
  { intros u v Hu Hv H. apply (vec_ext t); auto. intros i a b A B.
    apply (value_inj t); eauto using is_vector_lane. apply (H i); auto. eapply lane_index; eauto. }
  assert (G : forall v i, is_vector t v -> (i < vn t)%nat -> exists p, lane v i p) by (intros; apply (is_vector_ex t); auto).
  split; [|split; [|split; [|split; [|split; [|split; [|split]]]]]].
  - destruct (vmin_ok t x x Ht Hx Hx) as (-> & V & L). f_equal. apply X; auto. intros i a b _ A B.
    rewrite (L i b b a B B A). lia.
  - destruct (vmax_ok t x x Ht Hx Hx) as (-> & V & L). f_equal. apply X; auto. intros i a b _ A B.
    rewrite (L i b b a B B A). lia.
  - destruct (vmin_ok t x y Ht Hx Hy) as (-> & V & L). destruct (vmin_ok t y x Ht Hy Hx) as (-> & V' & L').
    f_equal. apply X; auto. intros i a b Hi A B. destruct (G x i Hx Hi) as [p P]. destruct (G y i Hy Hi) as [q Q].
    rewrite (L i p q a P Q A), (L' i q p b Q P B). lia.
  - destruct (vmax_ok t x y Ht Hx Hy) as (-> & V & L). destruct (vmax_ok t y x Ht Hy Hx) as (-> & V' & L').
    f_equal. apply X; auto. intros i a b Hi A B. destruct (G x i Hx Hi) as [p P]. destruct (G y i Hy Hi) as [q Q].
    rewrite (L i p q a P Q A), (L' i q p b Q P B). lia.
  - destruct (vmin_ok t x y Ht Hx Hy) as (E & V & L). destruct (vmin_ok t y z Ht Hy Hz) as (E' & V' & L').
    exists (vmin' t x y), (vmin' t y z). split; auto. split; auto.
    destruct (vmin_ok t (vmin' t x y) z Ht V Hz) as (-> & V2 & L2).
    destruct (vmin_ok t x (vmin' t y z) Ht Hx V') as (-> & V3 & L3).
    f_equal. apply X; auto. intros i a b Hi A B.
    destruct (G x i Hx Hi) as [p P]. destruct (G y i Hy Hi) as [q Q]. destruct (G z i Hz Hi) as [r R].
    destruct (G _ i V Hi) as [s S]. destruct (G _ i V' Hi) as [u U].
    rewrite (L2 i s r a S R A), (L3 i p u b P U B), (L i p q s P Q S), (L' i q r u Q R U). lia.
  - destruct (vmax_ok t x y Ht Hx Hy) as (E & V & L). destruct (vmax_ok t y z Ht Hy Hz) as (E' & V' & L').
    exists (vmax' t x y), (vmax' t y z). split; auto. split; auto.
    destruct (vmax_ok t (vmax' t x y) z Ht V Hz) as (-> & V2 & L2).
    destruct (vmax_ok t x (vmax' t y z) Ht Hx V') as (-> & V3 & L3).
    f_equal. apply X; auto. intros i a b Hi A B.
    destruct (G x i Hx Hi) as [p P]. destruct (G y i Hy Hi) as [q Q]. destruct (G z i Hz Hi) as [r R].
    destruct (G _ i V Hi) as [s S]. destruct (G _ i V' Hi) as [u U].
    rewrite (L2 i s r a S R A), (L3 i p u b P U B), (L i p q s P Q S), (L' i q r u Q R U). lia.
  - destruct (vmax_ok t x y Ht Hx Hy) as (E & V & L). exists (vmax' t x y). split; auto.
    destruct (vmin_ok t x (vmax' t x y) Ht Hx V) as (-> & V2 & L2). f_equal. apply X; auto.
    intros i a b Hi A B. destruct (G y i Hy Hi) as [q Q]. destruct (G _ i V Hi) as [s S].
    rewrite (L2 i b s a B S A), (L i b q s B Q S). lia.
  - destruct (vmin_ok t x y Ht Hx Hy) as (E & V & L). exists (vmin' t x y). split; auto.
    destruct (vmax_ok t x (vmin' t x y) Ht Hx V) as (-> & V2 & L2). f_equal. apply X; auto.
    intros i a b Hi A B. destruct (G y i Hy Hi) as [q Q]. destruct (G _ i V Hi) as [s S].
    rewrite (L2 i b s a B S A), (L i b q s B Q S). lia.
Qed.

(** ** C15: complementary comparisons *)
Theorem comparisons_complementary t x y :
  ordered_type t -> valid t x -> valid t y ->
  mask_not (mask_of t) (vlt t x y) = vge t x y /\
  mask_not (mask_of t) (vgt t x y) = vle t x y /\
  mask_not (mask_of t) (veq t x y) = vne t x y.
Proof.
  intros Ht Hx Hy.
  rewrite veq_key, vne_key, vlt_key, vle_key, vgt_key, vge_key by auto.
  assert (Hb := ordered_b t Ht).
  destruct Hx as [Hx _], Hy as [Hy _].
  assert (Tm : mask_type (mask_of t)) by (split; [reflexivity|exact (ordered_vt t Ht)]).
  assert (G : forall R S, (forall a b, S a b = negb (R a b)) ->
     mask_not (mask_of t) (by_key t R x y) = by_key t S x y).
  { intros R S HRS. pose proof (by_key_canonical t R x y Hx Hy) as C.
    destruct (mask_operators (mask_of t) _ _ Tm C C) as (_ & _ & _ & [Cn Ln]).
    apply (vec_ext (mask_of t)); [now apply canonical_vector|now apply canonical_vector, by_key_canonical|].
    intros i u v Lu Lv.
    assert (Hi : (i < vn t)%nat).
    { apply (lane_index (mask_of t) _ _ _ (canonical_vector _ _ Cn) Lu). }
    destruct (is_vector_ex t x i Hx Hi) as [a A]. destruct (is_vector_ex t y i Hy Hi) as [b B].
    specialize (Ln i _ (by_key_lane t R x y i a b A B)).
    pose proof (by_key_lane t S x y i a b A B) as LS. rewrite HRS in LS. unfold lane in *. congruence. }
  split; [|split]; apply G; intros; lia.
Qed.

(** ** C18 *)
Theorem select_not tm t m x y :
  mask_type tm -> vector_type t -> vn tm = vn t -> canonical tm m -> is_vector t x -> is_vector t y ->
  select tm (mask_not tm m) x y = select tm m y x.
Proof.
  intros Hm Ht Hn Hc Hx Hy.
  destruct (mask_operators tm m m Hm Hc Hc) as (_ & _ & _ & [Cn Ln]).
  destruct (select_picks tm t _ x y Hm Ht Hn Cn Hx Hy) as (r & -> & Vr & Lr).
  destruct (select_picks tm t m y x Hm Ht Hn Hc Hy Hx) as (s & -> & Vs & Ls).
  f_equal. apply (vec_ext t); auto. intros i u v Lu Lv.
  pose proof (lane_index _ _ _ _ Vr Lu) as Hi.
  destruct (is_vector_ex t x i Hx Hi) as [a A]. destruct (is_vector_ex t y i Hy Hi) as [b B].
  destruct (is_vector_ex tm m i (canonical_vector _ _ Hc)) as [c C]; [lia|].
  rewrite (canonical_lane _ _ _ _ Hc C) in C. specialize (Ln i _ C).
  specialize (Lr i _ a b Ln A B). specialize (Ls i _ b a C B A).
  unfold lane in *. rewrite Lu in Lr. rewrite Lv in Ls. destruct (truth c); cbn in *; congruence.
Qed.
