(** Slices (C02, C03). *)
From Coq Require Import ZArith List Bool Lia ZifyBool ZifyNat Arith.
From Verif.Model Require Import Base Bytes Minimal Slice.
From Verif.Spec Require Import Spec Memory.
From Verif.Proofs Require Import Lib BytesP.
Import ListNotations.
Open Scope Z_scope.

Lemma nth_error_le_bytes b p k :
  (k < b)%nat -> nth_error (le_bytes b p) k = Some ((p / 256 ^ Z.of_nat k) mod 256).
Proof.
  revert p k; induction b; intros p [|k] H; try lia.
  - cbn [le_bytes nth_error]. change (256 ^ Z.of_nat 0) with 1. now rewrite Z.div_1_r.
  - cbn [le_bytes nth_error]. rewrite IHb by lia. do 2 f_equal.
    rewrite Zdiv_Zdiv by (try apply Z.pow_nonneg; lia). f_equal.
    rewrite Nat2Z.inj_succ, Z.pow_succ_r by lia. reflexivity.
Qed.

Lemma nth_error_rev {A} (l : list A) k :
  (k < length l)%nat -> nth_error (rev l) k = nth_error l (length l - 1 - k).
Proof.
  intros H. destruct (nth_error l (length l - 1 - k)) as [x|] eqn:E.
  - rewrite nth_error_nth' with (d := x) by (rewrite rev_length; lia). f_equal.
    rewrite rev_nth by lia. apply nth_error_nth with (d := x) in E.
    replace (length l - S k)%nat with (length l - 1 - k)%nat by lia. exact E.
  - apply nth_error_None in E. lia.
Qed.

Lemma nth_error_lane_bytes be b p k :
  (k < b)%nat -> nth_error (lane_bytes be b p) k = Some (byte_of be b p k).
Proof.
  intros H. unfold lane_bytes, byte_of. destruct be; [|now apply nth_error_le_bytes].
  rewrite nth_error_rev by (now rewrite le_bytes_length).
  rewrite le_bytes_length. apply nth_error_le_bytes. lia.
Qed.

Lemma nth_error_image be b v i p k :
  nth_error v i = Some p -> (k < b)%nat ->
  nth_error (image be b v) (b * i + k) = Some (byte_of be b p k).
Proof.
  revert i; induction v as [|q v IH]; intros [|i] H Hk; cbn [nth_error image flat_map] in *; try discriminate.
  - injection H as ->. rewrite nth_error_app1 by (rewrite lane_bytes_length; lia).
    replace (b * 0 + k)%nat with k by lia. now apply nth_error_lane_bytes.
  - rewrite nth_error_app2 by (rewrite lane_bytes_length; lia). rewrite lane_bytes_length.
    replace (b * S i + k - b)%nat with (b * i + k)%nat by lia. now apply IH.
Qed.

(** ** Raw loads and stores *)
Lemma load_bytes_ok m a l :
  (forall k x, nth_error l k = Some x -> m (a + Z.of_nat k) = Some x) ->
  load_bytes m a (length l) = Ok l.
Proof.
  revert a; induction l as [|x l IH]; intros a H; cbn [load_bytes length]; auto.
  specialize (H 0%nat x eq_refl) as H0. cbn in H0. rewrite Z.add_0_r in H0. rewrite H0.
  rewrite IH; auto. intros k y Hk. replace (a + 1 + Z.of_nat k) with (a + Z.of_nat (S k)) by lia.
  apply H; auto.
Qed.

Lemma load_bytes_agree m m' a n :
  (forall a', a <= a' < a + Z.of_nat n -> m a' = m' a') -> load_bytes m a n = load_bytes m' a n.
Proof.
  revert a; induction n; intros a H; cbn [load_bytes]; auto.
  rewrite (H a) by lia. destruct (m' a); auto. rewrite (IHn (a + 1)); auto. intros; apply H; lia.
Qed.

Lemma load_bytes_access m a n :
  (forall a', a <= a' < a + Z.of_nat n -> m a' <> None) ->
  exists l, load_bytes m a n = Ok l /\ length l = n.
Proof.
  revert a; induction n; intros a H; cbn [load_bytes]; [exists []; auto|].
  destruct (m a) eqn:E; [|exfalso; apply (H a); auto; lia].
  destruct (IHn (a + 1)) as (l & -> & L); [intros; apply H; lia|]. exists (z :: l); cbn; auto.
Qed.

Lemma store_bytes_ok l : forall m a,
  (forall a', a <= a' < a + Z.of_nat (length l) -> m a' <> None) ->
  exists m', store_bytes m a l = Ok m' /\
    (forall k x, nth_error l k = Some x -> m' (a + Z.of_nat k) = Some x) /\
    (forall a', ~ (a <= a' < a + Z.of_nat (length l)) -> m' a' = m a').
Proof.
  induction l as [|x l IH]; intros m a H; cbn [store_bytes length] in *.
  - exists m. split; auto. split; auto. intros [|k] x; discriminate.
  - destruct (m a) eqn:E; [|exfalso; apply (H a); auto; lia].
    destruct (IH (set_byte m a x) (a + 1)) as (m' & E' & L & F).
    { intros a' Ha'. unfold set_byte. destruct (Z.eqb_spec a' a); [discriminate|]. apply H; lia. }
    exists m'. split; auto. split.
    + intros [|k] y Hy; cbn in Hy.
      * injection Hy as ->. rewrite F by lia. unfold set_byte. destruct (Z.eqb_spec (a + Z.of_nat 0) a); auto; lia.
      * replace (a + Z.of_nat (S k)) with (a + 1 + Z.of_nat k) by lia. auto.
    + intros a' Ha'. rewrite F by lia. unfold set_byte. destruct (Z.eqb_spec a' a); auto; lia.
Qed.

(** ** Arrays in memory *)
Lemma nth_error_image_split be b v k x :
  nth_error (image be b v) k = Some x ->
  exists i j p, k = (b * i + j)%nat /\ (j < b)%nat /\ nth_error v i = Some p /\ x = byte_of be b p j.
Proof.
  intros H. assert (L := nth_error_lt _ _ _ H). rewrite image_length in L.
  assert (b <> 0)%nat by lia.
  exists (k / b)%nat, (k mod b)%nat.
  assert (Hi : (k / b < length v)%nat) by (apply Nat.div_lt_upper_bound; auto).
  destruct (nth_error_ex v (k / b) Hi) as [p Hp]. exists p.
  assert (D := Nat.div_mod k b H0). assert (B := Nat.mod_upper_bound k b H0).
  split; auto. split; auto. split; auto.
  rewrite D in H. rewrite (nth_error_image be b v _ p _ Hp B) in H. congruence.
Qed.

Lemma array_load be b m base xs :
  array_at be b m base xs -> load_bytes m base (b * length xs) = Ok (image be b xs).
Proof.
  intros H. rewrite <- (image_length be b xs). apply load_bytes_ok.
  intros k x Hk. apply nth_error_image_split in Hk as (i & j & p & -> & Hj & Hp & ->).
  specialize (H i p Hp j Hj). unfold elem_addr in H. rewrite <- H. f_equal. lia.
Qed.

Lemma nth_error_firstn' {A} (l : list A) n i : (i < n)%nat -> nth_error (firstn n l) i = nth_error l i.
Proof.
  revert l i; induction n; intros [|x l] [|i] H; cbn; auto; try lia. apply IHn; lia.
Qed.

Lemma array_firstn be b m base n xs : array_at be b m base xs -> array_at be b m base (firstn n xs).
Proof.
  intros H i p Hp. apply H. assert (L := nth_error_lt _ _ _ Hp). rewrite firstn_length in L.
  rewrite nth_error_firstn' in Hp by lia. auto.
Qed.

Lemma load_elements be t m s xs :
  vector_type t -> (vn t <= length xs)%nat -> Forall (fun p => 0 <= p < 2 ^ width t) xs ->
  array_at be (vb t) m (s_ptr s) (firstn (vn t) xs) ->
  load_bytes m (s_ptr s) (size_of t) = Ok (image be (vb t) (firstn (vn t) xs)) /\
  of_image be (vb t) (vn t) (image be (vb t) (firstn (vn t) xs)) = firstn (vn t) xs /\
  is_vector t (firstn (vn t) xs).
Proof.
  intros Ht Hn Hp H. assert (L : length (firstn (vn t) xs) = vn t) by (rewrite firstn_length; lia).
  assert (V : is_vector t (firstn (vn t) xs)) by (split; [auto|now apply Forall_firstn']).
  split; [|split]; auto.
  - unfold size_of. rewrite <- L at 1. now apply array_load.
  - apply of_image_image. now apply is_vector_wf.
Qed.

(** ** C02 *)
Theorem slice_read be dbg t al m s xs :
  vector_type t -> 0 < al -> length xs = s_len s ->
  Forall (fun p => 0 <= p < 2 ^ width t) xs ->
  array_at be (vb t) m (s_ptr s) xs ->
  ((s_len s < vn t)%nat ->
     from_slice_unaligned be dbg t m s = Panic /\ from_slice_aligned be dbg t al m s = Panic) /\
  ((vn t <= s_len s)%nat ->
     exists v, from_slice_unaligned be dbg t m s = Ok v /\
       from_slice_unaligned_unchecked be dbg t m s = Ok v /\
       (~ (al | s_ptr s) -> from_slice_aligned be dbg t al m s = Panic) /\
       ((al | s_ptr s) -> from_slice_aligned be dbg t al m s = Ok v /\
                          from_slice_aligned_unchecked be dbg t al m s = Ok v) /\
       is_vector t v /\ forall i p, (i < vn t)%nat -> (lane v i p <-> nth_error xs i = Some p)).
Proof.
  intros Ht Ha Hl Hp H. unfold from_slice_unaligned, from_slice_aligned, long_enough. split.
  - intros Hn. destruct (Nat.leb_spec (vn t) (s_len s)); [lia|]. auto.
  - intros Hn. destruct (load_elements be t m s xs Ht) as (E & O & V); auto; [lia|now apply array_firstn|].
    exists (firstn (vn t) xs).
    unfold from_slice_aligned_unchecked, from_slice_unaligned_unchecked, deref_vec, long_enough, debug_assert.
    destruct (Nat.leb_spec (vn t) (s_len s)) as [_|]; [|lia]. rewrite orb_true_r. cbn [assert bind].
    rewrite E. cbn [bind]. rewrite O.
    split; auto. split; auto. split; [|split; [|split; auto]].
    + intros D. unfold aligned. destruct (Z.eqb_spec (s_ptr s mod al) 0) as [M|M]; auto.
      exfalso. apply D. apply Z.mod_divide; lia.
    + intros D. unfold aligned. destruct (Z.eqb_spec (s_ptr s mod al) 0) as [M|M].
      * rewrite orb_true_r. cbn [assert bind]. auto.
      * exfalso. apply M. apply Z.mod_divide; auto; lia.
    + intros i p Hi. unfold lane. now rewrite nth_error_firstn'.
Qed.

Theorem slice_read_bounded be dbg t al m m' s :
  (forall a, in_first (vb t) (vn t) (s_ptr s) a -> m a = m' a) ->
  from_slice_unaligned be dbg t m s = from_slice_unaligned be dbg t m' s /\
  from_slice_aligned be dbg t al m s = from_slice_aligned be dbg t al m' s.
Proof.
  intros H. unfold from_slice_unaligned, from_slice_aligned, from_slice_aligned_unchecked,
    from_slice_unaligned_unchecked, deref_vec.
  now rewrite (load_bytes_agree m m' (s_ptr s) (size_of t)).
Qed.

(** ** C03 *)
Lemma store_vector be t v m base :
  is_vector t v -> accessible (vb t) (vn t) m base ->
  exists m', store_bytes m base (image be (vb t) v) = Ok m' /\
    array_at be (vb t) m' base v /\
    (forall a, ~ in_first (vb t) (vn t) base a -> m' a = m a).
Proof.
  intros Hv Hm. assert (L : length (image be (vb t) v) = (vb t * vn t)%nat).
  { rewrite image_length. destruct Hv as [-> _]. auto. }
  destruct (store_bytes_ok (image be (vb t) v) m base) as (m' & E & S & F).
  { intros a Ha. apply Hm. unfold in_first. lia. }
  exists m'. split; auto. split.
  - intros i p Hp k Hk. pose proof (nth_error_image be (vb t) v i p k Hp Hk) as N.
    apply S in N. unfold elem_addr. rewrite <- N. f_equal. lia.
  - intros a Ha. apply F. unfold in_first in Ha. lia.
Qed.

Theorem slice_write be dbg t al v m s :
  vector_type t -> 0 < al -> is_vector t v ->
  accessible (vb t) (s_len s) m (s_ptr s) ->
  ((s_len s < vn t)%nat ->
     write_to_slice_unaligned be dbg t v m s = (m, Panic) /\
     write_to_slice_aligned be dbg t al v m s = (m, Panic)) /\
  ((vn t <= s_len s)%nat ->
     exists m', write_to_slice_unaligned be dbg t v m s = (m', Ok tt) /\
       write_to_slice_unaligned_unchecked be dbg t v m s = (m', Ok tt) /\
       (~ (al | s_ptr s) -> write_to_slice_aligned be dbg t al v m s = (m, Panic)) /\
       ((al | s_ptr s) -> write_to_slice_aligned be dbg t al v m s = (m', Ok tt) /\
                          write_to_slice_aligned_unchecked be dbg t al v m s = (m', Ok tt)) /\
       array_at be (vb t) m' (s_ptr s) v /\
       (forall a, ~ in_first (vb t) (vn t) (s_ptr s) a -> m' a = m a)).
Proof.
  intros Ht Ha Hv Hm. unfold write_to_slice_unaligned, write_to_slice_aligned, long_enough. split.
  - intros Hn. destruct (Nat.leb_spec (vn t) (s_len s)); [lia|]. auto.
  - intros Hn. destruct (store_vector be t v m (s_ptr s) Hv) as (m' & E & A & F).
    { intros a Hin. apply Hm. unfold in_first in *. nia. }
    exists m'. unfold write_to_slice_unaligned_unchecked, write_to_slice_aligned_unchecked,
      edebug_assert, eassert, estore, long_enough.
    destruct (Nat.leb_spec (vn t) (s_len s)) as [_|]; [|lia]. rewrite orb_true_r, E.
    split; auto. split; auto. split; [|split; [|split; auto]].
    + intros D. unfold aligned. destruct (Z.eqb_spec (s_ptr s mod al) 0) as [M|M]; auto.
      exfalso. apply D. apply Z.mod_divide; lia.
    + intros D. unfold aligned. destruct (Z.eqb_spec (s_ptr s mod al) 0) as [M|M].
      * rewrite orb_true_r. auto.
      * exfalso. apply M. apply Z.mod_divide; auto; lia.
Qed.

Theorem slice_round_trip be dbg t v m s m' :
  vector_type t -> is_vector t v -> accessible (vb t) (s_len s) m (s_ptr s) ->
  (vn t <= s_len s)%nat -> write_to_slice_unaligned be dbg t v m s = (m', Ok tt) ->
  from_slice_unaligned be dbg t m' s = Ok v.
Proof.
  intros Ht Hv Hm Hn E.
  destruct (slice_write be dbg t 1 v m s Ht ltac:(lia) Hv Hm) as [_ W].
  destruct (W Hn) as (m2 & E2 & _ & _ & _ & A & _). rewrite E in E2. injection E2 as <-.
  assert (L := is_vector_length _ _ Hv).
  destruct (load_elements be t m' s v Ht) as (E1 & O & _); auto; [lia|apply Hv|now apply array_firstn|].
  unfold from_slice_unaligned, from_slice_unaligned_unchecked, long_enough, debug_assert.
  destruct (Nat.leb_spec (vn t) (s_len s)) as [_|]; [|lia]. rewrite orb_true_r. cbn [assert bind].
  rewrite E1. cbn [bind]. rewrite O. f_equal. rewrite <- L. apply firstn_all.
Qed.
