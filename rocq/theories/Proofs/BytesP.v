(** Byte images and transmutes. *)
From Coq Require Import ZArith List Bool Lia ZifyBool ZifyNat Arith.
From Verif.Model Require Import Base Bytes.
From Verif.Spec Require Import Spec.
From Verif.Proofs Require Import Lib.
Import ListNotations.
Open Scope Z_scope.

Definition byte (x : Z) : Prop := 0 <= x < 256.

Lemma modulus_S b : modulus (S b) = 256 * modulus b.
Proof.
  unfold modulus, bits. replace (8 * Z.of_nat (S b)) with (8 + 8 * Z.of_nat b) by lia.
  rewrite Z.pow_add_r by lia. reflexivity.
Qed.

Lemma modulus_0 : modulus 0 = 1.
Proof. reflexivity. Qed.

Lemma le_bytes_length b p : length (le_bytes b p) = b.
Proof. revert p; induction b; intros; cbn [le_bytes length]; auto. Qed.

Lemma le_bytes_byte b p : Forall byte (le_bytes b p).
Proof.
  revert p; induction b; intros; cbn [le_bytes]; constructor; auto.
  unfold byte; apply Z.mod_pos_bound; lia.
Qed.

Lemma le_value_le_bytes b p : pattern b p -> le_value (le_bytes b p) = p.
Proof.
  unfold pattern. revert p; induction b; intros p H.
  - rewrite modulus_0 in H. cbn. lia.
  - rewrite modulus_S in H. cbn [le_bytes le_value]. rewrite IHb.
    + pose proof (Z.div_mod p 256). lia.
    + split; [apply Z.div_pos; lia|]. apply Z.div_lt_upper_bound; lia.
Qed.

Lemma le_value_pattern l : Forall byte l -> pattern (length l) (le_value l).
Proof.
  unfold pattern. induction 1; cbn [length le_value].
  - rewrite modulus_0; lia.
  - rewrite modulus_S. unfold byte in H. lia.
Qed.

Lemma le_bytes_le_value l : Forall byte l -> le_bytes (length l) (le_value l) = l.
Proof.
  induction 1; cbn [length le_value le_bytes]; auto. unfold byte in H.
  replace ((x + 256 * le_value l) mod 256) with x
    by (apply Z.mod_unique with (le_value l); lia).
  replace ((x + 256 * le_value l) / 256) with (le_value l)
    by (apply Z.div_unique with x; lia).
  now rewrite IHForall.
Qed.

Lemma lane_bytes_length be b p : length (lane_bytes be b p) = b.
Proof. destruct be; cbn; rewrite ?rev_length; apply le_bytes_length. Qed.

Lemma lane_bytes_byte be b p : Forall byte (lane_bytes be b p).
Proof. destruct be; cbn [lane_bytes]; [apply Forall_rev|]; apply le_bytes_byte. Qed.

Lemma lane_value_bytes be b p : pattern b p -> lane_value be (lane_bytes be b p) = p.
Proof.
  intros; destruct be; cbn [lane_bytes lane_value]; rewrite ?rev_involutive; now apply le_value_le_bytes.
Qed.

Lemma lane_value_pattern be l : Forall byte l -> pattern (length l) (lane_value be l).
Proof.
  intros; destruct be; cbn [lane_value].
  - rewrite <- rev_length. apply le_value_pattern, Forall_rev; auto.
  - now apply le_value_pattern.
Qed.

Lemma lane_bytes_value be l : Forall byte l -> lane_bytes be (length l) (lane_value be l) = l.
Proof.
  intros; destruct be; cbn [lane_value lane_bytes].
  - rewrite <- rev_length, le_bytes_le_value, rev_involutive; auto using Forall_rev.
  - now apply le_bytes_le_value.
Qed.

Lemma lane_value_inj be l r :
  Forall byte l -> Forall byte r -> length l = length r ->
  lane_value be l = lane_value be r -> l = r.
Proof.
  intros Hl Hr Hn E. rewrite <- (lane_bytes_value be l), <- (lane_bytes_value be r) by auto.
  now rewrite E, Hn.
Qed.

Lemma image_length be b v : length (image be b v) = (b * length v)%nat.
Proof.
  induction v; cbn [image flat_map length]; [lia|].
  rewrite app_length, lane_bytes_length. unfold image in IHv. rewrite IHv. lia.
Qed.

Lemma image_byte be b v : Forall byte (image be b v).
Proof.
  unfold image. induction v; cbn [flat_map]; [constructor|]. apply Forall_app; split; auto. apply lane_bytes_byte.
Qed.

Lemma image_app be b v w : image be b (v ++ w) = image be b v ++ image be b w.
Proof. apply flat_map_app. Qed.

Lemma groups_length n b l : length (groups n b l) = n.
Proof. revert l; induction n; intros; cbn [groups length]; auto. Qed.

Lemma groups_image be b v : groups (length v) b (image be b v) = map (lane_bytes be b) v.
Proof.
  induction v; cbn [length groups image flat_map map]; auto.
  rewrite firstn_app, lane_bytes_length, Nat.sub_diag, firstn_O, app_nil_r.
  rewrite firstn_all2 by (rewrite lane_bytes_length; lia).
  rewrite skipn_app, lane_bytes_length, Nat.sub_diag, skipn_O.
  rewrite skipn_all2 by (rewrite lane_bytes_length; lia). cbn [app].
  f_equal; auto.
Qed.

Lemma of_image_image be b n v :
  wf b n v -> of_image be b n (image be b v) = v.
Proof.
  intros [Hl Hv]. unfold of_image. rewrite <- Hl, groups_image, map_map.
  rewrite <- (map_id v) at 2. apply map_ext_in. intros p Hp.
  rewrite Forall_forall in Hv. now apply lane_value_bytes, Hv.
Qed.

Lemma groups_concat n b l : length l = (n * b)%nat -> concat (groups n b l) = l.
Proof.
  revert l; induction n; intros l H; cbn [groups concat].
  - destruct l; auto; discriminate.
  - rewrite IHn; [apply firstn_skipn|]. rewrite skipn_length. lia.
Qed.

Lemma groups_lengths n b l :
  length l = (n * b)%nat -> Forall (fun g => length g = b) (groups n b l).
Proof.
  revert l; induction n; intros l H; cbn [groups]; constructor.
  - rewrite firstn_length. lia.
  - apply IHn. rewrite skipn_length. lia.
Qed.

Lemma Forall_firstn' {A} (P : A -> Prop) n l : Forall P l -> Forall P (firstn n l).
Proof. intros H; revert n; induction H; intros [|n]; cbn; constructor; auto. Qed.
Lemma Forall_skipn' {A} (P : A -> Prop) n l : Forall P l -> Forall P (skipn n l).
Proof. intros H; revert n; induction H; intros [|n]; cbn; auto. Qed.

Lemma groups_byte n b l : Forall byte l -> Forall (Forall byte) (groups n b l).
Proof.
  revert l; induction n; intros l H; cbn [groups]; constructor.
  - now apply Forall_firstn'.
  - apply IHn. now apply Forall_skipn'.
Qed.

Lemma image_of_image be b n l :
  Forall byte l -> length l = (n * b)%nat -> image be b (of_image be b n l) = l.
Proof.
  intros Hb Hl. rewrite <- (groups_concat n b l Hl) at 2.
  unfold image, of_image. rewrite flat_map_concat_map, map_map. f_equal.
  rewrite <- (map_id (groups n b l)) at 2. apply map_ext_in. intros g Hg.
  pose proof (groups_lengths n b l Hl) as L. pose proof (groups_byte n b l Hb) as B.
  rewrite Forall_forall in L, B. rewrite <- (L g Hg). now apply lane_bytes_value, B.
Qed.

Lemma of_image_wf be b n l :
  Forall byte l -> length l = (n * b)%nat -> wf b n (of_image be b n l).
Proof.
  intros Hb Hl. split.
  - unfold of_image. now rewrite map_length, groups_length.
  - pose proof (groups_lengths n b l Hl) as L. pose proof (groups_byte n b l Hb) as B.
    rewrite Forall_forall in *. intros p Hp. apply in_map_iff in Hp as (g & <- & Hg).
    rewrite <- (L g Hg). now apply lane_value_pattern, B.
Qed.

Lemma transmute_wf be b n b' n' v :
  wf b n v -> (b * n = b' * n')%nat -> wf b' n' (transmute be b b' n' v).
Proof.
  intros [Hl _] E. apply of_image_wf; [apply image_byte|]. rewrite image_length. lia.
Qed.

Lemma transmute_image be b n b' n' v :
  wf b n v -> (b * n = b' * n')%nat -> image be b' (transmute be b b' n' v) = image be b v.
Proof.
  intros [Hl _] E. apply image_of_image; [apply image_byte|]. rewrite image_length. lia.
Qed.

Lemma transmute_back be b n b' n' v :
  wf b n v -> (b * n = b' * n')%nat ->
  transmute be b' b n (transmute be b b' n' v) = v.
Proof.
  intros Hv E. unfold transmute at 1. erewrite transmute_image by eauto.
  now apply of_image_image.
Qed.

Lemma transmute_id be b n v : wf b n v -> transmute be b b n v = v.
Proof. apply of_image_image. Qed.

Lemma transmute_trans be b n b1 n1 b2 n2 v :
  wf b n v -> (b * n = b1 * n1)%nat ->
  transmute be b1 b2 n2 (transmute be b b1 n1 v) = transmute be b b2 n2 v.
Proof. intros Hv E. unfold transmute at 1 3. erewrite transmute_image by eauto. reflexivity. Qed.

(** ** Uniform bytes *)

Lemma le_value_repeat255 w : le_value (repeat 255 w) = ones w.
Proof.
  unfold ones. induction w; cbn [repeat le_value]; [reflexivity|].
  rewrite modulus_S, IHw. lia.
Qed.
Lemma le_value_repeat0 w : le_value (repeat 0 w) = 0.
Proof. induction w; cbn [repeat le_value]; lia. Qed.

Lemma rev_repeat {A} (x : A) n : rev (repeat x n) = repeat x n.
Proof.
  induction n; cbn; auto. rewrite IHn. clear. induction n; cbn; auto. now rewrite IHn.
Qed.

Lemma lane_value_repeat255 be w : lane_value be (repeat 255 w) = ones w.
Proof. destruct be; cbn [lane_value]; rewrite ?rev_repeat; apply le_value_repeat255. Qed.
Lemma lane_value_repeat0 be w : lane_value be (repeat 0 w) = 0.
Proof. destruct be; cbn [lane_value]; rewrite ?rev_repeat; apply le_value_repeat0. Qed.

Lemma byte_255 : byte 255. Proof. unfold byte; lia. Qed.
Lemma byte_0 : byte 0. Proof. unfold byte; lia. Qed.

Lemma Forall_repeat {A} (P : A -> Prop) x n : P x -> Forall P (repeat x n).
Proof. intros; induction n; cbn; constructor; auto. Qed.

Lemma lane_bytes_ones be b : lane_bytes be b (ones b) = repeat 255 b.
Proof.
  rewrite <- (lane_value_repeat255 be b) at 1.
  rewrite <- (repeat_length 255 b) at 1. apply lane_bytes_value.
  apply Forall_repeat, byte_255.
Qed.
Lemma lane_bytes_zero be b : lane_bytes be b 0 = repeat 0 b.
Proof.
  rewrite <- (lane_value_repeat0 be b) at 1.
  rewrite <- (repeat_length 0 b) at 1. apply lane_bytes_value.
  apply Forall_repeat, byte_0.
Qed.

Lemma lane_bytes_mlane be b c : lane_bytes be b (mlane b c) = repeat (if c then 255 else 0) b.
Proof. destruct c; cbn [mlane]; [apply lane_bytes_ones|apply lane_bytes_zero]. Qed.

Lemma lane_value_all_ones be l :
  Forall byte l -> (lane_value be l =? ones (length l)) = forallb (fun x => x =? 255) l.
Proof.
  intros H. apply Bool.eq_iff_eq_true. rewrite Z.eqb_eq, forallb_forall.
  rewrite <- (lane_value_repeat255 be). split.
  - intros E. apply lane_value_inj in E; auto; rewrite ?repeat_length; auto.
    + rewrite E. intros x Hx. apply repeat_spec in Hx; subst; reflexivity.
    + apply Forall_repeat, byte_255.
  - intros E. f_equal. clear H. induction l; cbn; auto. f_equal.
    + apply Z.eqb_eq, E. cbn; auto.
    + apply IHl. intros; apply E; cbn; auto.
Qed.

Lemma lane_value_zero be l :
  Forall byte l -> (lane_value be l =? 0) = forallb (fun x => x =? 0) l.
Proof.
  intros H. apply Bool.eq_iff_eq_true. rewrite Z.eqb_eq, forallb_forall. split.
  - intros E.
    assert (E' : lane_value be l = lane_value be (repeat 0 (length l)))
      by (rewrite E; symmetry; apply lane_value_repeat0).
    apply lane_value_inj in E'; auto; rewrite ?repeat_length; auto.
    + rewrite E'. intros x Hx. apply repeat_spec in Hx; subst; reflexivity.
    + apply Forall_repeat, byte_0.
  - intros E. assert (R : l = repeat 0 (length l)).
    { clear H. induction l; cbn; auto. f_equal.
      - apply Z.eqb_eq, E. cbn; auto.
      - apply IHl. intros; apply E; cbn; auto. }
    rewrite R. apply lane_value_repeat0.
Qed.

Lemma forallb_concat {A} (f : A -> bool) ll : forallb f (concat ll) = forallb (forallb f) ll.
Proof. induction ll; cbn; auto. now rewrite forallb_app, IHll. Qed.

Lemma forallb_map' {A B} (f : B -> bool) (g : A -> B) l : forallb f (map g l) = forallb (fun x => f (g x)) l.
Proof. induction l; cbn; auto. now rewrite IHl. Qed.

Lemma forallb_ext_in {A} (f g : A -> bool) l :
  (forall x, In x l -> f x = g x) -> forallb f l = forallb g l.
Proof.
  induction l; intros H; cbn; auto. rewrite H by (cbn; auto). f_equal.
  apply IHl; intros; apply H; cbn; auto.
Qed.

Lemma of_image_all_ones be w k l :
  Forall byte l -> length l = (k * w)%nat ->
  forallb (fun i => i =? ones w) (of_image be w k l) = forallb (fun x => x =? 255) l.
Proof.
  intros Hb Hl. rewrite <- (groups_concat k w l Hl) at 2. rewrite forallb_concat.
  unfold of_image. rewrite forallb_map'. apply forallb_ext_in. intros g Hg.
  pose proof (groups_lengths k w l Hl) as L. pose proof (groups_byte k w l Hb) as B.
  rewrite Forall_forall in L, B. rewrite <- (L g Hg). now apply lane_value_all_ones, B.
Qed.

Lemma of_image_all_zero be w k l :
  Forall byte l -> length l = (k * w)%nat ->
  forallb (fun i => i =? 0) (of_image be w k l) = forallb (fun x => x =? 0) l.
Proof.
  intros Hb Hl. rewrite <- (groups_concat k w l Hl) at 2. rewrite forallb_concat.
  unfold of_image. rewrite forallb_map'. apply forallb_ext_in. intros g Hg.
  pose proof (groups_lengths k w l Hl) as L. pose proof (groups_byte k w l Hb) as B.
  rewrite Forall_forall in L, B. now apply lane_value_zero, B.
Qed.

(** ** Canonical masks *)

Lemma image_mlanes be b cs :
  image be b (map (mlane b) cs) = flat_map (fun c : bool => repeat (if c then 255 else 0) b) cs.
Proof.
  induction cs; cbn [map image flat_map]; auto. f_equal; auto. apply lane_bytes_mlane.
Qed.

Lemma mlanes_wf b n cs : length cs = n -> wf b n (map (mlane b) cs).
Proof.
  intros H; split; [now rewrite map_length|].
  apply Forall_forall; intros x Hx. apply in_map_iff in Hx as (c & <- & _).
  destruct c; cbn [mlane]; [apply ones_pattern|apply zero_pattern].
Qed.

(** Each lane repeated [r] times. *)
Definition spread {A} (r : nat) (cs : list A) : list A := flat_map (fun c => repeat c r) cs.

Lemma spread_length {A} r (cs : list A) : length (spread r cs) = (length cs * r)%nat.
Proof. unfold spread. induction cs; cbn; auto. rewrite app_length, repeat_length, IHcs; lia. Qed.

Lemma repeat_app' {A} (x : A) n m : repeat x (n + m) = repeat x n ++ repeat x m.
Proof. apply repeat_app. Qed.

Lemma transmute_mlanes be b b' r n cs :
  b = (b' * r)%nat -> length cs = n ->
  transmute be b b' (n * r) (map (mlane b) cs) = map (mlane b') (spread r cs).
Proof.
  intros Hb Hn. unfold transmute. rewrite image_mlanes.
  assert (E : flat_map (fun c : bool => repeat (if c then 255 else 0) b) cs
              = image be b' (map (mlane b') (spread r cs))).
  { rewrite image_mlanes. unfold spread. subst b. clear. induction cs; cbn [flat_map]; auto.
    rewrite flat_map_app, <- IHcs. f_equal. clear.
    induction r; [now rewrite Nat.mul_0_r|].
    cbn [repeat flat_map]. rewrite <- IHr, <- repeat_app. f_equal. lia. }
  rewrite E. apply of_image_image. apply mlanes_wf. rewrite spread_length; lia.
Qed.

Lemma forallb_repeat {A} (f : A -> bool) x n : (0 < n)%nat -> forallb f (repeat x n) = f x.
Proof.
  intros; destruct n; [lia|]. cbn. destruct (f x) eqn:E; auto. cbn.
  clear H; induction n; cbn; auto. now rewrite E.
Qed.

Lemma forallb_spread {A} (f : A -> bool) r cs :
  (0 < r)%nat -> forallb f (spread r cs) = forallb f cs.
Proof.
  intros; unfold spread. induction cs; cbn; auto.
  now rewrite forallb_app, forallb_repeat, IHcs.
Qed.

Lemma existsb_forallb {A} (f : A -> bool) l : existsb f l = negb (forallb (fun x => negb (f x)) l).
Proof. induction l; cbn; auto. rewrite IHl. destruct (f a); cbn; auto. Qed.

Lemma existsb_spread {A} (f : A -> bool) r cs :
  (0 < r)%nat -> existsb f (spread r cs) = existsb f cs.
Proof. intros; rewrite !existsb_forallb, forallb_spread; auto. Qed.
