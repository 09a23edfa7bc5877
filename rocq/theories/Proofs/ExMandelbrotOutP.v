(** Proofs about the files of the Mandelbrot example (C77, C78). *)
From Coq Require Import ZArith Ascii String List Bool Lia.
From Verif.Model Require Import Base FloatLane Llvm Tables Minimal Fmt ExMandelbrot ExStencil ExMandelbrotOut.
From Verif.Spec Require Import Spec Floats Text Numerals Orbits Netpbm.
From Verif.Proofs Require Import Lib NumeralP ExMandelbrotP ExStencilSimdP.
Import ListNotations.
Open Scope Z_scope.
Open Scope list_scope.

(** ** Writing *)
Lemma firstn_more {A} (a b : list A) n : (length a <= n)%nat -> firstn n (a ++ b) = a ++ firstn (n - length a) b.
Proof. intros H. rewrite firstn_app, (firstn_all2 a) by lia. reflexivity. Qed.
Lemma firstn_less {A} (a b : list A) n : (n < length a)%nat -> firstn n (a ++ b) = firstn n a.
Proof. intros H. rewrite firstn_app. replace (n - length a)%nat with 0%nat by lia. now rewrite firstn_O, app_nil_r. Qed.

Definition same (p q : io) : Prop := forall s, p s = q s.
Lemma writes_app a b : same (then_ (write_all a) (write_all b)) (write_all (a ++ b)).
Proof.
  intros s. unfold then_, write_all. cbn [room got]. rewrite app_length.
  destruct (length a <=? room s)%nat eqn:E.
  - apply Nat.leb_le in E. rewrite (firstn_all2 a) by lia. rewrite firstn_more by lia. rewrite app_assoc. f_equal.
    + destruct (length b <=? room s - length a)%nat eqn:F, (length a + length b <=? room s)%nat eqn:G; auto;
        rewrite ?Nat.leb_le, ?Nat.leb_gt in *; lia.
    + f_equal. lia.
  - apply Nat.leb_gt in E. rewrite firstn_less by lia. f_equal.
    + now rewrite (proj2 (Nat.leb_gt _ _)) by lia.
    + f_equal. lia.
Qed.
Lemma then_same p q r : same q r -> same (then_ p q) (then_ p r).
Proof. intros H s. unfold then_. destruct (p s) as [[] s']; auto. Qed.
Lemma then_same_l p p' q : same p p' -> same (then_ p q) (then_ p' q).
Proof. intros H s. unfold then_. now rewrite (H s). Qed.
Lemma same_trans p q r : same p q -> same q r -> same p r.
Proof. intros H K s. now rewrite (H s). Qed.
Lemma write_then a p b : same p (write_all b) -> same (then_ (write_all a) p) (write_all (a ++ b)).
Proof. intros H. eapply same_trans; [apply then_same, H|apply writes_app]. Qed.
Lemma same_refl p : same p p.
Proof. intros s. reflexivity. Qed.

Lemma delivers_write p file : same p (write_all file) -> delivers p file.
Proof.
  intros H s. rewrite (H s). unfold write_all. eexists _, _. split; [reflexivity|]. cbn [got]. split; intros L.
  - rewrite (proj2 (Nat.leb_le _ _)) by lia. rewrite firstn_all2 by lia. auto.
  - rewrite (proj2 (Nat.leb_gt _ _)) by lia. auto.
Qed.

(** ** The header *)
Definition head_bytes (color : bool) (w h : nat) : list Z :=
  coded (chars (if color then "P6" else "P4")%string ++ newline ++ decimal w ++ chars " " ++ decimal h ++
         chars (if color then " 255" else "")%string ++ newline).

Lemma coded_app a b : coded (a ++ b) = coded a ++ coded b.
Proof. apply map_app. Qed.
Lemma header_same color mb : same (write_header mb color) (write_all (head_bytes color (mb_width mb) (mb_height mb))).
Proof.
  unfold head_bytes. rewrite !coded_app.
  replace (coded (chars (if color then "P6" else "P4")%string)) with
    (bytes (str "P") ++ bytes (decimal (if color then 6 else 4))) by (destruct color; reflexivity).
  rewrite <- app_assoc. unfold write_header.
  apply write_then, write_then, write_then, write_then, write_then, write_then.
  destruct color; [apply writes_app|]. apply write_then. apply same_refl.
Qed.
Lemma decimal_reads n : Z.of_nat n < 2 ^ 64 -> reads false 10 (decimal n) (Z.of_nat n).
Proof. intros H. apply numeral_ok; [lia|lia|]. change (modulus 8) with (2 ^ 64). lia. Qed.
Lemma header_ok (color : bool) w h : Z.of_nat w < 2 ^ 64 -> Z.of_nat h < 2 ^ 64 ->
  header (if color then "P6" else "P4") w h (if color then " 255" else "") (head_bytes color w h).
Proof. intros W H. exists (decimal w), (decimal h). split; [now apply decimal_reads|]. split; [now apply decimal_reads|]. reflexivity. Qed.

(** ** Equal parts of a list *)
Lemma nth_concat {A} k : forall (cs : list (list A)), Forall (fun c => length c = k) cs ->
  forall i q, (q < k)%nat -> nth_error (concat cs) (i * k + q) =
    match nth_error cs i with Some c => nth_error c q | None => None end.
Proof.
  induction 1 as [|c cs H Hs IH]; intros i q Q.
  - cbn [concat]. destruct i; cbn [nth_error]; now destruct (_ + _)%nat.
  - cbn [concat]. destruct i as [|i].
    + cbn [nth_error Nat.mul Nat.add]. apply nth_error_app1. lia.
    + cbn [nth_error]. rewrite nth_error_app2 by nia. rewrite <- (IH i q Q). f_equal. nia.
Qed.
Lemma nth_chunk {A} k m (cs : list (list A)) l : Forall (fun c => length c = k) cs -> length cs = m -> concat cs = l ->
  forall i, (i < m)%nat -> exists c, nth_error cs i = Some c /\ length c = k /\
    forall q, (q < k)%nat -> nth_error c q = nth_error l (i * k + q).
Proof.
  intros F L <- i I. destruct (nth_error cs i) as [c|] eqn:E; [|apply nth_error_None in E; lia].
  exists c. split; [auto|]. split; [exact (proj1 (Forall_forall _ _) F c (nth_error_In _ _ E))|].
  intros q Q. rewrite (nth_concat k cs F i q Q), E. reflexivity.
Qed.

Lemma split_rows {A} k : forall h (l : list A), length l = (h * k)%nat ->
  exists rows, length rows = h /\ Forall (fun c => length c = k) rows /\ concat rows = l.
Proof.
  induction h as [|h IH]; intros l L.
  - exists []. destruct l; [auto|discriminate].
  - destruct (IH (skipn k l)) as (rows & R1 & R2 & R3); [rewrite skipn_length; lia|].
    exists (firstn k l :: rows). cbn [length concat]. split; [now rewrite R1|]. split.
    + constructor; [apply firstn_length_le; lia|exact R2].
    + rewrite R3. apply firstn_skipn.
Qed.

(** ** One byte of a bitmap *)
Definition of_bits (l : list bool) : Z :=
  fold_left (fun result ib => Z.lor result (wrap 1 (Z.shiftl (if snd ib : bool then 1 else 0) (7 - Z.of_nat (fst ib)))))
    (combine (seq 0 (length l)) l) 0.
Lemma of_bits_ok l : length l = 8%nat ->
  0 <= of_bits l < 256 /\ forall q, (q < 8)%nat -> Z.testbit (of_bits l) (7 - Z.of_nat q) = nth q l false.
Proof.
  intros L. do 8 (destruct l as [|[|] l]; [discriminate| |]); (destruct l; [|discriminate]); clear L;
    (split; [vm_compute; split; congruence|]);
    (intros q Q; do 8 (destruct q as [|q]; [reflexivity|]); lia).
Qed.
Lemma pbm_byte_bits ch : pbm_byte ch = of_bits (map (fun c => c =? 50) ch).
Proof.
  unfold pbm_byte, of_bits. rewrite map_length.
  assert (G : forall ch a acc,
    fold_left (fun result ic => Z.lor result (wrap 1 (Z.shiftl (if snd ic =? Z.of_nat ITER_LIMIT then 1 else 0) (7 - Z.of_nat (fst ic)))))
      (combine (seq a (length ch)) ch) acc =
    fold_left (fun result ib => Z.lor result (wrap 1 (Z.shiftl (if snd ib : bool then 1 else 0) (7 - Z.of_nat (fst ib)))))
      (combine (seq a (length ch)) (map (fun c => c =? 50) ch)) acc); [|apply G].
  clear. induction ch as [|c ch IH]; intros a acc; [reflexivity|]. cbn [length seq combine map fold_left fst snd].
  apply IH.
Qed.
Lemma pbm_byte_ok ch : length ch = 8%nat ->
  0 <= pbm_byte ch < 256 /\
  forall q, (q < 8)%nat -> Z.testbit (pbm_byte ch) (7 - Z.of_nat q) = true <-> nth_error ch q = Some 50.
Proof.
  intros L. rewrite pbm_byte_bits. destruct (of_bits_ok (map (fun c => c =? 50) ch)) as [B T]; [now rewrite map_length|].
  split; [exact B|]. intros q Q. rewrite (T q Q).
  destruct (nth_error ch q) as [c|] eqn:E; [|apply nth_error_None in E; lia].
  rewrite (nth_error_nth _ q false (map_nth_error (fun c => c =? 50) _ _ E)), Z.eqb_eq. split; congruence.
Qed.

(** ** Bitmaps *)
Definition pbm_file (mb : mandelbrot) : list Z :=
  head_bytes false (mb_width mb) (mb_height mb) ++ map pbm_byte (chunks (length (mb_data mb)) 8 (mb_data mb)).

Lemma pbm_same mb : (length (mb_data mb) mod 8 = 0)%nat -> same (output_pbm mb) (write_all (pbm_file mb)).
Proof.
  intros E. unfold output_pbm. rewrite E. cbn [Nat.eqb assert].
  eapply same_trans; [apply then_same_l, header_same|]. apply write_then, same_refl.
Qed.

Theorem pbm_ok mb : let w := mb_width mb in let h := mb_height mb in
  length (mb_data mb) = (h * w)%nat -> (w mod 8 = 0)%nat -> Z.of_nat w < 2 ^ 64 -> Z.of_nat h < 2 ^ 64 ->
  exists file, is_pbm w h (fun i j => nth_error (mb_data mb) (i * w + j) = Some 50) file /\ delivers (output_pbm mb) file.
Proof.
  intros w h L M W H. set (d := mb_data mb) in *.
  assert (Hk : exists k, w = (8 * k)%nat) by (exists (w / 8)%nat; pose proof (Nat.div_mod w 8); lia).
  destruct Hk as (k & Hk).
  assert (Ld : length d = (h * k * 8)%nat) by (rewrite L, Hk; lia).
  exists (pbm_file mb). split.
  2:{ apply delivers_write, pbm_same. fold d. rewrite Ld. apply Nat.mod_mul. lia. }
  unfold pbm_file. fold d w h.
  destruct (chunks_spec 8 ltac:(lia) (h * k) (length d) d Ld (le_n _)) as (CL & CF & CC).
  set (cs := chunks (length d) 8 d) in *. clearbody cs.
  set (bs := map pbm_byte cs).
  assert (Lb : length bs = (h * k)%nat) by (unfold bs; now rewrite map_length).
  assert (B : forall m, (m < h * k)%nat -> exists b, nth_error bs m = Some b /\ 0 <= b < 256 /\
            forall q, (q < 8)%nat -> Z.testbit b (7 - Z.of_nat q) = true <-> nth_error d (m * 8 + q) = Some 50).
  { intros m Hm. destruct (nth_chunk 8 (h * k) cs d CF CL CC m Hm) as (c & C1 & C2 & C3).
    exists (pbm_byte c). split; [exact (map_nth_error pbm_byte _ _ C1)|].
    destruct (pbm_byte_ok c C2) as [P1 P2]. split; [exact P1|]. intros q Q. rewrite (P2 q Q), (C3 q Q). reflexivity. }
  destruct (split_rows k h bs Lb) as (rows & RL & RF & RC).
  exists (head_bytes false w h), rows. split; [exact (header_ok false w h W H)|]. split; [now rewrite RC|]. split; [exact RL|].
  intros i row E.
  assert (I : (i < h)%nat) by (rewrite <- RL; apply nth_error_Some; congruence).
  destruct (nth_chunk k h rows bs RF RL RC i I) as (row' & E' & Lr & N). rewrite E in E'. injection E' as <-.
  split; [rewrite Lr, Hk; replace (8 * k + 7)%nat with (7 + k * 8)%nat by lia; now rewrite Nat.div_add by lia|].
  split.
  { apply Forall_forall. intros b Hb. apply In_nth_error in Hb. destruct Hb as (q & Q).
    assert (Qk : (q < k)%nat) by (rewrite <- Lr; apply nth_error_Some; congruence).
    rewrite (N q Qk) in Q. destruct (B (i * k + q)%nat ltac:(nia)) as (b' & Q' & P & _).
    rewrite Q in Q'. injection Q' as ->. exact P. }
  intros j J.
  assert (Jk : (j / 8 < k)%nat) by (apply Nat.div_lt_upper_bound; lia).
  destruct (B (i * k + j / 8)%nat ltac:(nia)) as (b & B1 & B2 & B3).
  exists b. split; [rewrite (N _ Jk); exact B1|].
  assert (Jm : (j mod 8 < 8)%nat) by (apply Nat.mod_upper_bound; lia).
  specialize (B3 (j mod 8)%nat Jm). rewrite Nat2Z.inj_mod in B3. change (Z.of_nat 8) with 8 in B3. rewrite B3.
  replace ((i * k + j / 8) * 8 + j mod 8)%nat with (i * w + j)%nat; [reflexivity|].
  pose proof (Nat.div_mod j 8 ltac:(lia)). rewrite Hk. nia.
Qed.

Theorem pbm_panics mb : let w := mb_width mb in let h := mb_height mb in
  (length (mb_data mb) mod 8 <> 0)%nat -> Z.of_nat w < 2 ^ 64 -> Z.of_nat h < 2 ^ 64 ->
  exists head, header "P4" w h "" head /\
    forall s, (length head <= room s)%nat -> exists s', output_pbm mb s = (Panicked, s') /\ got s' = got s ++ head.
Proof.
  intros w h M W H. exists (head_bytes false w h). split; [exact (header_ok false w h W H)|]. intros s L.
  unfold output_pbm, then_. rewrite (header_same false mb s). fold w h. unfold write_all at 1.
  rewrite (proj2 (Nat.leb_le _ _) L). apply Nat.eqb_neq in M. rewrite M. cbn [assert let_].
  eexists. split; [reflexivity|]. cbn [got]. now rewrite firstn_all2 by lia.
Qed.

Lemma digit_of_char up c c' d : digit_of up c d -> digit_of up c' d -> c = c'.
Proof.
  intros H K. assert (E : N_of_ascii c = N_of_ascii c').
  { apply N2Z.inj. destruct H as [[A B]|[A B]], K as [[A' B']|[A' B']]; lia. }
  rewrite <- (ascii_N_embedding c), <- (ascii_N_embedding c'), E. reflexivity.
Qed.
Lemma digit_of_pos up c d : digit_of up c d -> 0 <= d.
Proof. intros [[A _]|[A _]]; lia. Qed.
Lemma reads_same up base l n : reads up base l n -> forall l', reads up base l' n -> l = l'.
Proof.
  induction 1 as [c d D B|l n c d R IH P D B]; intros l' K.
  - inversion K as [c' d' D' B'|l1 n1 c' d' R' P' D' B']; subst.
    + now rewrite (digit_of_char _ _ _ _ D D').
    + pose proof (digit_of_pos _ _ _ D'). nia.
  - remember (n * base + d) as m eqn:E. destruct K as [c' d' D' B'|l1 n1 c' d' R' P' D' B'].
    + pose proof (digit_of_pos _ _ _ D). nia.
    + pose proof (digit_of_pos _ _ _ D). pose proof (digit_of_pos _ _ _ D').
      assert (n1 = n) by nia. subst n1. assert (d' = d) by lia. subst d'.
      now rewrite (IH _ R'), (digit_of_char _ _ _ _ D D').
Qed.
Lemma header_same_text kind w h more a b : header kind w h more a -> header kind w h more b -> a = b.
Proof.
  intros (ws & hs & W & H & ->) (ws' & hs' & W' & H' & ->).
  now rewrite (reads_same _ _ _ _ W _ W'), (reads_same _ _ _ _ H _ H').
Qed.

Lemma rows_length {A} k (rows : list (list A)) : Forall (fun c => length c = k) rows -> length (concat rows) = (length rows * k)%nat.
Proof. induction 1 as [|c rows H Hs IH]; [reflexivity|]. cbn [concat length]. rewrite app_length, IH. lia. Qed.

Theorem pbm_unpadded mb : let w := mb_width mb in let h := mb_height mb in
  length (mb_data mb) = (h * w)%nat -> (h * w mod 8 = 0)%nat -> (w mod 8 <> 0)%nat -> (0 < h)%nat ->
  Z.of_nat w < 2 ^ 64 -> Z.of_nat h < 2 ^ 64 ->
  exists file, delivers (output_pbm mb) file /\ forall black, ~ is_pbm w h black file.
Proof.
  intros w h L M N H0 W H. exists (pbm_file mb). split; [apply delivers_write, pbm_same; now rewrite L|].
  intros black (head & rows & E & F & RL & R).
  unfold pbm_file in F. fold w h in F.
  rewrite (header_same_text _ _ _ _ _ _ E (header_ok false w h W H)) in F. apply app_inv_head in F.
  set (d := mb_data mb) in *.
  destruct (chunks_spec 8 ltac:(lia) (h * w / 8) (length d) d) as (CL & _ & _); [|lia|].
  { rewrite L. pose proof (Nat.div_mod (h * w) 8 ltac:(lia)). lia. }
  apply (f_equal (@length _)) in F. rewrite map_length, CL in F.
  rewrite (rows_length ((w + 7) / 8) rows) in F.
  2:{ apply Forall_forall. intros row Hr. apply In_nth_error in Hr. destruct Hr as (i & Hi). exact (proj1 (R i row Hi)). }
  rewrite RL in F.
  pose proof (Nat.div_mod (h * w) 8 ltac:(lia)). pose proof (Nat.div_mod (w + 7) 8 ltac:(lia)).
  pose proof (Nat.div_mod w 8 ltac:(lia)). pose proof (Nat.mod_upper_bound (w + 7) 8 ltac:(lia)).
  pose proof (Nat.mod_upper_bound w 8 ltac:(lia)).
  assert (w + 1 <= 8 * ((w + 7) / 8))%nat by lia. nia.
Qed.

(** ** Colour images *)
Definition triple (c : Z * Z * Z) : list Z := match c with (r, g, b) => [r; g; b] end.
Lemma ppm_color_mod val : val <> 50 -> ppm_color val = ppm_color (val mod 12).
Proof.
  intros H. assert (B : 0 <= val mod 12 < 12) by (apply Z.mod_pos_bound; lia).
  unfold ppm_color. change (Z.of_nat ITER_LIMIT) with 50. unfold SCALE.
  rewrite (proj2 (Z.eqb_neq val 50) H), (proj2 (Z.eqb_neq (val mod 12) 50)) by lia.
  rewrite Z.mod_mod by lia. reflexivity.
Qed.
Lemma ppm_color_ok val : exists c, ppm_color val = Ok (triple c) /\ escape_colour val c /\
  let '(r, g, b) := c in 0 <= r < 256 /\ 0 <= g < 256 /\ 0 <= b < 256.
Proof.
  destruct (Z.eq_dec val 50) as [->|N].
  - exists (0, 0, 0). split; [reflexivity|]. split; [left; auto|lia].
  - rewrite (ppm_color_mod val N). unfold escape_colour, band.
    assert (B : 0 <= val mod 12 < 12) by (apply Z.mod_pos_bound; lia). revert B. generalize (val mod 12) as m. intros m B.
    assert (K : exists k c, 12 * Z.of_nat k <= 5 * m < 12 * (Z.of_nat k + 1) /\ nth_error five_colours k = Some c /\ ppm_color m = Ok (triple c)).
    { assert (C : m = 0 \/ m = 1 \/ m = 2 \/ m = 3 \/ m = 4 \/ m = 5 \/ m = 6 \/ m = 7 \/ m = 8 \/ m = 9 \/ m = 10 \/ m = 11) by lia.
      repeat (destruct C as [C|C]); subst m;
        first [exists 0%nat; eexists; split; [lia|]; split; [reflexivity|]; vm_compute; reflexivity
              |exists 1%nat; eexists; split; [lia|]; split; [reflexivity|]; vm_compute; reflexivity
              |exists 2%nat; eexists; split; [lia|]; split; [reflexivity|]; vm_compute; reflexivity
              |exists 3%nat; eexists; split; [lia|]; split; [reflexivity|]; vm_compute; reflexivity
              |exists 4%nat; eexists; split; [lia|]; split; [reflexivity|]; vm_compute; reflexivity]. }
    destruct K as (k & c & K1 & K2 & K3). exists c. split; [exact K3|]. split; [right; split; [exact N|]; exists k; auto|].
    apply nth_error_In in K2. cbn [five_colours In] in K2.
    repeat (destruct K2 as [<-|K2]; [lia|]). destruct K2.
Qed.
Lemma ppm_colors_ok data : exists cs, ppm_colors data = Ok (flat_map triple cs) /\
  Forall2 (fun n c => escape_colour n c /\ let '(r, g, b) := c in 0 <= r < 256 /\ 0 <= g < 256 /\ 0 <= b < 256) data cs.
Proof.
  induction data as [|n data (cs & E & F)]; [exists []; split; [reflexivity|constructor]|].
  destruct (ppm_color_ok n) as (c & C1 & C2 & C3). exists (c :: cs). split.
  - cbn [ppm_colors]. rewrite C1. cbn [bind]. rewrite E. reflexivity.
  - constructor; auto.
Qed.
Lemma Forall2_at {A B} (R : A -> B -> Prop) l l' : Forall2 R l l' -> forall i b, nth_error l' i = Some b -> exists a, nth_error l i = Some a /\ R a b.
Proof.
  induction 1 as [|a b l l' H Hs IH]; intros [|i] x E; cbn [nth_error] in *; try discriminate.
  - injection E as <-. eauto.
  - eauto.
Qed.

Theorem ppm_ok mb : let w := mb_width mb in let h := mb_height mb in
  length (mb_data mb) = (h * w)%nat -> Z.of_nat w < 2 ^ 64 -> Z.of_nat h < 2 ^ 64 ->
  exists file, is_ppm w h (fun i j c => exists n, nth_error (mb_data mb) (i * w + j) = Some n /\ escape_colour n c) file /\
    delivers (output_ppm mb) file.
Proof.
  intros w h L W H. destruct (ppm_colors_ok (mb_data mb)) as (cs & E & F).
  exists (head_bytes true w h ++ flat_map triple cs). split.
  2:{ apply delivers_write. unfold output_ppm. rewrite E.
      eapply same_trans; [apply then_same_l, header_same|]. apply write_then. intros s. reflexivity. }
  assert (Lc : length cs = (h * w)%nat) by (rewrite <- L; clear - F; induction F; cbn; congruence).
  destruct (split_rows w h cs Lc) as (rows & RL & RF & RC).
  exists (head_bytes true w h), rows. split; [exact (header_ok true w h W H)|]. split; [rewrite RC; reflexivity|]. split; [exact RL|].
  intros i row Er.
  assert (I : (i < h)%nat) by (rewrite <- RL; apply nth_error_Some; congruence).
  destruct (nth_chunk w h rows cs RF RL RC i I) as (row' & E' & Lr & N). rewrite Er in E'. injection E' as <-.
  split; [exact Lr|]. intros j J.
  destruct (nth_error row j) as [[[r g] b]|] eqn:Ej; [|apply nth_error_None in Ej; lia].
  rewrite (N j J) in Ej. destruct (Forall2_at _ _ _ F _ _ Ej) as (n & N1 & N2 & N3 & N4 & N5).
  exists r, g, b. repeat split; auto; try lia. exists n. auto.
Qed.

(** ** The programs *)
Lemma sub_fun b x y r r' : ieee_sub b x y r -> ieee_sub b x y r' -> r = r'.
Proof. apply add_fun. Qed.
Lemma div_fun b x y r r' : ieee_div b x y r -> ieee_div b x y r' -> r = r'.
Proof.
  unfold ieee_div. destruct x, y; try congruence. match goal with |- context [if ?c then _ else rounds_to _ _ _ _] => destruct c end; [congruence|]. apply rounds_fun.
Qed.
Lemma grid_fun a b n j r r' : grid_point a b n j r -> grid_point a b n j r' -> r = r'.
Proof.
  intros (x & y & z & A & B & C & D) (x' & y' & z' & A' & B' & C' & D').
  rewrite (sub_fun _ _ _ _ _ A' A) in B'. rewrite (div_fun _ _ _ _ _ B' B) in C'. rewrite (mul_fun _ _ _ _ _ C' C) in D'.
  exact (add_fun _ _ _ _ _ D D').
Qed.

(** The point at row [i] and column [j] of an image of the default region escapes after [n] iterations. *)
Definition takes (w h i j n : nat) : Prop := exists cx cy,
  grid_point region_left region_right w j cx /\ grid_point region_top region_bottom h i cy /\ escape_time 50 cx cy n.
Lemma takes_fun w h i j n m : takes w h i j n -> takes w h i j m -> n = m.
Proof.
  intros (cx & cy & A & B & C) (cx' & cy' & A' & B' & C').
  rewrite (grid_fun _ _ _ _ _ _ A' A), (grid_fun _ _ _ _ _ _ B' B) in C'. exact (escape_unique _ _ _ _ _ C C').
Qed.

Lemma count_at a b : good (a, b) -> escape_time 50 (datum_of 8 a) (datum_of 8 b) (count (a, b)).
Proof. exact (count_escape (a, b)). Qed.
Lemma scalar_image w h : (0 < w)%nat -> Z.of_nat w < 2 ^ 53 -> Z.of_nat h < 2 ^ 53 ->
  exists l, scalar_generate w h region_x0 region_x1 region_y0 region_y1 = Ok l /\ length l = (h * w)%nat /\
    forall i j, (i < h)%nat -> (j < w)%nat -> exists n, nth_error l (i * w + j) = Some (Z.of_nat n) /\ takes w h i j n.
Proof.
  intros W0 W H. unfold scalar_generate. replace (Nat.eqb w 0) with false by (symmetry; apply Nat.eqb_neq; lia).
  cbn [negb assert bind]. eexists. split; [reflexivity|].
  split; [apply (image_length (fun i j => Z.of_nat (count (coordinate region_x0 region_x1 w j, coordinate region_y0 region_y1 h i))))|].
  intros i j I J. exists (count (coordinate region_x0 region_x1 w j, coordinate region_y0 region_y1 h i)).
  split; [exact (image_entry (fun i j => Z.of_nat (count (coordinate region_x0 region_x1 w j, coordinate region_y0 region_y1 h i))) w h i j I J)|].
  assert (E := count_at (coordinate region_x0 region_x1 w j) (coordinate region_y0 region_y1 h i) (proj1 (region_close w h i j W H I J))).
  assert (GX : grid_point region_left region_right w j (datum_of 8 (coordinate region_x0 region_x1 w j))).
  { rewrite <- region_x1_datum. unfold region_left. rewrite <- region_x_datum.
    apply coordinate_grid; auto; vm_compute; split; congruence. }
  assert (GY : grid_point region_top region_bottom h i (datum_of 8 (coordinate region_y0 region_y1 h i))).
  { rewrite <- region_y1_datum. unfold region_top. rewrite <- region_y_datum.
    apply coordinate_grid; auto; vm_compute; split; congruence. }
  revert GX GY E. generalize (count (coordinate region_x0 region_x1 w j, coordinate region_y0 region_y1 h i)) as n.
  generalize (datum_of 8 (coordinate region_x0 region_x1 w j)) as cx, (datum_of 8 (coordinate region_y0 region_y1 h i)) as cy.
  intros cx cy n GX GY E. exists cx, cy. auto.
Qed.

Lemma generated tg w h algo : algo = Scalar \/ (algo = Simd /\ (w mod 8 = 0)%nat) ->
  (0 < w)%nat -> Z.of_nat w < 2 ^ 53 -> Z.of_nat h < 2 ^ 53 ->
  exists l, generate tg w h algo = Ok {| mb_width := w; mb_height := h; mb_data := l |} /\ length l = (h * w)%nat /\
    forall i j, (i < h)%nat -> (j < w)%nat -> exists n, nth_error l (i * w + j) = Some (Z.of_nat n) /\ takes w h i j n.
Proof.
  intros A W0 W H. destruct (scalar_image w h W0 W H) as (l & E & L & P). exists l. split; [|auto].
  unfold generate, generate_region. destruct A as [->|[-> M]].
  - rewrite E. reflexivity.
  - destruct (default_image tg w h M W0 W H) as (l' & E1 & E2 & _). rewrite E in E1. injection E1 as <-. rewrite E2. reflexivity.
Qed.

(** What main does with an image. *)
Lemma main_ok tg w h (color : bool) algo mb file : generate tg w h algo = Ok mb ->
  delivers (if color then output_ppm mb else output_pbm mb) file ->
  forall s, exists r s', mandelbrot_main tg w h color (Some algo) s = (r, s') /\
    ((length file <= room s)%nat -> r = Written /\ got s' = got s ++ file) /\
    ((room s < length file)%nat -> r = Panicked /\ got s' = got s ++ firstn (room s) file).
Proof.
  intros G D s. unfold mandelbrot_main, let_. rewrite G. destruct (D s) as (r & s' & E & A & B).
  destruct color; rewrite E; (eexists _, s'; split; [reflexivity|]); (split; [intros L; destruct (A L) as [-> K]; auto|]);
    intros L; destruct (B L) as [-> K]; auto.
Qed.

Theorem program_pbm tg w h algo : algo = Scalar \/ algo = Simd ->
  (w mod 8 = 0)%nat -> (0 < w)%nat -> Z.of_nat w < 2 ^ 53 -> Z.of_nat h < 2 ^ 53 ->
  exists file,
    is_pbm w h (fun i j => exists cx cy, grid_point region_left region_right w j cx /\
                             grid_point region_top region_bottom h i cy /\ escape_time 50 cx cy 50) file /\
    forall s, exists r s', mandelbrot_main tg w h false (Some algo) s = (r, s') /\
      ((length file <= room s)%nat -> r = Written /\ got s' = got s ++ file) /\
      ((room s < length file)%nat -> r = Panicked /\ got s' = got s ++ firstn (room s) file).
Proof.
  intros A M W0 W H.
  destruct (generated tg w h algo) as (l & G & L & P); auto; [destruct A; auto|].
  destruct (pbm_ok {| mb_width := w; mb_height := h; mb_data := l |} L M) as (file & F & D); try (cbn [mb_width mb_height]; lia).
  exists file. split; [|exact (main_ok tg w h false algo _ file G D)]. cbn [mb_width mb_height mb_data] in F.
  destruct F as (head & rows & F1 & F2 & F3 & F4). exists head, rows. do 3 (split; [assumption|]).
  intros i row R. destruct (F4 i row R) as (B1 & B2 & B3). do 2 (split; [assumption|]).
  intros j J. destruct (B3 j J) as (b & C1 & C2). exists b. split; [exact C1|]. rewrite C2.
  assert (I : (i < h)%nat) by (rewrite <- F3; apply nth_error_Some; congruence).
  destruct (P i j I J) as (n & N1 & N2). fold (takes w h i j 50). rewrite N1. split.
  - intros E. assert (n = 50%nat) by (injection E; lia). now subst n.
  - intros T. rewrite (takes_fun _ _ _ _ _ _ N2 T). reflexivity.
Qed.

Theorem program_ppm tg w h algo : algo = Scalar \/ (algo = Simd /\ (w mod 8 = 0)%nat) ->
  (0 < w)%nat -> Z.of_nat w < 2 ^ 53 -> Z.of_nat h < 2 ^ 53 ->
  exists file,
    is_ppm w h (fun i j c => exists cx cy n, grid_point region_left region_right w j cx /\
                               grid_point region_top region_bottom h i cy /\ escape_time 50 cx cy n /\
                               escape_colour (Z.of_nat n) c) file /\
    forall s, exists r s', mandelbrot_main tg w h true (Some algo) s = (r, s') /\
      ((length file <= room s)%nat -> r = Written /\ got s' = got s ++ file) /\
      ((room s < length file)%nat -> r = Panicked /\ got s' = got s ++ firstn (room s) file).
Proof.
  intros A W0 W H.
  destruct (generated tg w h algo) as (l & G & L & P); auto.
  destruct (ppm_ok {| mb_width := w; mb_height := h; mb_data := l |} L) as (file & F & D); try (cbn [mb_width mb_height]; lia).
  exists file. split; [|exact (main_ok tg w h true algo _ file G D)]. cbn [mb_width mb_height mb_data] in F.
  destruct F as (head & rows & F1 & F2 & F3 & F4). exists head, rows. do 3 (split; [assumption|]).
  intros i row R. destruct (F4 i row R) as (B1 & B2). split; [assumption|].
  intros j J. destruct (B2 j J) as (r & g & b & C1 & C2 & C3 & C4 & m & C5 & C6). exists r, g, b. do 4 (split; [assumption|]).
  assert (I : (i < h)%nat) by (rewrite <- F3; apply nth_error_Some; congruence).
  destruct (P i j I J) as (n & N1 & cx & cy & N2 & N3 & N4). rewrite N1 in C5. injection C5 as <-.
  exists cx, cy, n. auto.
Qed.

Theorem program_stops tg w h color algo s :
  algo = None \/ algo = Some Ispc \/ w = 0%nat \/ (algo = Some Simd /\ (w mod 8 <> 0)%nat) ->
  mandelbrot_main tg w h color algo s = (Panicked, s).
Proof.
  intros C. destruct algo as [algo|]; [|reflexivity].
  assert (G : generate tg w h algo = Panic).
  { unfold generate, generate_region.
    destruct (generate_panics tg w h region_x0 region_x1 region_y0 region_y1) as (P1 & P2 & P3).
    destruct C as [C|[C|[C|[C D]]]]; [discriminate|injection C as ->; reflexivity| |injection C as ->; now rewrite (P2 D)].
    destruct algo; [now rewrite (proj2 P1 C)|now rewrite (P3 C)|reflexivity]. }
  unfold mandelbrot_main, let_. now rewrite G.
Qed.

(** ** Memory *)
Theorem scalar_memory w h : let v := scalar_buffer w h in
  given_back v = v_asked v /\ v_length v = Z.of_nat (h * w) /\ v_length v <= v_capacity v.
Proof. cbn. rewrite (Nat.mul_comm h w). split; [reflexivity|lia]. Qed.

Theorem simd_memory al w h : (w mod 8 = 0)%nat -> let v := simd_buffer al w h in
  v_length v = Z.of_nat (h * w) /\
  ((0 < w)%nat -> (0 < h)%nat -> fst (given_back v) <> fst (v_asked v) /\ v_capacity v < v_length v).
Proof.
  intros M v. subst v. unfold simd_buffer. change (lanes f64s) with 8%nat. change (Z.of_nat (vb u32s * vn u32s)) with 32.
  cbn [set_len transmute with_capacity given_back v_length v_capacity v_asked v_element fst snd u32_layout].
  split; [now rewrite Nat.mul_comm|]. intros W H.
  pose proof (Nat.div_mod w 8 ltac:(lia)) as E. rewrite M in E. set (k := (w / 8)%nat) in *. clearbody k. subst w.
  assert (0 < k * h)%nat by nia. replace ((8 * k + 0) * h)%nat with (8 * (k * h))%nat by lia.
  generalize dependent (k * h)%nat. intros n N. lia.
Qed.
