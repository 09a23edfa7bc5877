From Coq Require Import ZArith List Bool Lia ZifyBool ZifyNat Arith Reals.
From Flocq Require Import Core.
From Verif.Model Require Import Base FloatLane Llvm Bytes Tables Minimal Ops Reduce Slice ExSum.
From Verif.Spec Require Import Spec Memory Floats Examples.
From Verif.Proofs Require Import Lib MinimalP OpsP OpsP2 BytesP SliceP GatherP FloatP FloatVecP FloatOpsP FloatApiP FloatApi2P ReduceP ExactP.
Import ListNotations.
Open Scope Z_scope.

Lemma Forall2_len {A B} (R : A -> B -> Prop) l r : Forall2 R l r -> length l = length r.
Proof. induction 1; cbn [length]; congruence. Qed.

(** ** Reading *)
Lemma map_ok_map {A B C} (f : B -> outcome C) (g : A -> B) l : map_ok f (map g l) = map_ok (fun a => f (g a)) l.
Proof. induction l; cbn [map map_ok]; auto. now rewrite IHl. Qed.
Lemma map_ok_all {A B} (f : A -> outcome B) l r : Forall2 (fun a b => f a = Ok b) l r -> map_ok f l = Ok r.
Proof. induction 1 as [|a b l r E _ IH]; cbn [map_ok]; auto. now rewrite E, IH. Qed.

Lemma skipn_add {A} m n (l : list A) : skipn m (skipn n l) = skipn (n + m) l.
Proof.
  revert l; induction n; intros l; cbn [Nat.add]; [reflexivity|].
  destruct l; [now rewrite !skipn_nil|]. cbn [skipn]. apply IHn.
Qed.

Lemma map_ok_groups (f : nat -> outcome (list Z)) n : forall k l s,
  (forall i, (i < k)%nat -> f (s + i)%nat = Ok (firstn n (skipn (n * i) l))) ->
  map_ok f (seq s k) = Ok (groups k n l).
Proof.
  induction k as [|k IH]; intros l s H; cbn [seq map_ok groups]; auto.
  pose proof (H 0%nat ltac:(lia)) as H0. rewrite Nat.mul_0_r, Nat.add_0_r in H0. rewrite H0.
  rewrite (IH (skipn n l) (S s)); [reflexivity|]. intros i I.
  rewrite skipn_add. replace (n + n * i)%nat with (n * S i)%nat by lia.
  rewrite <- H by lia. f_equal. lia.
Qed.

Lemma nth_error_skipn {A} n (l : list A) i : nth_error (skipn n l) i = nth_error l (n + i).
Proof. revert l; induction n; intros [|x l]; cbn [skipn Nat.add nth_error]; auto. now destruct i. Qed.
Lemma array_skipn be b m base k xs : array_at be b m base xs -> array_at be b m (base + Z.of_nat (b * k)) (skipn k xs).
Proof.
  intros H i p Hp. rewrite nth_error_skipn in Hp. specialize (H _ _ Hp). unfold elem_addr in *.
  replace (base + Z.of_nat (b * k) + Z.of_nat (b * i)) with (base + Z.of_nat (b * (k + i))) by lia. exact H.
Qed.

Notation pats t := (Forall (fun p => 0 <= p < 2 ^ width t)).

Lemma chunk_load be t m base xs k : vector_type t -> pats t xs -> array_at be (vb t) m base xs ->
  (vn t * k + vn t <= length xs)%nat ->
  load_bytes m (base + Z.of_nat (vb t * (vn t * k))) (size_of t) = Ok (image be (vb t) (firstn (vn t) (skipn (vn t * k) xs))) /\
  of_image be (vb t) (vn t) (image be (vb t) (firstn (vn t) (skipn (vn t * k) xs))) = firstn (vn t) (skipn (vn t * k) xs) /\
  is_vector t (firstn (vn t) (skipn (vn t * k) xs)).
Proof.
  intros T P A L.
  destruct (load_elements be t m {| s_ptr := base + Z.of_nat (vb t * (vn t * k)); s_len := vn t |} (skipn (vn t * k) xs) T)
    as (E & O & V); auto.
  - rewrite skipn_length. lia.
  - now apply Forall_skipn'.
  - apply array_firstn, array_skipn, A.
Qed.

Lemma read_chunks_ok tg t m s xs : vector_type t -> pats t xs -> length xs = s_len s ->
  array_at (t_big_endian tg) (vb t) m (s_ptr s) xs ->
  read_chunks tg t m s = Ok (groups (s_len s / vn t) (vn t) xs).
Proof.
  intros T P L A. unfold read_chunks, chunks_exact. rewrite map_ok_map. apply map_ok_groups.
  intros i I. cbn [Nat.add]. pose proof T as (_ & N & _).
  assert (B : (vn t * i + vn t <= length xs)%nat).
  { rewrite L. pose proof (Nat.mul_div_le (s_len s) (vn t) ltac:(lia)). clear - I H. nia. }
  destruct (chunk_load _ t m _ xs i T P A B) as (E & O & V).
  unfold from_slice_unaligned, from_slice_unaligned_unchecked, long_enough, debug_assert. cbn [s_ptr s_len].
  rewrite Nat.leb_refl, orb_true_r. cbn [assert bind]. rewrite E. cbn [bind]. now rewrite O.
Qed.

Lemma deref_chunks_ok be t al m base xs k : vector_type t -> pats t xs ->
  array_at be (vb t) m base xs -> 0 < al -> (al | base) -> (al | Z.of_nat (size_of t)) -> (vn t * k <= length xs)%nat ->
  map_ok (fun i => deref_vec be t al m (base + Z.of_nat (vb t * (vn t * i)))) (seq 0 k) = Ok (groups k (vn t) xs).
Proof.
  intros T P A Hal D1 D2 L. apply map_ok_groups. intros i I. cbn [Nat.add].
  assert (B : (vn t * i + vn t <= length xs)%nat) by (clear - I L; nia).
  destruct (chunk_load _ t m _ xs i T P A B) as (E & O & V).
  unfold deref_vec. replace (aligned _ al) with true.
  - rewrite E. cbn [bind]. now rewrite O.
  - symmetry. unfold aligned. apply Z.eqb_eq. apply Z.mod_divide; [lia|].
    apply Z.divide_add_r; [exact D1|]. unfold size_of in D2.
    replace (Z.of_nat (vb t * (vn t * i))) with (Z.of_nat (vb t * vn t) * Z.of_nat i) by lia.
    now apply Z.divide_mul_l.
Qed.

Lemma read_elements_ok tg m base xs n : Forall (fun p => 0 <= p < 2 ^ 32) xs ->
  array_at (t_big_endian tg) 4 m base xs -> (n <= length xs)%nat ->
  read_elements tg m base n = Ok (firstn n xs).
Proof.
  intros P A L. unfold read_elements. apply map_ok_all.
  assert (G : forall k s ys, (forall i p, nth_error ys i = Some p -> load_lane (t_big_endian tg) 4 m (base + Z.of_nat (4 * (s + i))) = Ok p) ->
     length ys = k -> Forall2 (fun a b => load_lane (t_big_endian tg) 4 m (base + Z.of_nat (4 * a)) = Ok b) (seq s k) ys).
  { induction k as [|k IH]; intros s ys H Ly; destruct ys as [|y ys]; try discriminate; cbn [seq]; constructor.
    - specialize (H 0%nat y eq_refl). now rewrite Nat.add_0_r in H.
    - apply IH; [|now injection Ly]. intros i p Hp. specialize (H (S i) p Hp).
      now replace (S s + i)%nat with (s + S i)%nat by lia. }
  apply G; [|rewrite firstn_length; lia]. intros i p Hp. cbn [Nat.add].
  apply load_lane_holds.
  - apply (Forall_nth_error _ _ _ _ (Forall_firstn' _ n _ P) Hp).
  - apply (array_firstn _ _ _ _ n _ A i p Hp).
Qed.

(** ** Vectors on a grid *)
Section Units.
Variables (t : vty) (e : Z).
Hypothesis T : float_type t.
Hypothesis E : unit_exponent (vb t) e.
Let F : fsize (vb t).
Proof. exact (float_size t T). Qed.
Notation un := (units (vb t) e).

Lemma add_vec_units x y xs ys : Forall2 un x xs -> Forall2 un y ys -> length xs = length ys ->
  total_abs xs + total_abs ys <= top (vb t) ->
  Forall2 un (add t x y) (map2 Z.add xs ys) /\ length (map2 Z.add xs ys) = length xs /\
  total (map2 Z.add xs ys) = total xs + total ys /\
  total_abs (map2 Z.add xs ys) <= total_abs xs + total_abs ys.
Proof.
  intros X. revert y ys. unfold add, simd_add.
  assert (K : lane_add (vkind t) (vb t) = fl_add (vb t)) by (destruct T as (-> & _); reflexivity). rewrite K.
  induction X as [|p a x xs P X IH]; intros y ys Y L H; inversion Y as [|q b y' ys' Q Y']; subst; try discriminate.
  - cbn. repeat split; auto; lia.
  - injection L as L. cbn [map2 length]. unfold total, total_abs in *. cbn [fold_right] in *.
    fold (total_abs xs) (total_abs ys') in *.
    pose proof (total_abs_nonneg xs). pose proof (total_abs_nonneg ys').
    destruct (IH y' ys' Y' L) as (A & B & C & D); [unfold total_abs in *; lia|].
    split; [constructor; [apply add_units; auto; lia|exact A]|].
    split; [now rewrite B|]. split; [lia|]. unfold total_abs in *. lia.
Qed.

Lemma zeros_units n : Forall2 un (repeat (lit (vkind t) (vb t) 0) n) (repeat 0 n) /\
  total (repeat 0 n) = 0 /\ total_abs (repeat 0 n) = 0.
Proof.
  assert (K : lit (vkind t) (vb t) 0 = fl_of_int (vb t) 0) by now apply lit_float. rewrite K.
  induction n; cbn [repeat]; unfold total, total_abs in *; cbn [fold_right]; [auto|].
  destruct IHn as (A & B & C). split; [constructor; [now apply zero_units|exact A]|]. lia.
Qed.

Definition grid (v : vec) (zs : list Z) : Prop := Forall2 un v zs /\ length zs = vn t.

Lemma fold_add_units : forall vs zss a za, Forall2 grid vs zss -> grid a za ->
  total_abs za + total_abs (concat zss) <= top (vb t) ->
  exists r, grid (fold_left (add t) vs a) r /\ total r = total za + total (concat zss) /\
    total_abs r <= total_abs za + total_abs (concat zss).
Proof.
  induction vs as [|v vs IH]; intros zss a za G A H; inversion G as [|? zs ? zss' Gv G']; subst; cbn [fold_left concat] in *.
  - exists za. split; [exact A|]. cbn. lia.
  - rewrite total_app, total_abs_app in *. pose proof (total_abs_nonneg (concat zss')).
    destruct A as [A La], Gv as [Gv Lv].
    destruct (add_vec_units a v za zs A Gv) as (S1 & S2 & S3 & S4); [congruence|lia|].
    destruct (IH zss' (add t a v) (map2 Z.add za zs) G') as (r & R1 & R2 & R3).
    + split; [exact S1|congruence].
    + lia.
    + exists r. split; [exact R1|]. lia.
Qed.

Lemma iter_sum_units vs zss : Forall2 grid vs zss -> total_abs (concat zss) <= top (vb t) ->
  exists r, grid (iter_sum t vs) r /\ total r = total (concat zss) /\ total_abs r <= total_abs (concat zss).
Proof.
  intros G H. unfold iter_sum, splat. destruct (zeros_units (vn t)) as (A & B & C).
  destruct (fold_add_units vs zss _ (repeat 0 (vn t)) G (conj A (repeat_length _ _))) as (r & R1 & R2 & R3); [lia|].
  exists r. split; [exact R1|]. lia.
Qed.

Lemma firstn_concat {A} n (l : list (list A)) : concat (firstn n l) ++ concat (skipn n l) = concat l.
Proof. rewrite <- concat_app. now rewrite firstn_skipn. Qed.
Lemma Forall2_firstn' {A B} (R : A -> B -> Prop) n l r : Forall2 R l r -> Forall2 R (firstn n l) (firstn n r).
Proof. intros H. revert n; induction H; intros [|n]; cbn [firstn]; constructor; auto. Qed.
Lemma Forall2_skipn' {A B} (R : A -> B -> Prop) n l r : Forall2 R l r -> Forall2 R (skipn n l) (skipn n r).
Proof. intros H. revert n; induction H; intros [|n]; cbn [skipn]; auto. Qed.

Lemma par_add_units x y xs ys : grid x xs -> grid y ys -> total_abs xs + total_abs ys <= top (vb t) ->
  exists r, grid (par_add t x y) r /\ total r = total xs + total ys /\ total_abs r <= total_abs xs + total_abs ys.
Proof.
  intros X Y H. destruct (iter_sum_units [x; y] [xs; ys]) as (r & R1 & R2 & R3).
  - constructor; [exact X|]. constructor; [exact Y|constructor].
  - cbn [concat]. rewrite app_nil_r, total_abs_app. exact H.
  - cbn [concat] in *. rewrite app_nil_r, total_app, total_abs_app in *. exists r. auto.
Qed.

(** Whatever the schedule. *)
Lemma par_sum_units : forall sch vs zss, Forall2 grid vs zss -> items sch = length vs ->
  total_abs (concat zss) <= top (vb t) ->
  exists r, grid (par_sum t sch vs) r /\ total r = total (concat zss) /\ total_abs r <= total_abs (concat zss).
Proof.
  assert (G : forall sch vs zss, Forall2 grid vs zss -> (items sch <= length vs)%nat ->
    total_abs (concat (firstn (items sch) zss)) <= top (vb t) ->
    exists r, grid (par_sum t sch vs) r /\ total r = total (concat (firstn (items sch) zss)) /\
      total_abs r <= total_abs (concat (firstn (items sch) zss))).
  { induction sch as [n|l IHl r IHr]; intros vs zss V I H; cbn [par_sum items] in *.
    - destruct (iter_sum_units [] []) as (a & A1 & A2 & A3); [constructor|cbn; lia|].
      destruct (iter_sum_units (firstn n vs) (firstn n zss)) as (c & C1 & C2 & C3);
        [now apply Forall2_firstn'|exact H|].
      cbn in A2, A3.
      destruct (par_add_units _ _ a c A1 C1) as (d & D1 & D2 & D3); [lia|]. exists d. split; [exact D1|]. lia.
    - assert (X : firstn (items l + items r) zss = firstn (items l) zss ++ firstn (items r) (skipn (items l) zss)).
      { rewrite <- (firstn_skipn (items l) zss) at 1. rewrite firstn_app.
        pose proof (Forall2_len _ _ _ V). rewrite firstn_length, firstn_firstn.
        replace (Nat.min (items l + items r) (items l)) with (items l) by lia.
        replace (items l + items r - Nat.min (items l) (length zss))%nat with (items r) by lia. reflexivity. }
      rewrite X, concat_app, total_app, total_abs_app in *.
      pose proof (total_abs_nonneg (concat (firstn (items l) zss))).
      pose proof (total_abs_nonneg (concat (firstn (items r) (skipn (items l) zss)))).
      destruct (IHl vs zss V) as (a & A1 & A2 & A3); [lia|lia|].
      destruct (IHr (skipn (items l) vs) (skipn (items l) zss)) as (c & C1 & C2 & C3);
        [now apply Forall2_skipn'|rewrite skipn_length; lia|lia|].
      destruct (par_add_units _ _ a c A1 C1) as (d & D1 & D2 & D3); [lia|]. exists d. split; [exact D1|]. lia. }
  intros sch vs zss V I H. pose proof (Forall2_len _ _ _ V).
  destruct (G sch vs zss V) as (r & R); [lia| |].
  - rewrite I, H0, firstn_all. exact H.
  - rewrite I, H0, firstn_all in R. eauto.
Qed.

Lemma grid_vector v zs : grid v zs -> is_vector t v.
Proof.
  intros [G L]. split; [pose proof (Forall2_len _ _ _ G); congruence|].
  clear L. unfold width. induction G as [|p z v zs [P _] G IH]; constructor; auto.
Qed.

Lemma fsum_units tg v zs : grid v zs -> total_abs zs <= top (vb t) ->
  exists r, fsum tg t v = Ok r /\ un r (total zs).
Proof.
  intros G H. pose proof (grid_vector v zs G) as V. destruct G as [G L]. unfold fsum.
  destruct (on_aarch64 tg).
  - destruct (reduce_loop_fold t (fl_add (vb t)) v (proj2 (proj2 T)) V) as (p & l & -> & ->).
    eexists. split; [reflexivity|]. inversion G as [|? z ? zs' P G']; subst.
    unfold total, total_abs in *. cbn [fold_right] in *.
    apply fold_units; auto.
  - eexists. split; [reflexivity|]. unfold simd_reduce_add_ordered.
    assert (K : lane_add (vkind t) (vb t) = fl_add (vb t)) by (destruct T as (-> & _); reflexivity).
    rewrite K, lit_float by auto.
    apply (fold_units (vb t) e F E v zs _ 0); auto using zero_units.
Qed.
End Units.

(** ** Groups *)
Lemma groups_nth : forall k n l i, (i < k)%nat -> nth_error (groups k n l) i = Some (firstn n (skipn (n * i) l)).
Proof.
  induction k as [|k IH]; intros n l i I; [lia|]. destruct i as [|i]; cbn [groups nth_error].
  - now rewrite Nat.mul_0_r.
  - rewrite IH by lia. rewrite skipn_add. do 3 f_equal. lia.
Qed.
Lemma groups_flat : forall k n l, (k * n <= length l)%nat -> concat (groups k n l) = firstn (k * n) l.
Proof.
  induction k as [|k IH]; intros n l H; cbn [groups concat]; auto.
  rewrite IH by (rewrite skipn_length; lia).
  cbn [Nat.mul]. rewrite <- (firstn_skipn n l) at 3. rewrite firstn_app, firstn_firstn, firstn_length.
  replace (Nat.min (n + k * n) n) with n by lia.
  replace (n + k * n - Nat.min n (length l))%nat with (k * n)%nat by lia. reflexivity.
Qed.
Lemma groups_grid t e : forall k xs zs, Forall2 (units (vb t) e) xs zs -> (k * vn t <= length xs)%nat ->
  Forall2 (grid t e) (groups k (vn t) xs) (groups k (vn t) zs).
Proof.
  induction k as [|k IH]; intros xs zs H L; cbn [groups]; constructor.
  - split; [now apply Forall2_firstn'|]. pose proof (Forall2_len _ _ _ H). rewrite firstn_length. lia.
  - apply IH; [now apply Forall2_skipn'|]. rewrite skipn_length. lia.
Qed.
Lemma units_patterns b e xs zs : Forall2 (units b e) xs zs -> Forall (fun p => 0 <= p < 2 ^ (8 * Z.of_nat b)) xs.
Proof. induction 1 as [|p z xs zs [P _] _ IH]; constructor; auto. Qed.

Lemma f32s_type : float_type f32s.
Proof. repeat split; auto; cbn; lia. Qed.
Lemma f32x4_type : float_type f32x4.
Proof. repeat split; auto; cbn; lia. Qed.
Lemma f32s_vt : vector_type f32s.
Proof. apply f32s_type. Qed.

(** ** slice_sum *)
Lemma mod_div n k : (0 < k)%nat -> (n mod k)%nat = 0%nat -> (n / k * k)%nat = n.
Proof. intros K H. pose proof (Nat.div_mod n k ltac:(lia)). lia. Qed.

Lemma rows_units tg t e : float_type t -> unit_exponent (vb t) e -> forall vs zss, Forall2 (grid t e) vs zss ->
  total_abs (concat zss) <= top (vb t) ->
  exists hs, map_ok (fsum tg t) vs = Ok hs /\ Forall2 (units (vb t) e) hs (map total zss).
Proof.
  intros T E vs zss G. induction G as [|v zs vs zss V G IH]; intros H; cbn [map_ok map].
  - exists []. auto.
  - cbn [concat] in H. rewrite total_abs_app in H.
    pose proof (total_abs_nonneg zs). pose proof (total_abs_nonneg (concat zss)).
    destruct (fsum_units t e T E tg v zs V) as (r & R1 & R2); [lia|].
    destruct IH as (hs & HA & HB); [lia|]. rewrite R1. cbn [bind]. rewrite HA. cbn [bind].
    exists (r :: hs). auto.
Qed.
Lemma rows_total zss : total (map total zss) = total (concat zss) /\ total_abs (map total zss) <= total_abs (concat zss).
Proof.
  induction zss as [|zs zss [A B]]; cbn [map concat]; [cbn; lia|].
  rewrite total_app, total_abs_app. pose proof (total_le_abs zs).
  unfold total at 1, total_abs at 1. cbn [fold_right]. fold (total (map total zss)) (total_abs (map total zss)). lia.
Qed.

Lemma scalar_sum_units e xs zs : unit_exponent 4 e -> Forall2 (units 4 e) xs zs -> total_abs zs <= top 4 ->
  units 4 e (scalar_sum xs) (total zs).
Proof.
  intros E H L. unfold scalar_sum.
  apply (fold_units 4 e (or_introl eq_refl) E xs zs (fl_of_int 4 0) 0); auto using zero_units, (or_introl eq_refl : fsize 4).
Qed.

Theorem sums_exact tg m x xs zs e :
  length xs = s_len x -> array_at (t_big_endian tg) 4 m (s_ptr x) xs ->
  Nat.modulo (length xs) 8 = 0%nat ->
  unit_exponent 4 e -> Forall2 (units 4 e) xs zs -> total_abs zs <= 2 ^ 24 ->
  (exists r, sum_ver tg m x = Ok r /\ units 4 e r (total zs)) /\
  (exists r, sum_hor tg m x = Ok r /\ units 4 e r (total zs)).
Proof.
  intros L A M8 E U H. pose proof (Forall2_len _ _ _ U) as LL. rewrite L in M8.
  pose proof (mod_div _ 8 ltac:(lia) M8) as D.
  pose proof (read_chunks_ok tg f32s m x xs f32s_vt (units_patterns 4 e xs zs U) L A) as R.
  assert (G : Forall2 (grid f32s e) (groups (s_len x / 8) 8 xs) (groups (s_len x / 8) 8 zs))
    by (apply (groups_grid f32s e); [exact U|cbn [vn f32s f32x8]; lia]).
  assert (C : concat (groups (s_len x / 8) 8 zs) = zs) by (apply groups_concat; lia).
  unfold sum_ver, sum_hor. change (lanes f32s) with 8%nat. rewrite M8. cbn [assert Nat.eqb bind].
  rewrite R. cbn [bind]. change (vn f32s) with 8%nat. split.
  - destruct (iter_sum_units f32s e f32s_type E _ _ G) as (z & Z1 & Z2 & Z3); [now rewrite C|].
    rewrite C in *. destruct (fsum_units f32s e f32s_type E tg _ z Z1) as (r & R1 & R2).
    + change (top (vb f32s)) with (2 ^ 24). lia.
    + exists r. split; [exact R1|]. now rewrite <- Z2.
  - destruct (rows_units tg f32s e f32s_type E _ _ G) as (hs & H1 & H2); [now rewrite C|].
    rewrite H1. cbn [bind]. eexists. split; [reflexivity|].
    destruct (rows_total (groups (s_len x / 8) 8 zs)) as [S1 S2]. rewrite C in S1, S2. rewrite <- S1.
    apply scalar_sum_units; auto. change (top 4) with (2 ^ 24). lia.
Qed.

(** The order of the additions, for any numbers. *)
Lemma column_lanes k xs j : (j < 8)%nat -> (k * 8 <= length xs)%nat ->
  exists ps, Forall2 (fun v p => lane v j p) (groups k 8 xs) ps /\ length ps = k /\
    forall i, (i < k)%nat -> nth_error ps i = nth_error xs (8 * i + j).
Proof.
  intros J. revert xs. induction k as [|k IH]; intros xs L; cbn [groups].
  - exists []. repeat split; auto. lia.
  - destruct (IH (skipn 8 xs)) as (ps & P1 & P2 & P3); [rewrite skipn_length; lia|].
    destruct (nth_error xs j) as [p|] eqn:Hp; [|apply nth_error_None in Hp; lia].
    exists (p :: ps). split; [constructor; [unfold lane; rewrite nth_error_firstn' by lia; exact Hp|exact P1]|].
    split; [cbn [length]; congruence|]. intros [|i] I; [exact (eq_sym Hp)|].
    cbn [nth_error]. rewrite P3 by lia. rewrite nth_error_skipn. f_equal. lia.
Qed.

Lemma groups_vectors t : forall k xs, pats t xs -> (k * vn t <= length xs)%nat -> Forall (is_vector t) (groups k (vn t) xs).
Proof.
  induction k as [|k IH]; intros xs P L; cbn [groups]; constructor.
  - split; [rewrite firstn_length; lia|now apply Forall_firstn'].
  - apply IH; [now apply Forall_skipn'|]. rewrite skipn_length. lia.
Qed.

Theorem sums_order tg m x xs :
  length xs = s_len x -> Forall (fun p => 0 <= p < 2 ^ 32) xs -> array_at (t_big_endian tg) 4 m (s_ptr x) xs ->
  Nat.modulo (length xs) 8 = 0%nat -> t_arch tg <> Aarch64 ->
  let zero := Fin false 0 in
  let adds d l r := folds 4 (ieee_add 4) d l (datum_of 4 r) in
  (exists cs r, sum_ver tg m x = Ok r /\ length cs = 8%nat /\ adds zero cs r /\
     forall j c, nth_error cs j = Some c -> exists col, adds zero col c /\
       (8 * length col = length xs)%nat /\
       forall k, (k < length col)%nat -> nth_error col k = nth_error xs (8 * k + j)) /\
  (exists rs r, sum_hor tg m x = Ok r /\ (8 * length rs = length xs)%nat /\ adds zero rs r /\
     forall k c, nth_error rs k = Some c -> adds zero (firstn 8 (skipn (8 * k) xs)) c).
Proof.
  intros L P A M8 NA zero adds. rewrite L in M8.
  pose proof (mod_div _ 8 ltac:(lia) M8) as D.
  pose proof (read_chunks_ok tg f32s m x xs f32s_vt P L A) as R.
  assert (Vs : Forall (is_vector f32s) (groups (s_len x / 8) 8 xs))
    by (apply (groups_vectors f32s); [exact P|cbn [vn f32s f32x8]; lia]).
  unfold sum_ver, sum_hor. change (lanes f32s) with 8%nat. rewrite M8. cbn [assert Nat.eqb bind].
  rewrite R. cbn [bind]. change (vn f32s) with 8%nat. split.
  - destruct (float_iter_reductions f32s _ f32s_type Vs) as (V & _ & Q). cbn [f32s f32x8 vn vb] in Q.
    destruct (float_reductions tg f32s _ f32s_type V) as ((r & E & _ & R1 & _) & _).
    exists (iter_sum f32s (groups (s_len x / 8) 8 xs)), r.
    split; [exact E|]. split; [exact (proj1 V)|]. split; [exact (R1 NA)|].
    intros j c Hc.
    assert (J : (j < 8)%nat) by (pose proof (proj1 (nth_error_Some _ j) (ltac:(congruence) : nth_error (iter_sum f32s (groups (s_len x / 8) 8 xs)) j <> None)); rewrite (proj1 V) in H; exact H).
    destruct (column_lanes (s_len x / 8) xs j J) as (ps & P1 & P2 & P3); [lia|].
    destruct (Q j ps J P1) as ((c' & C1 & C2) & _). unfold lane in C1. rewrite Hc in C1. injection C1 as <-.
    exists ps. split; [exact C2|]. split; [lia|]. intros k K. apply P3. lia.
  - assert (X : forall vs, Forall (is_vector f32s) vs -> exists hs, map_ok (fsum tg f32s) vs = Ok hs /\
       Forall2 (fun v c => 0 <= c < 2 ^ 32 /\ adds zero v c) vs hs).
    { induction 1 as [|v vs V _ (hs & H1 & H2)]; cbn [map_ok]; [exists []; auto|].
      destruct (float_reductions tg f32s v f32s_type V) as ((r & E & B & R1 & _) & _).
      rewrite E. cbn [bind]. rewrite H1. cbn [bind]. exists (r :: hs). split; auto. constructor; auto.
      split; [exact B|exact (R1 NA)]. }
    destruct (X _ Vs) as (hs & H1 & H2). rewrite H1. cbn [bind].
    exists hs, (scalar_sum hs). split; [reflexivity|].
    pose proof (Forall2_len _ _ _ H2) as LL. rewrite groups_length in LL. split; [lia|].
    assert (PH : Forall (fun p => 0 <= p < 2 ^ 32) hs)
      by (clear - H2; induction H2 as [|? ? ? ? [B _] _ IH]; constructor; auto).
    split.
    + unfold adds, zero, scalar_sum. pose proof (lit_datum f32s 0 f32s_type eq_refl) as D0.
      pose proof (lit_pattern f32s 0 f32s_type) as P0. rewrite lit_float in D0, P0 by apply f32s_type.
      cbn [Z.ltb Z.compare] in D0.
      replace (Fin false 0) with (datum_of 4 (fl_of_int 4 0)) by exact D0.
      apply (fold_folds 4 (fl_add 4) (ieee_add 4)); auto.
      intros p q Hp Hq. exact (add_pattern 4 (or_introl eq_refl) p q Hp Hq).
    + intros k c Hc. assert (K : (k < s_len x / 8)%nat).
      { rewrite LL. apply nth_error_Some. congruence. }
      clear - H2 Hc K. pose proof (groups_nth (s_len x / 8) 8 xs k K) as N. revert k Hc K N.
      set (gs := groups (s_len x / 8) 8 xs) in *. clearbody gs.
      intros k Hc _ N. remember (firstn 8 (skipn (8 * k) xs)) as g. clear Heqg. revert k Hc N.
      induction H2 as [|v c' vs hs [_ Q] _ IH]; intros [|k] Hc N; try discriminate; cbn [nth_error] in *.
      * injection Hc as <-. injection N as <-. exact Q.
      * eapply IH; eauto.
Qed.

Theorem sums_panic tg al sch m x : Nat.modulo (s_len x) 8 <> 0%nat ->
  sum_ver tg m x = Panic /\ sum_hor tg m x = Panic /\ sum_ver_par tg al sch m x = Panic.
Proof.
  intros H. unfold sum_ver, sum_hor, sum_ver_par. change (lanes f32s) with 8%nat.
  apply Nat.eqb_neq in H. now rewrite H.
Qed.

Theorem sums_empty tg al sch m x : s_len x = 0%nat ->
  (exists r, sum_ver tg m x = Ok r /\ units 4 0 r 0) /\
  (exists r, sum_hor tg m x = Ok r /\ units 4 0 r 0) /\
  sum_ver_par tg al sch m x = Panic.
Proof.
  intros L.
  destruct (sums_exact tg m x [] [] 0) as [A B]; auto.
  - intros i p Hp. destruct i; discriminate.
  - split; [vm_compute; discriminate|reflexivity].
  - discriminate.
  - split; [exact A|]. split; [exact B|]. unfold sum_ver_par, first_aligned. now rewrite L.
Qed.

(** *** The parallel sum *)
Lemma find_first {A} (f : A -> bool) l : forall i, find f l = Some i ->
  exists k, nth_error l k = Some i /\ f i = true /\ forall j a, (j < k)%nat -> nth_error l j = Some a -> f a = false.
Proof.
  induction l as [|a l IH]; intros i H; cbn [find] in H; [discriminate|].
  destruct (f a) eqn:Fa.
  - injection H as <-. exists 0%nat. repeat split; auto. lia.
  - destruct (IH i H) as (k & K1 & K2 & K3). exists (S k). repeat split; auto.
    intros [|j] b J Hb; cbn [nth_error] in Hb; [congruence|]. apply (K3 j); [lia|exact Hb].
Qed.

Lemma first_aligned_some al x : (al | 32) -> 0 < al -> (4 | s_ptr x) -> (8 <= s_len x)%nat ->
  exists i, first_aligned al x = Some i /\ (i < 8)%nat /\ (al | s_ptr x + Z.of_nat (4 * i)) /\
    forall j, (j < i)%nat -> ~ (al | s_ptr x + Z.of_nat (4 * j)).
Proof.
  intros D32 Ha [q Q] L. set (j := Z.to_nat ((- q) mod 8)).
  assert (J : (j < 8)%nat /\ (32 | s_ptr x + Z.of_nat (4 * j))).
  { unfold j. pose proof (Z.mod_pos_bound (- q) 8 ltac:(lia)) as B. split; [lia|].
    exists (- ((- q) / 8)). pose proof (Z.div_mod (- q) 8 ltac:(lia)) as M. clear - B M Q. lia. }
  destruct J as [J1 J2]. unfold first_aligned.
  destruct (find _ _) as [i|] eqn:Fi.
  - destruct (find_first _ _ _ Fi) as (k & K1 & K2 & K3).
    assert (KL : (k < s_len x)%nat).
    { rewrite <- (seq_length (s_len x) 0). apply nth_error_Some. congruence. }
    assert (S : forall a, (a < s_len x)%nat -> nth_error (seq 0 (s_len x)) a = Some a).
    { intros a I. rewrite (nth_error_nth' _ 0%nat) by (now rewrite seq_length). now rewrite seq_nth. }
    rewrite S in K1 by exact KL. injection K1 as ->.
    assert (LI : (i <= j)%nat).
    { destruct (Nat.le_gt_cases i j) as [G|G]; [exact G|]. exfalso.
      specialize (K3 j j G (S j ltac:(lia))). apply Z.eqb_neq in K3. apply K3.
      apply Z.mod_divide; [lia|]. eapply Z.divide_trans; eauto. }
    exists i. split; [reflexivity|]. split; [lia|]. split; [apply Z.mod_divide; [lia|]; now apply Z.eqb_eq|].
    intros a I D. specialize (K3 a a I (S a ltac:(lia))). apply Z.eqb_neq in K3. apply K3.
    apply Z.mod_divide; [lia|exact D].
  - exfalso. assert (IN : In j (seq 0 (s_len x))) by (apply in_seq; lia).
    pose proof (find_none _ _ Fi j IN) as X. apply Z.eqb_neq in X. apply X.
    apply Z.mod_divide; [lia|]. eapply Z.divide_trans; eauto.
Qed.

Lemma total_abs_firstn n zs : total_abs (firstn n zs) + total_abs (skipn n zs) = total_abs zs.
Proof. rewrite <- total_abs_app. now rewrite firstn_skipn. Qed.
Lemma total_firstn n zs : total (firstn n zs) + total (skipn n zs) = total zs.
Proof. rewrite <- total_app. now rewrite firstn_skipn. Qed.

Theorem par_exact tg al sch m x xs zs e i :
  length xs = s_len x -> array_at (t_big_endian tg) 4 m (s_ptr x) xs ->
  Nat.modulo (length xs) 8 = 0%nat -> xs <> [] ->
  0 < al -> (al | 32) -> (4 | s_ptr x) ->
  (al | s_ptr x + Z.of_nat (4 * i)) -> (forall j, (j < i)%nat -> ~ (al | s_ptr x + Z.of_nat (4 * j))) ->
  items sch = ((length xs - i) / 8)%nat ->
  unit_exponent 4 e -> Forall2 (units 4 e) xs zs -> total_abs zs <= 2 ^ 24 ->
  exists r, sum_ver_par tg al sch m x = Ok r /\ (i < 8)%nat /\
    let kept := if Nat.eqb i 0 then length xs else (length xs - 8 + i)%nat in
    units 4 e r (total (firstn kept zs)).
Proof.
  intros L A M8 NE Ha D32 D4 Di Dm I E U H. pose proof (Forall2_len _ _ _ U) as LL. rewrite L in M8.
  pose proof (mod_div _ 8 ltac:(lia) M8) as D.
  assert (L8 : (8 <= s_len x)%nat) by (destruct xs; [congruence|cbn [length] in L; lia]).
  destruct (first_aligned_some al x D32 Ha D4 L8) as (i' & Fi & I8 & Dv & Mn).
  assert (i' = i) as ->.
  { destruct (Nat.lt_trichotomy i i') as [G|[G|G]]; [|now symmetry|]; exfalso; [now apply (Mn i)|now apply (Dm i')]. }
  pose proof (units_patterns 4 e xs zs U) as P.
  unfold sum_ver_par. rewrite M8. cbn [assert Nat.eqb bind]. rewrite Fi.
  rewrite (read_elements_ok tg m (s_ptr x) xs i P A) by lia. cbn [bind].
  change (lanes f32s) with 8%nat.
  pose proof (array_skipn _ 4 m _ i xs A) as At.
  pose proof (deref_chunks_ok (t_big_endian tg) f32s al m _ (skipn i xs) ((s_len x - i) / 8) f32s_vt
     (Forall_skipn' _ i _ P) At Ha Dv) as Q.
  assert (KB : ((s_len x - i) / 8 * 8 <= s_len x - i)%nat)
    by (pose proof (Nat.mul_div_le (s_len x - i) 8 ltac:(lia)); lia).
  change (map_ok (fun k => deref_vec (t_big_endian tg) f32s al m (s_ptr x + Z.of_nat (4 * i) + Z.of_nat (4 * (8 * k)))) (seq 0 ((s_len x - i) / 8)))
    with (map_ok (fun k => deref_vec (t_big_endian tg) f32s al m (s_ptr x + Z.of_nat (4 * i) + Z.of_nat (vb f32s * (vn f32s * k)))) (seq 0 ((s_len x - i) / 8))).
  rewrite Q; clear Q; [|exact D32|cbn [vn f32s f32x8]; rewrite skipn_length; lia].
  cbn [bind]. change (vn f32s) with 8%nat.
  set (K := ((s_len x - i) / 8)%nat) in *.
  pose proof (total_abs_firstn i zs) as TA. pose proof (total_abs_nonneg (firstn i zs)).
  assert (G : Forall2 (grid f32s e) (groups K 8 (skipn i xs)) (groups K 8 (skipn i zs)))
    by (apply (groups_grid f32s e); [now apply Forall2_skipn'|rewrite skipn_length; cbn [vn f32s f32x8]; lia]).
  assert (C : concat (groups K 8 (skipn i zs)) = firstn (K * 8) (skipn i zs))
    by (apply groups_flat; rewrite skipn_length; lia).
  pose proof (total_abs_firstn (K * 8) (skipn i zs)) as TB.
  pose proof (total_abs_nonneg (skipn (K * 8) (skipn i zs))).
  pose proof (total_abs_nonneg (firstn (K * 8) (skipn i zs))).
  destruct (par_sum_units f32s e f32s_type E sch _ _ G) as (z & Z1 & Z2 & Z3).
  - rewrite groups_length. unfold K. now rewrite <- L.
  - rewrite C. change (top (vb f32s)) with (2 ^ 24). lia.
  - rewrite C in Z2, Z3.
    destruct (fsum_units f32s e f32s_type E tg _ z Z1) as (r & R1 & R2);
      [change (top (vb f32s)) with (2 ^ 24); lia|].
    rewrite R1. cbn [bind]. eexists. split; [reflexivity|]. split; [exact I8|]. cbv zeta.
    assert (S : units 4 e (scalar_sum (firstn i xs)) (total (firstn i zs))).
    { apply scalar_sum_units; auto; [now apply Forall2_firstn'|]. change (top 4) with (2 ^ 24). lia. }
    assert (KK : (if Nat.eqb i 0 then length xs else (length xs - 8 + i)%nat) = (i + K * 8)%nat).
    { rewrite L. unfold K. destruct (Nat.eqb_spec i 0) as [->|N].
      - rewrite Nat.sub_0_r. lia.
      - assert ((s_len x - i) / 8 = s_len x / 8 - 1)%nat.
        { symmetry. apply (Nat.div_unique _ 8 _ (8 - i)); lia. }
        lia. }
    rewrite KK.
    assert (X : firstn (i + K * 8) zs = firstn i zs ++ firstn (K * 8) (skipn i zs)).
    { rewrite <- (firstn_skipn i zs) at 1. rewrite firstn_app, firstn_firstn, firstn_length.
      replace (Nat.min (i + K * 8) i) with i by lia.
      replace (i + K * 8 - Nat.min i (length zs))%nat with (K * 8)%nat by lia. reflexivity. }
    rewrite X, total_app, <- Z2. apply add_units; auto; [now left|].
    change (top 4) with (2 ^ 24). pose proof (total_le_abs z). pose proof (total_le_abs (firstn i zs)). lia.
Qed.

(** ** dot_product *)
Theorem dot_lengths tg m a b :
  (s_len a <> s_len b -> scalar_dot_prod tg m a b = Panic /\ simd_dot_prod tg m a b = Panic) /\
  (Nat.modulo (s_len a) 4 <> 0%nat -> simd_dot_prod tg m a b = Panic).
Proof.
  unfold scalar_dot_prod, simd_dot_prod. split; intros H; apply Nat.eqb_neq in H.
  - now rewrite H.
  - rewrite H. now destruct (Nat.eqb (s_len a) (s_len b)).
Qed.

Lemma map2_mul_units b e e' : fsize b -> unit_exponent b (e + e') ->
  forall xs xz, Forall2 (units b e) xs xz -> forall ys yz, Forall2 (units b e') ys yz ->
  total_abs (map2 Z.mul xz yz) <= top b ->
  Forall2 (units b (e + e')) (map2 (fl_mul b) xs ys) (map2 Z.mul xz yz).
Proof.
  intros F E xs xz X. induction X as [|p x xs xz P X IH]; intros ys yz Y H; inversion Y as [|q y ys' yz' Q Y']; subst; cbn [map2]; constructor.
  - cbn [map2 total_abs fold_right] in H. fold (total_abs (map2 Z.mul xz yz')) in H.
    pose proof (total_abs_nonneg (map2 Z.mul xz yz')). apply mul_units; auto. lia.
  - cbn [map2 total_abs fold_right] in H. fold (total_abs (map2 Z.mul xz yz')) in H.
    apply IH; auto. pose proof (Z.abs_nonneg (x * y)). lia.
Qed.

Lemma map2_firstn {A B C} (f : A -> B -> C) n : forall l r, map2 f (firstn n l) (firstn n r) = firstn n (map2 f l r).
Proof. induction n; intros [|a l] [|b r]; cbn [firstn map2]; auto; try now rewrite IHn. Qed.
Lemma map2_skipn {A B C} (f : A -> B -> C) n : forall l r, map2 f (skipn n l) (skipn n r) = skipn n (map2 f l r).
Proof. induction n; intros [|a l] [|b r]; cbn [skipn map2]; auto; now destruct (skipn n l). Qed.
Lemma map2_groups (f : Z -> Z -> Z) n : forall k l r, map2 (map2 f) (groups k n l) (groups k n r) = groups k n (map2 f l r).
Proof. induction k; intros l r; cbn [groups map2]; auto. now rewrite map2_firstn, IHk, map2_skipn. Qed.

Theorem dots_exact tg m a b xs ys xz yz e e' :
  length xs = s_len a -> length ys = s_len b -> length xs = length ys ->
  array_at (t_big_endian tg) 4 m (s_ptr a) xs -> array_at (t_big_endian tg) 4 m (s_ptr b) ys ->
  Forall2 (units 4 e) xs xz -> Forall2 (units 4 e') ys yz -> unit_exponent 4 (e + e') ->
  total_abs (map2 Z.mul xz yz) <= 2 ^ 24 ->
  (exists r, scalar_dot_prod tg m a b = Ok r /\ units 4 (e + e') r (total (map2 Z.mul xz yz))) /\
  (Nat.modulo (length xs) 4 = 0%nat ->
   exists r, simd_dot_prod tg m a b = Ok r /\ units 4 (e + e') r (total (map2 Z.mul xz yz))).
Proof.
  intros LA LB LE A B X Y E H.
  pose proof (units_patterns 4 e _ _ X) as PX. pose proof (units_patterns 4 e' _ _ Y) as PY.
  pose proof (map2_mul_units 4 e e' (or_introl eq_refl) E xs xz X ys yz Y H) as MU.
  assert (EQ : Nat.eqb (s_len a) (s_len b) = true) by (apply Nat.eqb_eq; congruence).
  split.
  - unfold scalar_dot_prod. rewrite EQ. cbn [assert bind].
    rewrite (read_elements_ok tg m _ xs) by (auto; lia). rewrite (read_elements_ok tg m _ ys) by (auto; lia).
    cbn [bind]. rewrite <- LA, <- LB, !firstn_all. eexists. split; [reflexivity|].
    now apply scalar_sum_units.
  - intros M4. rewrite LA in M4. unfold simd_dot_prod. rewrite EQ, M4. cbn [assert Nat.eqb bind].
    rewrite (read_chunks_ok tg f32x4 m a xs (proj2 (proj2 f32x4_type)) PX LA A).
    rewrite (read_chunks_ok tg f32x4 m b ys (proj2 (proj2 f32x4_type)) PY LB B). cbn [bind].
    change (mul f32x4) with (map2 (fl_mul 4)). rewrite <- LB, <- LE, LA, map2_groups.
    change (vn f32x4) with 4%nat.
    pose proof (mod_div _ 4 ltac:(lia) M4) as D.
    assert (ML : length (map2 (fl_mul 4) xs ys) = s_len a) by (apply map2_length_eq; congruence).
    pose proof (Forall2_len _ _ _ MU) as LL.
    assert (G : Forall2 (grid f32x4 (e + e')) (groups (s_len a / 4) 4 (map2 (fl_mul 4) xs ys)) (groups (s_len a / 4) 4 (map2 Z.mul xz yz)))
      by (apply (groups_grid f32x4 (e + e')); [exact MU|cbn [vn f32x4]; lia]).
    assert (C : concat (groups (s_len a / 4) 4 (map2 Z.mul xz yz)) = map2 Z.mul xz yz) by (apply groups_concat; lia).
    destruct (iter_sum_units f32x4 _ f32x4_type E _ _ G) as (z & Z1 & Z2 & Z3); [now rewrite C|].
    rewrite C in *. destruct (fsum_units f32x4 _ f32x4_type E tg _ z Z1) as (r & R1 & R2).
    + change (top (vb f32x4)) with (2 ^ 24). lia.
    + exists r. split; [exact R1|]. now rewrite <- Z2.
Qed.

Lemma int_units z : Z.abs z < 2 ^ 24 -> units 4 0 (fl_of_int 4 z) z.
Proof.
  intros H. pose proof (lit_datum f32s z f32s_type H) as D. pose proof (lit_pattern f32s z f32s_type) as P.
  rewrite lit_float in D, P by apply f32s_type. split; [exact P|]. exists (z <? 0).
  cbn [bpow]. rewrite Rmult_1_r. exact D.
Qed.
