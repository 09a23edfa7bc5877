(** The images of the ambient occlusion example: one ray at a time. *)
From Coq Require Import ZArith List Bool Lia Reals Lra.
From Verif.Model Require Import Base FloatLane Llvm Tables MathTables Math Minimal MaskReduce Ops Cmp Float Reduce ExStencil ExRandom ExGeometry ExIntersect ExOcclusion ExImage.
From Verif.Spec Require Import Spec Floats MathSpec Examples Stencil Rays Occlusion Picture.
From Verif.Proofs Require Import Lib FloatP FloatVecP ExPacketP ExIntersectP ExIntersectMainP ExIntersectTopP ExHemisphereP ExOcclusionP ExSceneP ExSceneTopP.
Import ListNotations.
Open Scope Z_scope.
Local Notation pat := (pattern 4).
Local Notation dat := f32_datum.
Local Opaque fl_add fl_sub fl_mul fl_div fl_sqrt fl_lt fl_gt fl_ge fl_abs f32_neg.

(** *** Loops *)
Lemma foreach_app {A S} (body : A -> S -> outcome S) l l' : forall s, foreach (l ++ l') s body = (s1 <- foreach l s body ;; foreach l' s1 body).
Proof. induction l as [|a l IH]; intros s; cbn [app foreach bind]; [reflexivity|]. destruct (body a s); cbn [bind]; auto. Qed.
Lemma foreach_map {A B S} (g : A -> B) (body : B -> S -> outcome S) l : forall s, foreach (map g l) s body = foreach l s (fun a => body (g a)).
Proof. induction l as [|a l IH]; intros s; cbn [map foreach]; [reflexivity|]. destruct (body (g a) s); cbn [bind]; auto. Qed.
Lemma foreach_ext {A S} (b b' : A -> S -> outcome S) l : (forall a s, In a l -> b a s = b' a s) -> forall s, foreach l s b = foreach l s b'.
Proof.
  induction l as [|a l IH]; intros H s; cbn [foreach]; [reflexivity|]. rewrite (H a s) by now left. destruct (b' a s); cbn [bind]; auto.
  apply IH. intros c t I. apply H. now right.
Qed.
Lemma foreach_prod {A B S} (body : A -> B -> S -> outcome S) l l' : forall s,
  foreach l s (fun a s => foreach l' s (body a)) = foreach (list_prod l l') s (fun ab => body (fst ab) (snd ab)).
Proof.
  induction l as [|a l IH]; intros s; cbn [foreach list_prod]; [reflexivity|]. rewrite foreach_app, foreach_map. cbn [fst snd].
  destruct (foreach l' s (body a)); cbn [bind]; auto.
Qed.

(** *** Numbers *)
Lemma whole_ok n : Z.of_nat n <= 2 ^ 24 -> pat (usize_f32 n) /\ dat (usize_f32 n) = whole n.
Proof. exact (cnt_of n). Qed.

Section Dirs.
  Variables (w h ns : nat).
  Hypothesis Hw : Z.of_nat w <= 2 ^ 24.
  Hypothesis Hh : Z.of_nat h <= 2 ^ 24.
  Hypothesis Hn : Z.of_nat ns <= 2 ^ 24.
  Lemma p_m1 : pat (f32_neg f32_1) /\ dat (f32_neg f32_1) = Fin true (-1).
  Proof. split; [apply p_neg, p_1|]. rewrite d_neg by apply p_1. rewrite d_1. reflexivity. Qed.
  Lemma d_whole2 : dat f32_2 = whole 2.
  Proof. rewrite d_2. reflexivity. Qed.

  (** One formula for the three versions: [a] and [b] are the parts, [hw] and [hh] the halves. *)
  Definition dir_by (a b hw hh : Z) (x y : nat) : v3 :=
    V3 (fl_div 4 (fl_mul 4 (fl_div 4 (fl_sub 4 (fl_add 4 (usize_f32 x) a) hw) hw) (usize_f32 w)) (usize_f32 h))
       (fl_div 4 (f32_neg (fl_sub 4 (fl_add 4 (usize_f32 y) b) hh)) hh) (f32_neg f32_1).
  Lemma dir_by_ok (part : nat -> nat -> datum -> Prop) a b hw hh x y u v : pat a -> pat b -> pat hw -> pat hh -> (x < w)%nat -> (y < h)%nat ->
    part ns u (dat a) -> part ns v (dat b) -> ieee_div 4 (whole w) (whole 2) (dat hw) -> ieee_div 4 (whole h) (whole 2) (dat hh) ->
    is_v3 (dir_by a b hw hh x y) /\ view part w h ns x y u v (point_of (dir_by a b hw hh x y)).
  Proof.
    intros PA PB PW PH Hx Hy A B W H.
    destruct (whole_ok x) as [X1 X2]; [lia|]. destruct (whole_ok y) as [Y1 Y2]; [lia|].
    destruct (whole_ok w Hw) as [W1 W2]. destruct (whole_ok h Hh) as [H1 H2]. destruct p_m1 as [M1 M2].
    unfold dir_by. split.
    - split; [|split]; cbn [vx vy vz]; [| |exact M1].
      + apply p_div; [apply p_mul; [apply p_div; [apply p_sub; [apply p_add|]|]|]|]; assumption.
      + apply p_div; [apply p_neg, p_sub; [apply p_add|]|]; assumption.
    - unfold point_of. cbn [vx vy vz]. rewrite M2.
      assert (P1 : pat (fl_add 4 (usize_f32 x) a)) by now apply p_add.
      assert (P2 : pat (fl_sub 4 (fl_add 4 (usize_f32 x) a) hw)) by now apply p_sub.
      assert (P3 : pat (fl_div 4 (fl_sub 4 (fl_add 4 (usize_f32 x) a) hw) hw)) by now apply p_div.
      assert (P4 : pat (fl_mul 4 (fl_div 4 (fl_sub 4 (fl_add 4 (usize_f32 x) a) hw) hw) (usize_f32 w))) by now apply p_mul.
      assert (Q1 : pat (fl_add 4 (usize_f32 y) b)) by now apply p_add.
      assert (Q2 : pat (fl_sub 4 (fl_add 4 (usize_f32 y) b) hh)) by now apply p_sub.
      exists (dat a), (dat b), (dat hw), (dat hh). eexists _, _, _, _, _, _, _, _.
      split; [exact A|]. split; [exact B|]. split; [exact W|]. split; [exact H|].
      split; [rewrite <- X2; now apply d_add|]. split; [now apply d_sub|]. split; [now apply d_div|].
      split; [rewrite <- W2; now apply d_mul|]. split; [rewrite <- H2; now apply d_div|].
      split; [rewrite <- Y2; now apply d_add|]. split; [now apply d_sub|]. split; [|reflexivity].
      rewrite <- d_neg by exact Q2. apply d_div; [now apply p_neg|exact PH].
  Qed.
  Lemma half_div n : Z.of_nat n <= 2 ^ 24 -> pat (fl_div 4 (usize_f32 n) f32_2) /\ ieee_div 4 (whole n) (whole 2) (dat (fl_div 4 (usize_f32 n) f32_2)).
  Proof.
    intros H. destruct (whole_ok n H) as [P1 P2]. split; [apply p_div; [exact P1|exact p_2]|]. rewrite <- P2, <- d_whole2. apply d_div; [exact P1|exact p_2].
  Qed.
  Lemma part_ok u : (u < ns)%nat -> pat (fl_div 4 (usize_f32 u) (usize_f32 ns)) /\ part_of ns u (dat (fl_div 4 (usize_f32 u) (usize_f32 ns))).
  Proof.
    intros H. destruct (whole_ok u) as [U1 U2]; [lia|]. destruct (whole_ok ns Hn) as [N1 N2]. split; [now apply p_div|].
    unfold part_of. rewrite <- U2, <- N2. now apply d_div.
  Qed.
  Lemma inv_ok : pat (fl_div 4 f32_1 (usize_f32 ns)) /\ ieee_div 4 one (whole ns) (dat (fl_div 4 f32_1 (usize_f32 ns))).
  Proof.
    destruct (whole_ok ns Hn) as [N1 N2]. split; [apply p_div; [exact p_1|exact N1]|]. unfold one. rewrite <- d_1, <- N2. apply d_div; [exact p_1|exact N1].
  Qed.
  Lemma times_part_ok u : (u < ns)%nat -> let a := fl_mul 4 (usize_f32 u) (fl_div 4 f32_1 (usize_f32 ns)) in pat a /\ times_part ns u (dat a).
  Proof.
    intros H a. destruct (whole_ok u) as [U1 U2]; [lia|]. destruct inv_ok as [I1 I2]. split; [now apply p_mul|].
    eexists. split; [exact I2|]. rewrite <- U2. now apply d_mul.
  Qed.
  Lemma scalar_dir_ok x y u v : (x < w)%nat -> (y < h)%nat -> (u < ns)%nat -> (v < ns)%nat ->
    is_v3 (scalar_dir w h ns x y u v) /\ view part_of w h ns x y u v (point_of (scalar_dir w h ns x y u v)).
  Proof.
    intros Hx Hy Hu Hv. destruct (part_ok u Hu) as [A1 A2]. destruct (part_ok v Hv) as [B1 B2].
    destruct (half_div w Hw) as [C1 C2]. destruct (half_div h Hh) as [D1 D2].
    exact (dir_by_ok part_of _ _ _ _ x y u v A1 B1 C1 D1 Hx Hy A2 B2 C2 D2).
  Qed.
  Lemma vector_par_dir_ok x y u v : (x < w)%nat -> (y < h)%nat -> (u < ns)%nat -> (v < ns)%nat ->
    is_v3 (vector_par_dir w h ns x y u v) /\ view times_part w h ns x y u v (point_of (vector_par_dir w h ns x y u v)).
  Proof.
    intros Hx Hy Hu Hv. destruct (times_part_ok u Hu) as [A1 A2]. destruct (times_part_ok v Hv) as [B1 B2].
    destruct (half_div w Hw) as [C1 C2]. destruct (half_div h Hh) as [D1 D2].
    exact (dir_by_ok times_part _ _ _ _ x y u v A1 B1 C1 D1 Hx Hy A2 B2 C2 D2).
  Qed.
  (** Multiplying with 0.5 is dividing by 2. *)
  Lemma d_half : pat f32_half /\ dat f32_half = Fin false (/ 2).
  Proof.
    split; [vm_compute; split; congruence|].
    unfold f32_datum, datum_of, magnitude. change (exp_field 4 f32_half) with 126. change (sig_field 4 f32_half) with 0.
    change (sign_field 4 f32_half) with false. change (2 ^ exp_width 4 - 1) with 255. cbn [Z.eqb Pos.eqb]. f_equal. vm_compute. lra.
  Qed.
  Lemma half_mul n : Z.of_nat n <= 2 ^ 24 -> pat (fl_mul 4 (usize_f32 n) f32_half) /\ ieee_div 4 (whole n) (whole 2) (dat (fl_mul 4 (usize_f32 n) f32_half)).
  Proof.
    intros H. destruct (whole_ok n H) as [P1 P2]. destruct d_half as [Q1 Q2]. split; [now apply p_mul|].
    pose proof (d_mul _ _ P1 Q1) as D. rewrite P2, Q2 in D. unfold whole in *. cbn [ieee_mul ieee_div] in *.
    rewrite Flocq.Core.Raux.Req_bool_false by (cbn [INR]; lra). replace (INR n / INR 2)%R with (INR n * / 2)%R; [exact D|]. cbn [INR]. replace (1 + 1)%R with 2%R by lra. reflexivity.
  Qed.
  Lemma vector_dir_ok x y u v : (x < w)%nat -> (y < h)%nat -> (u < ns)%nat -> (v < ns)%nat ->
    is_v3 (vector_dir w h ns x y u v) /\ view times_part w h ns x y u v (point_of (vector_dir w h ns x y u v)).
  Proof.
    intros Hx Hy Hu Hv. destruct (times_part_ok u Hu) as [A1 A2]. destruct (times_part_ok v Hv) as [B1 B2].
    destruct (half_mul w Hw) as [C1 C2]. destruct (half_mul h Hh) as [D1 D2].
    exact (dir_by_ok times_part _ _ _ _ x y u v A1 B1 C1 D1 Hx Hy A2 B2 C2 D2).
  Qed.
End Dirs.

(** *** Cells of the image *)
Lemma update_mid (pre : list Z) a post b : Base.update (pre ++ a :: post) (length pre) b = pre ++ b :: post.
Proof. induction pre as [|x pre IH]; cbn [app length Base.update]; [reflexivity|]. now rewrite IH. Qed.
Lemma combine_app' {A B} (l1 l2 : list A) (m1 m2 : list B) : length l1 = length m1 -> combine (l1 ++ l2) (m1 ++ m2) = combine l1 m1 ++ combine l2 m2.
Proof. revert m1. induction l1 as [|a l1 IH]; intros [|b m1] H; try discriminate H; cbn [app combine]; [reflexivity|]. rewrite IH by (cbn [length] in H; lia). reflexivity. Qed.
Lemma In_firstn {A} n (x : A) l : In x (firstn n l) -> In x l.
Proof. intros I. rewrite <- (firstn_skipn n l). apply in_or_app. now left. Qed.
Lemma In_skipn {A} n (x : A) l : In x (skipn n l) -> In x l.
Proof. intros I. rewrite <- (firstn_skipn n l). apply in_or_app. now right. Qed.
Lemma change_ok op pre a post r : change op (length pre) r (pre ++ a :: post) = Ok (pre ++ op a r :: post).
Proof.
  unfold change. rewrite nth_error_app2 by lia. rewrite Nat.sub_diag. cbn [nth_error]. now rewrite update_mid.
Qed.
Lemma change3_ok op pre a b c post r :
  change3 op (length pre) r (pre ++ a :: b :: c :: post) = Ok (pre ++ op a r :: op b r :: op c r :: post).
Proof.
  unfold change3. rewrite Nat.add_0_r, change_ok. cbn [bind].
  replace (length pre + 1)%nat with (length (pre ++ [op a r])) by (rewrite app_length; reflexivity).
  replace (pre ++ op a r :: b :: c :: post) with ((pre ++ [op a r]) ++ b :: c :: post) by now rewrite <- app_assoc.
  rewrite change_ok. cbn [bind].
  replace (length pre + 2)%nat with (length (pre ++ [op a r; op b r])) by (rewrite app_length; reflexivity).
  replace ((pre ++ [op a r]) ++ op b r :: c :: post) with ((pre ++ [op a r; op b r]) ++ c :: post) by now rewrite <- !app_assoc.
  rewrite change_ok. now rewrite <- app_assoc.
Qed.
Lemma in_turn_app {A B St} (R : A -> St -> B -> St -> Prop) l l' st bs st1 bs' st' :
  in_turn R l st bs st1 -> in_turn R l' st1 bs' st' -> in_turn R (l ++ l') st (bs ++ bs') st'.
Proof. intros C D. induction C; cbn [app]; [exact D|]. econstructor; eauto. Qed.
Lemma in_turn_length {A B St} (R : A -> St -> B -> St -> Prop) l st bs st' : in_turn R l st bs st' -> length bs = length l.
Proof. intros C. induction C; cbn [length]; lia. Qed.
Lemma grid_In a b u v : In (u, v) (grid a b) -> (u < a)%nat /\ (v < b)%nat.
Proof. intros I. apply in_prod_iff in I. rewrite !in_seq in I. lia. Qed.

(** *** Sums *)
Definition summed (f : Z -> Z) (rs : list Z) (a : Z) : Z := fold_left (fun s r => fl_add 4 s (f r)) rs a.
Lemma summed_ok f rs : (forall r, pat r -> pat (f r)) -> Forall is_f32 rs -> forall a, pat a ->
  pat (summed f rs a) /\ added (dat a) (map (fun r => dat (f r)) rs) (dat (summed f rs a)).
Proof.
  intros HF F. induction F as [|r rs Hr F IH]; intros a Ha; cbn [summed fold_left map]; [split; [exact Ha|constructor]|].
  assert (PF : pat (f r)) by now apply HF. assert (P : pat (fl_add 4 a (f r))) by now apply p_add.
  destruct (IH _ P) as [Q R]. split; [exact Q|]. econstructor; [|exact R]. now apply d_add.
Qed.

Section Loops.
  Context {St : Type}.
  Variables (sc : scene St) (ns w h : nat).
  Variables (occ : isect -> St -> outcome (Z * St)) (dir : nat -> nat -> nat -> nat -> nat -> nat -> nat -> v3).
  Variables (occlusion : isect -> St -> datum -> St -> Prop) (direction : nat -> nat -> nat -> nat -> point -> Prop) (ok : St -> Prop).
  Hypothesis HSC : is_scene sc.
  Hypothesis HO : forall i st, is_isect i -> ok st -> exists r st', occ i st = Ok (r, st') /\ is_f32 r /\ occlusion i st (dat r) st' /\ ok st'.
  Hypothesis HD : forall x y u v, (x < w)%nat -> (y < h)%nat -> (u < ns)%nat -> (v < ns)%nat ->
    is_v3 (dir w h ns x y u v) /\ direction x y u v (point_of (dir w h ns x y u v)).
  Hypothesis Hn : Z.of_nat ns <= 2 ^ 24.

  Lemma isect_0_ok : is_isect isect_0.
  Proof. vm_compute. intuition congruence. Qed.
  Lemma v3_0_ok : is_v3 v3_0.
  Proof. vm_compute. intuition congruence. Qed.
  Lemma normalized_ok a : is_v3 a -> is_v3 (normalized a) /\ unit_vector left_to_right (point_of a) (point_of (normalized a)).
  Proof. intros H. exact (nrm_ok left_to_right dot scale_v3 ldot_scalar scale_ok a H). Qed.

  Lemma ray_value_ok x y u v st : (x < w)%nat -> (y < h)%nat -> (u < ns)%nat -> (v < ns)%nat -> ok st ->
    exists r st', ray_value sc ns w h occ dir x y u v st = Ok (r, st') /\ is_f32 r /\
      ray_seen occlusion direction (objects sc) x y (u, v) st (dat r) st' /\ ok st'.
  Proof.
    intros Hx Hy Hu Hv O. destruct (HD x y u v Hx Hy Hu Hv) as [D1 D2]. destruct (normalized_ok _ D1) as [N1 N2].
    unfold ray_value. set (rr := Ray v3_0 (normalized (dir w h ns x y u v))) in *.
    destruct (scene_scalar (sc_spheres sc) (sc_plane sc) rr isect_0) as [S1 S2]; [split; [exact v3_0_ok|exact N1]|apply HSC|apply HSC|exact isect_0_ok|].
    set (i := intersect_scene _ _ _ _) in *.
    assert (SE : sees left_to_right rounded_twice (objects sc) (point_of (dir w h ns x y u v)) i).
    { exists rr. split; [reflexivity|]. split; [exact N2|exact S1]. }
    destruct (i_hit i) eqn:EI.
    - destruct (HO i st S2 O) as (r & st' & E & P & Q & O'). exists r, st'. split; [exact E|]. split; [exact P|]. split; [|exact O'].
      exists (point_of (dir w h ns x y u v)), i. split; [exact D2|]. split; [exact SE|]. right. now split.
    - exists f32_0, st. split; [reflexivity|]. split; [exact p_0|]. split; [|exact O].
      exists (point_of (dir w h ns x y u v)), i. split; [exact D2|]. split; [exact SE|]. left. split; [exact EI|]. split; [exact d_0|reflexivity].
  Qed.

  Lemma pixel_rays_ok f x y pre post st a b c : (x < w)%nat -> (y < h)%nat -> ok st ->
    exists rs st', pixel_rays sc ns w h occ dir f (length pre) x y (pre ++ a :: b :: c :: post, st) =
        Ok (pre ++ summed f rs a :: summed f rs b :: summed f rs c :: post, st') /\ Forall is_f32 rs /\
      pixel_seen occlusion direction (objects sc) ns (y, x) st (map dat rs) st' /\ ok st'.
  Proof.
    intros Hx Hy O. unfold pixel_rays, pixel_seen.
    rewrite (foreach_prod (fun u v s => let (image, st) := s : list Z * St in
      rs <- ray_value sc ns w h occ dir x y u v st ;;
      let (ret, st) := rs : Z * St in
      image <- change3 (fl_add 4) (length pre) (f ret) image ;; Ok (image, st))).
    fold (grid ns ns).
    assert (IN : forall p, In p (grid ns ns) -> (fst p < ns)%nat /\ (snd p < ns)%nat) by (intros [u v] I; exact (grid_In _ _ _ _ I)).
    revert IN st O a b c. generalize (grid ns ns). intros l. induction l as [|p l IH]; intros IN st O a b c; cbn [foreach].
    - exists [], st. split; [reflexivity|]. split; [constructor|]. split; [constructor|exact O].
    - destruct (IN p (or_introl eq_refl)) as [I1 I2].
      destruct (ray_value_ok x y (fst p) (snd p) st Hx Hy I1 I2 O) as (r & st1 & E & P & Q & O1).
      rewrite E. cbn [bind]. rewrite change3_ok. cbn [bind].
      destruct (IH (fun p I => IN p (or_intror I)) st1 O1 (fl_add 4 a (f r)) (fl_add 4 b (f r)) (fl_add 4 c (f r))) as (rs & st' & E' & P' & Q' & O').
      exists (r :: rs), st'. split; [exact E'|]. split; [now constructor|]. split; [|exact O'].
      cbn [map]. econstructor; [|exact Q']. destruct p. exact Q.
  Qed.

  (** What a pixel function has to do. *)
  Definition pixel_fine (becomes : datum -> list datum -> datum -> Prop) (pixel : nat -> nat -> nat -> list Z * St -> outcome (list Z * St)) : Prop :=
    forall x y pre post st a b c, (x < w)%nat -> (y < h)%nat -> ok st -> is_f32 a -> is_f32 b -> is_f32 c ->
    exists cs a' b' c' st', pixel (length pre) x y (pre ++ a :: b :: c :: post, st) = Ok (pre ++ a' :: b' :: c' :: post, st') /\
      is_f32 a' /\ is_f32 b' /\ is_f32 c' /\ becomes (dat a) cs (dat a') /\ becomes (dat b) cs (dat b') /\ becomes (dat c) cs (dat c') /\
      pixel_seen occlusion direction (objects sc) ns (y, x) st cs st' /\ ok st'.

  Lemma scalar_pixel_fine : Z.of_nat (ns * ns) <= 2 ^ 24 -> pixel_fine (divided ns) (scalar_pixel sc ns w h occ dir).
  Proof.
    intros HN x y pre post st a b c Hx Hy O A B C. unfold scalar_pixel.
    destruct (pixel_rays_ok (fun r => r) x y pre post st a b c Hx Hy O) as (rs & st' & E & F & Q & O'). rewrite E. cbn [bind].
    rewrite change3_ok. cbn [bind]. destruct (whole_ok (ns * ns) HN) as [W1 W2].
    assert (K : forall a, pat a -> pat (fl_div 4 (summed (fun r => r) rs a) (usize_f32 (ns * ns))) /\
      divided ns (dat a) (map dat rs) (dat (fl_div 4 (summed (fun r => r) rs a) (usize_f32 (ns * ns))))).
    { intros z Z. destruct (summed_ok (fun r => r) rs (fun r H => H) F z Z) as [S1 S2]. split; [now apply p_div|].
      eexists. split; [exact S2|]. rewrite <- W2. now apply d_div. }
    eexists (map dat rs), _, _, _, st'. split; [reflexivity|].
    split; [exact (proj1 (K a A))|]. split; [exact (proj1 (K b B))|]. split; [exact (proj1 (K c C))|].
    split; [exact (proj2 (K a A))|]. split; [exact (proj2 (K b B))|]. split; [exact (proj2 (K c C))|]. split; [exact Q|exact O'].
  Qed.
  Lemma vector_pixel_fine : pixel_fine (scaled ns) (vector_pixel sc ns w h occ dir).
  Proof.
    intros x y pre post st a b c Hx Hy O A B C. unfold vector_pixel. destruct (inv_ok ns Hn) as [I1 I2].
    set (inv := fl_div 4 f32_1 (usize_f32 ns)) in *. set (f := fun ret => fl_mul 4 (fl_mul 4 ret inv) inv).
    destruct (pixel_rays_ok f x y pre post st a b c Hx Hy O) as (rs & st' & E & F & Q & O'). rewrite E.
    assert (PF : forall r, pat r -> pat (f r)) by (intros r H; unfold f; apply p_mul; [now apply p_mul|exact I1]).
    assert (K : forall a, pat a -> pat (summed f rs a) /\ scaled ns (dat a) (map dat rs) (dat (summed f rs a))).
    { intros z Z. destruct (summed_ok f rs PF F z Z) as [S1 S2]. split; [exact S1|].
      exists (dat inv), (map (fun r => dat (f r)) rs). split; [exact I2|]. split; [|exact S2].
      clear - F I1. induction F as [|r rs Hr F IH]; cbn [map]; constructor; [|exact IH].
      exists (dat (fl_mul 4 r inv)). unfold f. split; [now apply d_mul|]. apply d_mul; [now apply p_mul|exact I1]. }
    eexists (map dat rs), _, _, _, st'. split; [reflexivity|].
    split; [exact (proj1 (K a A))|]. split; [exact (proj1 (K b B))|]. split; [exact (proj1 (K c C))|].
    split; [exact (proj2 (K a A))|]. split; [exact (proj2 (K b B))|]. split; [exact (proj2 (K c C))|]. split; [exact Q|exact O'].
  Qed.

  Section Paint.
    Variables (becomes : datum -> list datum -> datum -> Prop) (pixel : nat -> nat -> nat -> list Z * St -> outcome (list Z * St)).
    Hypothesis HP : pixel_fine becomes pixel.

    Lemma painted_nil : painted becomes [] [] [].
    Proof. split; [reflexivity|]. split; [constructor|]. intros [|k] c cs p q _ H; discriminate H. Qed.
    Lemma painted_cons a b c a' b' c' cs old css new : is_f32 a' -> is_f32 b' -> is_f32 c' ->
      becomes (dat a) cs (dat a') -> becomes (dat b) cs (dat b') -> becomes (dat c) cs (dat c') ->
      painted becomes old css new -> painted becomes (a :: b :: c :: old) (cs :: css) (a' :: b' :: c' :: new).
    Proof.
      intros A B C RA RB RC (L & F & H). split; [cbn [length]; now rewrite L|]. split; [exact (Forall_cons _ A (Forall_cons _ B (Forall_cons _ C F)))|].
      intros [|k] j ds p q J E EP EQ.
      - cbn [nth_error] in E. injection E as E. subst ds. rewrite Nat.mul_0_r, Nat.add_0_l in EP, EQ.
        destruct j as [|[|[|j]]]; [| | |lia]; cbn [nth_error] in EP, EQ; injection EP as EP; injection EQ as EQ; subst; assumption.
      - replace (3 * S k + j)%nat with (S (S (S (3 * k + j)))) in EP, EQ by lia. cbn [nth_error] in E, EP, EQ. eapply H; eassumption.
    Qed.
    Lemma three_more (img : list Z) n : length img = (3 * S n)%nat -> exists a b c img', img = a :: b :: c :: img' /\ length img' = (3 * n)%nat.
    Proof. intros L. destruct img as [|a [|b [|c img']]]; cbn [length] in L; try lia. exists a, b, c, img'. split; [reflexivity|lia]. Qed.

    (** Pixels one after the other, the first of them number [k]. *)
    Lemma pixels_ok l : (forall p, In p l -> (fst p < h)%nat /\ (snd p < w)%nat) ->
      forall k pre img post st, length pre = (3 * k)%nat -> length img = (3 * length l)%nat -> Forall is_f32 img -> ok st ->
      exists css new st', foreach (combine (seq k (length l)) l) (pre ++ img ++ post, st) (fun kp => pixel (3 * fst kp)%nat (snd (snd kp)) (fst (snd kp))) =
          Ok (pre ++ new ++ post, st') /\
        in_turn (pixel_seen occlusion direction (objects sc) ns) l st css st' /\ painted becomes img css new /\ ok st'.
    Proof.
      induction l as [|[y x] l IH]; intros IN k pre img post st LP LI F O; cbn [length seq combine foreach].
      - destruct img; [|discriminate LI]. exists [], [], st. split; [reflexivity|]. split; [constructor|]. split; [exact painted_nil|exact O].
      - destruct (three_more img (length l) LI) as (a & b & c & img' & -> & LI'). cbn [app fst snd]. rewrite <- LP.
        inversion F as [|? ? FA F1]; subst. inversion F1 as [|? ? FB F2]; subst. inversion F2 as [|? ? FC F3]; subst.
        destruct (IN (y, x) (or_introl eq_refl)) as [I1 I2]. cbn [fst snd] in I1, I2.
        destruct (HP x y pre (img' ++ post) st a b c I2 I1 O FA FB FC) as (cs & a' & b' & c' & st1 & E & PA & PB & PC & RA & RB & RC & Q & O1).
        rewrite E. cbn [bind].
        destruct (IH (fun p I => IN p (or_intror I)) (S k) (pre ++ [a'; b'; c']) img' post st1) as (css & new & st' & E' & Q' & P' & O').
        + rewrite app_length. cbn [length]. lia.
        + exact LI'.
        + exact F3.
        + exact O1.
        + exists (cs :: css), (a' :: b' :: c' :: new), st'.
          rewrite <- !app_assoc in E'. cbn [app] in E'. split; [exact E'|]. split; [econstructor; eassumption|]. split; [now apply painted_cons|exact O'].
    Qed.

    Lemma grid_numbers_from n : forall y, combine (seq (y * w) (n * w)) (list_prod (seq y n) (seq 0 w)) =
      map (fun p : nat * nat => (fst p * w + snd p, p))%nat (list_prod (seq y n) (seq 0 w)).
    Proof.
      induction n as [|n IH]; intros y; [reflexivity|]. cbn [Nat.mul seq list_prod]. rewrite seq_app, map_app, <- IH.
      rewrite combine_app' by (rewrite map_length, !seq_length; reflexivity).
      replace (S y * w)%nat with (y * w + w)%nat by lia. f_equal. rewrite map_map. cbn [fst snd].
      clear. generalize (y * w)%nat. intros m.
      enough (G : forall j, combine (seq (m + j) w) (map (fun x => (y, x)) (seq j w)) = map (fun x => (m + x, (y, x)))%nat (seq j w)).
      { rewrite <- (G 0%nat). now rewrite Nat.add_0_r. }
      induction w as [|v IH]; intros j; cbn [seq map combine]; [reflexivity|]. f_equal. rewrite <- IH. now rewrite Nat.add_succ_r.
    Qed.
    Lemma grid_numbers : combine (seq 0 (h * w)) (grid h w) = map (fun p : nat * nat => (fst p * w + snd p, p))%nat (grid h w).
    Proof. exact (grid_numbers_from h 0). Qed.

    Lemma all_pixels_ok img st : length img = (3 * (h * w))%nat -> Forall is_f32 img -> ok st ->
      exists css new st', all_pixels w h pixel img st = Ok (new, st') /\
        in_turn (pixel_seen occlusion direction (objects sc) ns) (grid h w) st css st' /\ painted becomes img css new /\ ok st'.
    Proof.
      intros L F O. assert (LG : length (grid h w) = (h * w)%nat) by (unfold grid; now rewrite prod_length, !seq_length).
      destruct (pixels_ok (grid h w)) with (k := 0%nat) (pre := @nil Z) (img := img) (post := @nil Z) (st := st) as (css & new & st' & E & Q & P & O').
      - intros [y x] I. exact (grid_In _ _ _ _ I).
      - reflexivity.
      - now rewrite LG.
      - exact F.
      - exact O.
      - exists css, new, st'. split; [|now split]. rewrite !app_nil_r in E. cbn [app] in E. rewrite <- E, LG, grid_numbers, foreach_map. cbn [fst snd].
        unfold all_pixels. rewrite (foreach_prod (fun y x s => pixel (3 * (y * w + x))%nat x y s)). reflexivity.
    Qed.
    Lemma row_pixels_ok y row st : (y < h)%nat -> length row = (3 * w)%nat -> Forall is_f32 row -> ok st ->
      exists css new, row_pixels w pixel y row st = Ok new /\ painted becomes row css new /\
        exists st', in_turn (pixel_seen occlusion direction (objects sc) ns) (map (pair y) (seq 0 w)) st css st' /\ ok st'.
    Proof.
      intros Hy L F O. assert (LM : length (map (pair y) (seq 0 w)) = w) by now rewrite map_length, seq_length.
      destruct (pixels_ok (map (pair y) (seq 0 w))) with (k := 0%nat) (pre := @nil Z) (img := row) (post := @nil Z) (st := st) as (css & new & st' & E & Q & P & O').
      - intros p I. apply in_map_iff in I. destruct I as (x & <- & I). apply in_seq in I. cbn [fst snd]. lia.
      - reflexivity.
      - now rewrite LM.
      - exact F.
      - exact O.
      - exists css, new. rewrite !app_nil_r in E. cbn [app] in E. rewrite LM in E.
        unfold row_pixels. rewrite L, Nat.eqb_refl.
        replace (combine (seq 0 w) (map (pair y) (seq 0 w))) with (map (fun x => (x, (y, x))) (seq 0 w)) in E.
        + rewrite foreach_map in E. cbn [fst snd] in E.
          change (foreach (seq 0 w) (row, st) (fun x s => pixel (3 * x)%nat x y s)) with (foreach (seq 0 w) (row, st) (fun a => pixel (3 * a)%nat a y)). rewrite E. cbn [bind fst]. split; [reflexivity|]. split; [exact P|]. exists st'. now split.
        + clear. generalize 0%nat. induction w as [|v IH]; intros j; cbn [seq map combine]; [reflexivity|]. now rewrite IH.
    Qed.

    Lemma painted_app old css new old' css' new' : length old = (3 * length css)%nat -> painted becomes old css new -> painted becomes old' css' new' ->
      painted becomes (old ++ old') (css ++ css') (new ++ new').
    Proof.
      intros LO (L & F & H) (L' & F' & H'). split; [rewrite !app_length; lia|]. split; [now apply Forall_app|].
      intros k c cs p q C E EP EQ. destruct (Nat.lt_ge_cases k (length css)) as [K|K].
      - rewrite nth_error_app1 in E by exact K. rewrite nth_error_app1 in EP by lia. rewrite nth_error_app1 in EQ by lia. eapply H; eassumption.
      - rewrite nth_error_app2 in E by exact K. rewrite nth_error_app2 in EP by lia. rewrite nth_error_app2 in EQ by lia.
        replace (3 * k + c - length old)%nat with (3 * (k - length css) + c)%nat in EP by lia.
        replace (3 * k + c - length new)%nat with (3 * (k - length css) + c)%nat in EQ by lia. eapply H'; eassumption.
    Qed.
    Lemma firstn_whole {A} (l : list A) n m : length l = (n * S m)%nat -> length (firstn n l) = n /\ length (skipn n l) = (n * m)%nat.
    Proof. intros L. rewrite firstn_length, skipn_length. lia. Qed.
    (** Rows [y] to [y + n]. *)
    Lemma parts_ok (start : nat -> St) : (forall y, ok (start y)) -> (0 < w)%nat -> forall n fuel y img, (n <= fuel)%nat -> (y + n <= h)%nat ->
      length img = (3 * w * n)%nat -> Forall is_f32 img ->
      exists csss new, parts (fun y row => row_pixels w pixel y row (start y)) (3 * w) fuel y img = Ok new /\ length csss = n /\
        painted becomes img (concat csss) new /\
        forall j css, nth_error csss j = Some css -> exists st', in_turn (pixel_seen occlusion direction (objects sc) ns) (map (pair (y + j)%nat) (seq 0 w)) (start (y + j)%nat) css st'.
    Proof.
      intros OS W. induction n as [|n IH]; intros fuel y img HF HY L F.
      - rewrite Nat.mul_0_r in L. destruct img; [|discriminate L]. exists [], []. split; [destruct fuel; reflexivity|]. split; [reflexivity|]. split; [exact painted_nil|].
        intros [|j] css H; discriminate H.
      - destruct fuel as [|fuel]; [lia|]. destruct (firstn_whole img (3 * w) n L) as [L1 L2].
        assert (F1 : Forall is_f32 (firstn (3 * w) img)) by (apply Forall_forall; intros z I; rewrite Forall_forall in F; apply F; now apply In_firstn in I).
        assert (F2 : Forall is_f32 (skipn (3 * w) img)) by (apply Forall_forall; intros z I; rewrite Forall_forall in F; apply F; now apply In_skipn in I).
        destruct (row_pixels_ok y (firstn (3 * w) img) (start y)) as (css & r & E & P & st' & Q & _); [lia|exact L1|exact F1|apply OS|].
        destruct (IH fuel (S y) (skipn (3 * w) img)) as (csss & rest & E' & LC & P' & Q'); [lia|lia|exact L2|exact F2|].
        exists (css :: csss), (r ++ rest). split.
        + cbn [parts]. destruct img as [|z img]; [cbn [length] in L; lia|]. rewrite E. cbn [bind]. rewrite E'. reflexivity.
        + split; [cbn [length]; now rewrite LC|]. split.
          * cbn [concat]. rewrite <- (firstn_skipn (3 * w) img). apply painted_app; [|exact P|exact P'].
            rewrite L1. apply in_turn_length in Q. rewrite map_length, seq_length in Q. now rewrite Q.
          * intros [|j] cs H; cbn [nth_error] in H; [injection H as <-; rewrite Nat.add_0_r; now exists st'|].
            destruct (Q' j cs H) as [st2 C]. exists st2. now rewrite Nat.add_succ_r.
    Qed.
    Lemma par_ok (start : nat -> St) img : (forall y, ok (start y)) -> (0 < w)%nat -> length img = (3 * (h * w))%nat -> Forall is_f32 img ->
      exists csss new, par_chunks (fun y row => row_pixels w pixel y row (start y)) (3 * w) img = Ok new /\ length csss = h /\
        painted becomes img (concat csss) new /\
        forall y css, nth_error csss y = Some css -> exists st', in_turn (pixel_seen occlusion direction (objects sc) ns) (map (pair y) (seq 0 w)) (start y) css st'.
    Proof.
      intros OS W L F. destruct (parts_ok start OS W h (length img) 0 img) as (csss & new & E & R); [|lia| |exact F|].
      - rewrite L. clear - W. assert (h <= h * w)%nat by (rewrite <- (Nat.mul_1_r h) at 1; apply Nat.mul_le_mono_l; exact W). lia.
      - rewrite L. lia.
      - exists csss, new. split; [|exact R]. unfold par_chunks. destruct (3 * w)%nat eqn:E3; [lia|]. exact E.
    Qed.
  End Paint.
End Loops.
