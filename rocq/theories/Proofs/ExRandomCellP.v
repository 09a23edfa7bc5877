(** The handles of the random number generators: every thread draws one sequence. *)
From Coq Require Import ZArith List Bool Lia.
From Verif.Model Require Import Base Tables ExRandom ExRandomCell.
From Verif.Spec Require Import Spec Tausworthe Handles.
From Verif.Proofs Require Import Lib ExRandomP ExRandomMainP.
Import ListNotations.
Open Scope nat_scope.

(** ** Histories *)
Lemma made_snoc l e : made (l ++ [e]) = (made l + match e with GenFrom _ => 0 | _ => 1 end)%nat.
Proof. unfold made. rewrite filter_app, app_length. destruct e; reflexivity. Qed.
Lemma asked_snoc l e : asked (l ++ [e]) = (asked l + match e with GenFrom _ => 1 | _ => 0 end)%nat.
Proof. unfold asked. rewrite filter_app, app_length. destruct e; reflexivity. Qed.

Lemma proper_prefix l l' : proper (l ++ l') -> proper l.
Proof.
  intros P b a h [H|H].
  - apply (P b (a ++ l') h). left. rewrite H, <- app_assoc. reflexivity.
  - apply (P b (a ++ l') h). right. rewrite H, <- app_assoc. reflexivity.
Qed.

Lemma belongs_made l h t : belongs l h t -> h < made l.
Proof. induction 1; rewrite made_snoc; try lia. Qed.
Lemma belongs_snoc l e h t : belongs (l ++ [e]) h t ->
  belongs l h t \/ (h = made l /\ (e = ThreadRng t \/ exists h', e = CloneOf h' /\ belongs l h' t)).
Proof.
  intros B. inversion B as [l0 t0 E|l0 h0 t0 B0 E|l0 e0 h0 t0 B0 E]; apply app_inj_tail in E as [-> E'].
  - subst. right. auto.
  - subst. right. eauto.
  - subst. left. exact B0.
Qed.

(** ** Worlds *)
Section Cells.
  Context {S A : Type}.
  Variable s0 : S.
  Variable draw : S -> outcome (A * S).
  Variable Inv : S -> Prop.
  Hypothesis Inv0 : Inv s0.
  Hypothesis InvS : forall s, Inv s -> exists a s', draw s = Ok (a, s') /\ Inv s'.
  Let ev := do_event (Ok s0) draw.
  Let evs := do_events (Ok s0) draw.

  Fixpoint draws (n : nat) (s : S) : outcome (list A * S) :=
    match n with
    | O => Ok ([], s)
    | Datatypes.S n =>
        as_ <- draw s ;; let (a, s) := as_ : A * S in
        ls <- draws n s ;; let (l, s) := ls : list A * S in Ok (a :: l, s)
    end.
  Lemma draws_snoc n : forall s l s' a s'', draws n s = Ok (l, s') -> draw s' = Ok (a, s'') ->
    draws (Datatypes.S n) s = Ok (l ++ [a], s'').
  Proof.
    clear. induction n as [|n IH]; intros s l s' a s'' D E.
    - cbn in D. injection D as <- <-. cbn. rewrite E. reflexivity.
    - cbn [draws] in D. destruct (draw s) as [[b t]| |] eqn:Es; cbn [bind] in D; try discriminate.
      destruct (draws n t) as [[k t']| |] eqn:Ed; cbn [bind] in D; try discriminate. injection D as <- <-.
      change (draws (Datatypes.S (Datatypes.S n)) s) with
        (as_ <- draw s ;; let (a, s) := as_ : A * S in
         ls <- draws (Datatypes.S n) s ;; let (l, s) := ls : list A * S in Ok (a :: l, s)).
      rewrite Es. cbn [bind]. rewrite (IH t k t' a s'' Ed E). reflexivity.
  Qed.

  Lemma events_snoc l e : forall w tr w' a w'', evs w l = Ok (tr, w') -> ev w' e = Ok (a, w'') ->
    evs w (l ++ [e]) = Ok (tr ++ a, w'').
  Proof.
    clear. subst ev evs. induction l as [|x l IH]; intros w tr w' a w'' E F.
    - cbn in E. injection E as <- <-. cbn [app do_events]. rewrite F. cbn [bind]. now rewrite app_nil_r.
    - cbn [app do_events] in *. destruct (do_event (Ok s0) draw w x) as [[b u]| |]; cbn [bind] in *; try discriminate.
      destruct (do_events (Ok s0) draw u l) as [[c u']| |] eqn:El; cbn [bind] in *; try discriminate.
      injection E as <- <-. rewrite (IH u c u' a w'' El F). cbn [bind]. now rewrite app_assoc.
  Qed.

  Record state_after (l : list event) (tr : list (nat * A)) (w : world) : Prop := {
    sa_none : forall t, cells w t = None -> of_thread t tr = [];
    sa_some : forall t s, cells w t = Some s -> Inv s /\ draws (length (of_thread t tr)) s0 = Ok (of_thread t tr, s);
    sa_cell : forall h t, nth_error (handles w) h = Some t -> cells w t <> None;
    sa_made : length (handles w) = made l;
    sa_asked : length tr = asked l;
    sa_belongs : forall h t, nth_error (handles w) h = Some t <-> belongs l h t }.

  Lemma of_thread_app t (a b : list (nat * A)) : of_thread t (a ++ b) = of_thread t a ++ of_thread t b.
  Proof. unfold of_thread. now rewrite filter_app, map_app. Qed.

  Lemma nth_snoc {B} (l : list B) x h y :
    nth_error (l ++ [x]) h = Some y <-> (nth_error l h = Some y \/ (h = length l /\ x = y)).
  Proof.
    clear. destruct (Nat.lt_trichotomy h (length l)) as [L|[->|L]].
    - rewrite nth_error_app1 by exact L. split; [auto|]. intros [H|[H _]]; [exact H|lia].
    - rewrite nth_error_app2, Nat.sub_diag by lia. cbn. split; [intros [= ->]; auto|].
      intros [H|[_ ->]]; [|reflexivity]. assert (length l < length l)%nat by (apply nth_error_Some; congruence). lia.
    - rewrite nth_error_app2 by lia. destruct (h - length l)%nat as [|d] eqn:D; [lia|]. cbn. split.
      + destruct d; discriminate.
      + intros [H|[H _]]; [|lia]. assert (h < length l)%nat by (apply nth_error_Some; congruence). lia.
  Qed.

  Lemma after_event l tr w e : state_after l tr w ->
    (forall h, e = CloneOf h \/ e = GenFrom h -> h < made l) ->
    exists a w', ev w e = Ok (a, w') /\ state_after (l ++ [e]) (tr ++ a) w' /\
      forall h t, e = GenFrom h -> belongs l h t -> exists x, a = [(t, x)].
  Proof.
    intros [HN HS HC HM HA HB] PR. subst ev. destruct e as [t|h|h]; cbn [do_event].
    - (* thread_rng *)
      assert (K : exists w1, do_thread_rng (Ok s0) w t = Ok w1 /\ handles w1 = handles w ++ [t] /\
        cells w1 t <> None /\
        (forall t', t' <> t -> cells w1 t' = cells w t') /\
        (cells w1 t = cells w t \/ cells w t = None /\ cells w1 t = Some s0)).
      { unfold do_thread_rng. destruct (cells w t) as [s|] eqn:E.
        - exists (add_handle w t). split; [reflexivity|]. split; [reflexivity|]. cbn [cells add_handle].
          split; [congruence|]. split; [reflexivity|left; congruence].
        - cbn [bind]. eexists. split; [reflexivity|]. split; [reflexivity|]. cbn [cells add_handle store].
          rewrite Nat.eqb_refl. split; [discriminate|]. split; [|right; auto].
          intros t' N. destruct (Nat.eqb_spec t' t); [contradiction|reflexivity]. }
      destruct K as (w1 & -> & HH & C1 & C2 & C3). cbn [bind]. exists [], w1. split; [reflexivity|].
      split; [|intros h t' X; discriminate X]. rewrite app_nil_r. constructor.
      + intros t' Q. destruct (Nat.eq_dec t' t) as [->|N]; [contradiction|]. rewrite C2 in Q by exact N. auto.
      + intros t' s Q. destruct (Nat.eq_dec t' t) as [->|N].
        * destruct C3 as [C3|[C3 C4]]; [rewrite C3 in Q; auto|]. rewrite C4 in Q. injection Q as <-.
          rewrite (HN t C3). split; [exact Inv0|reflexivity].
        * rewrite C2 in Q by exact N. auto.
      + intros h t'. rewrite HH, nth_snoc. intros [Q|[_ ->]]; [|exact C1].
        destruct (Nat.eq_dec t' t) as [->|N]; [exact C1|]. rewrite C2 by exact N. now apply (HC h).
      + rewrite HH, app_length, HM, made_snoc. reflexivity.
      + rewrite HA, asked_snoc. cbn. lia.
      + intros h t'. rewrite HH, nth_snoc, HB, HM. split.
        * intros [Q|[-> ->]]; [now apply belongs_later|apply belongs_new].
        * intros Q. apply belongs_snoc in Q as [Q|[-> [Q|(h' & Q & _)]]]; [auto| |discriminate].
          injection Q as ->. auto.
    - (* clone *)
      specialize (PR h (or_introl eq_refl)). rewrite <- HM in PR.
      destruct (nth_error (handles w) h) as [t|] eqn:E; [|apply nth_error_None in E; lia].
      exists [], (add_handle w t). split; [reflexivity|]. split; [|intros h' t' X; discriminate X].
      rewrite app_nil_r. constructor; cbn [cells handles add_handle]; auto.
      + intros h' t'. rewrite nth_snoc. intros [Q|[_ ->]]; [now apply (HC h')|now apply (HC h)].
      + rewrite app_length, HM, made_snoc. reflexivity.
      + rewrite HA, asked_snoc. lia.
      + intros h' t'. rewrite nth_snoc, HB, HM. split.
        * intros [Q|[-> ->]]; [now apply belongs_later|]. apply belongs_copy. now apply HB.
        * intros Q. apply belongs_snoc in Q as [Q|[-> [Q|(h1 & Q & B)]]]; [auto|discriminate|].
          injection Q as <-. apply HB in B. rewrite E in B. injection B as ->. auto.
    - (* gen *)
      specialize (PR h (or_intror eq_refl)). rewrite <- HM in PR.
      destruct (nth_error (handles w) h) as [t|] eqn:E; [|apply nth_error_None in E; lia].
      unfold do_gen. destruct (cells w t) as [s|] eqn:C; [|destruct (HC h t E C)].
      destruct (HS t s C) as [I D]. destruct (InvS s I) as (a & s' & EA & I'). rewrite EA. cbn [bind].
      exists [(t, a)], (store w t s'). split; [reflexivity|]. split.
      2:{ intros h' t' X B. injection X as <-. apply HB in B. rewrite E in B. injection B as <-. eauto. }
      assert (OT : of_thread t (tr ++ [(t, a)]) = of_thread t tr ++ [a]).
      { rewrite of_thread_app. f_equal. unfold of_thread. cbn [filter fst]. now rewrite Nat.eqb_refl. }
      assert (OO : forall t', t' <> t -> of_thread t' (tr ++ [(t, a)]) = of_thread t' tr).
      { intros t' N. rewrite of_thread_app. unfold of_thread at 2. cbn [filter fst].
        destruct (Nat.eqb_spec t t'); [now subst|]. apply app_nil_r. }
      constructor; cbn [cells handles store].
      + intros t'. destruct (Nat.eqb_spec t' t) as [->|N]; [discriminate|]. rewrite OO by exact N. auto.
      + intros t' s1. destruct (Nat.eqb_spec t' t) as [->|N]; [|rewrite OO by exact N; auto].
        intros [= <-]. split; [exact I'|]. rewrite OT, app_length, Nat.add_comm. cbn [length Nat.add].
        now apply (draws_snoc _ s0 _ s).
      + intros h' t' Q. destruct (Nat.eqb t' t); [discriminate|now apply (HC h')].
      + rewrite HM, made_snoc. lia.
      + rewrite app_length, HA, asked_snoc. reflexivity.
      + intros h' t'. rewrite HB. split; [now apply belongs_later|].
        intros Q. apply belongs_snoc in Q as [Q|[-> [Q|(h1 & Q & B)]]]; [exact Q|discriminate|discriminate].
  Qed.

  Lemma program l : proper l -> exists tr w, evs start l = Ok (tr, w) /\ state_after l tr w /\
    forall before h after t, l = before ++ GenFrom h :: after -> belongs before h t ->
      exists x, nth_error tr (asked before) = Some (t, x).
  Proof.
    induction l as [|e l IH] using rev_ind; intros P.
    - exists [], start. split; [reflexivity|]. split; [|intros [|? ?] h a t Q; discriminate Q].
      constructor; cbn; try reflexivity; try discriminate.
      + intros h t. destruct h; discriminate.
      + intros h t. split; [destruct h; discriminate|]. intros B. apply belongs_made in B. cbn in B. lia.
    - destruct (IH (proper_prefix _ _ P)) as (tr & w & E & SA & G).
      destruct (after_event l tr w e SA) as (a & w' & E' & SA' & G').
      { intros h [-> | ->]; apply (P l [] h); auto. }
      exists (tr ++ a), w'. split; [now apply (events_snoc _ _ _ _ w)|]. split; [exact SA'|].
      intros before h after t Q B. destruct after as [|y after] using rev_ind.
      + apply app_inj_tail in Q as [-> ->]. destruct (G' h t eq_refl B) as [x ->]. exists x.
        rewrite nth_error_app2 by (rewrite (sa_asked _ _ _ SA); lia). now rewrite (sa_asked _ _ _ SA), Nat.sub_diag.
      + clear IHafter. rewrite app_comm_cons, app_assoc in Q. apply app_inj_tail in Q as [-> ->].
        destruct (G before h after t eq_refl B) as [x X]. exists x. rewrite nth_error_app1; [exact X|].
        apply nth_error_Some. congruence.
  Qed.
End Cells.

Lemma belongs_unique l h : proper l -> h < made l -> exists t, belongs l h t /\ forall t', belongs l h t' -> t' = t.
Proof.
  intros P M. destruct (program (A := unit) tt (fun _ => Ok (tt, tt)) (fun _ => True) I (fun s _ => ex_intro _ tt (ex_intro _ tt (conj eq_refl I))) l P)
    as (tr & w & _ & SA & _).
  destruct SA as [_ _ _ HM _ HB]. rewrite <- HM in M. destruct (nth_error (handles w) h) as [t|] eqn:E.
  - exists t. split; [now apply HB|]. intros t' B. apply HB in B. congruence.
  - apply nth_error_None in E. lia.
Qed.

(** ** The two generators *)
Lemma draws_gens n : forall s, draws (fun s => Ok (gen s)) n s = Ok (gens n s).
Proof.
  induction n as [|n IH]; intros s; [reflexivity|]. cbn [draws gens bind]. destruct (gen s) as [v r].
  rewrite IH. cbn [bind]. destruct (gens n r). reflexivity.
Qed.
Lemma draws_vgens wide n : forall s, draws (vgen wide) n s = vgens wide n s.
Proof.
  induction n as [|n IH]; intros s; [reflexivity|]. cbn [draws vgens]. destruct (vgen wide s) as [[v r]| |]; cbn [bind]; [now rewrite IH|reflexivity|reflexivity].
Qed.

Theorem scalar_handles l : proper l -> exists tr w, scalar_program l = Ok (tr, w) /\ length tr = asked l /\
  (forall t, of_thread t tr = fst (gens (length (of_thread t tr)) thread_rng)) /\
  (forall before h after t, l = before ++ GenFrom h :: after -> belongs before h t ->
     exists p, nth_error tr (asked before) = Some (t, p)).
Proof.
  intros P.
  assert (T : forall s : rng, True -> exists a s', Ok (gen s) = Ok (a, s') /\ True).
  { intros s _. destruct (gen s) as [a s']. now exists a, s'. }
  destruct (program thread_rng (fun s => Ok (gen s)) (fun _ => True) I T l P) as (tr & w & E & SA & G).
  exists tr, w. split; [exact E|]. split; [apply SA|]. split; [|exact G]. intros t.
  destruct (cells w t) as [s|] eqn:C.
  - destruct (sa_some _ _ _ _ _ _ SA t s C) as [_ D]. rewrite draws_gens in D. injection D as D. now rewrite D.
  - now rewrite (sa_none _ _ _ _ _ _ SA t C).
Qed.

Theorem vector_handles wide l : proper l -> exists r tr w, vthread_rng wide = Ok r /\ vector_program wide l = Ok (tr, w) /\
  length tr = asked l /\
  (forall t, exists r', vgens wide (length (of_thread t tr)) r = Ok (of_thread t tr, r')) /\
  (forall before h after t, l = before ++ GenFrom h :: after -> belongs before h t ->
     exists v, nth_error tr (asked before) = Some (t, v)).
Proof.
  intros P. set (r := vstate (map from_seed (incr01 wide))).
  assert (LN : length (incr01 wide) = vn (u32xN wide)) by (unfold incr01; now rewrite map_length, seq_length).
  assert (R : vthread_rng wide = Ok r) by (now apply vfrom_seed_lanes).
  assert (T0 : exists L, length L = vn (u32xN wide) /\ r = vstate L).
  { exists (map from_seed (incr01 wide)). now rewrite map_length. }
  assert (T : forall s, (exists L, length L = vn (u32xN wide) /\ s = vstate L) ->
    exists a s', vgen wide s = Ok (a, s') /\ exists L, length L = vn (u32xN wide) /\ s' = vstate L).
  { intros s (L & HL & ->). rewrite vgen_lanes by exact HL. eexists _, _. split; [reflexivity|].
    eexists. split; [|reflexivity]. now rewrite map_length. }
  destruct (program r (vgen wide) _ T0 T l P) as (tr & w & E & SA & G).
  exists r, tr, w. split; [exact R|]. split; [unfold vector_program; now rewrite R|]. split; [apply SA|].
  split; [|exact G]. intros t. destruct (cells w t) as [s|] eqn:C.
  - destruct (sa_some _ _ _ _ _ _ SA t s C) as [_ D]. rewrite draws_vgens in D. now exists s.
  - rewrite (sa_none _ _ _ _ _ _ SA t C). now exists r.
Qed.

Lemma gens_prefix n m r j p q : nth_error (fst (gens n r)) j = Some p -> nth_error (fst (gens m r)) j = Some q -> p = q.
Proof.
  revert m r j. induction n as [|n IH]; intros m r j; [destruct j; discriminate|].
  destruct m as [|m]; [destruct j; discriminate|]. cbn [gens]. destruct (gen r) as [v r'].
  specialize (IH m r'). destruct (gens n r') as [l1 r1]. destruct (gens m r') as [l2 r2].
  destruct j as [|j]; cbn [fst nth_error] in *; [congruence|apply IH].
Qed.

Theorem threads_agree l tr w t t' j p q : proper l -> scalar_program l = Ok (tr, w) ->
  nth_error (of_thread t tr) j = Some p -> nth_error (of_thread t' tr) j = Some q -> p = q.
Proof.
  intros P E A B. destruct (scalar_handles l P) as (tr' & w' & E' & _ & H & _). rewrite E in E'. injection E' as <- <-.
  rewrite H in A. rewrite H in B. exact (gens_prefix _ _ _ _ _ _ A B).
Qed.

(** Deciding [proper]. *)
Fixpoint check (m : nat) (l : list event) : bool :=
  match l with
  | [] => true
  | ThreadRng _ :: l => check (S m) l
  | CloneOf h :: l => Nat.ltb h m && check (S m) l
  | GenFrom h :: l => Nat.ltb h m && check m l
  end.
Lemma proper_check l : check 0 l = true -> proper l.
Proof.
  assert (G : forall l m, check m l = true -> forall before after h,
    l = before ++ CloneOf h :: after \/ l = before ++ GenFrom h :: after -> h < m + made before).
  { clear l. induction l as [|e l IH]; intros m C before after h H; [destruct H, before; discriminate|].
    destruct before as [|e' before].
    - cbn [app] in H. cbn [made filter length]. rewrite Nat.add_0_r.
      destruct H as [[= -> ->]|[= -> ->]]; cbn [check] in C; apply andb_prop in C as [C _]; now apply Nat.ltb_lt.
    - assert (Q : e' = e /\ (l = before ++ CloneOf h :: after \/ l = before ++ GenFrom h :: after)).
      { destruct H as [H|H]; cbn [app] in H; injection H as -> ->; auto. }
      destruct Q as [-> Q]. change (made (e :: before)) with (made ([e] ++ before)). unfold made. rewrite filter_app, app_length.
      fold (made before). destruct e; cbn [check filter length] in *.
      + specialize (IH _ C _ _ _ Q). lia.
      + apply andb_prop in C as [_ C]. specialize (IH _ C _ _ _ Q). lia.
      + apply andb_prop in C as [_ C]. specialize (IH _ C _ _ _ Q). lia. }
  intros C before after h H. exact (G l 0 C before after h H).
Qed.

Theorem same_numbers : exists l tr w, proper l /\ scalar_program l = Ok (tr, w) /\
  of_thread 0 tr = of_thread 1 tr /\ length (of_thread 0 tr) = 2 /\ NoDup (of_thread 0 tr).
Proof.
  exists [ThreadRng 0; ThreadRng 1; GenFrom 0; GenFrom 1; GenFrom 1; GenFrom 0].
  exists [(0, 1056785568%Z); (1, 1056785568%Z); (1, 1065288140%Z); (0, 1065288140%Z)].
  eexists. split; [apply proper_check; reflexivity|]. split; [vm_compute; reflexivity|].
  split; [reflexivity|]. split; [reflexivity|]. repeat constructor; cbn; intuition discriminate.
Qed.
