(** Formulas in f64. *)
From Coq Require Import ZArith List Bool Lia Reals Lra QArith.
From Flocq Require Import Core.
From Verif.Model Require Import Base FloatLane ExNbody.
From Verif.Spec Require Import Spec Floats Rays Formulas.
From Verif.Proofs Require Import Lib FloatP FloatOpsP FloatVecP FloatApiP FloatConstsP.
Import ListNotations.
Open Scope Z_scope.
Local Notation pat := (pattern 8).
Local Notation dat := (datum_of 8).
Local Opaque fl_add fl_sub fl_mul fl_div fl_sqrt.

Lemma fs8' : fsize 8.
Proof. now right. Qed.
Lemma q_add p q : pat p -> pat q -> pat (fl_add 8 p q).
Proof. intros P Q. exact (proj1 (add_pattern 8 fs8' p q P Q)). Qed.
Lemma q_sub p q : pat p -> pat q -> pat (fl_sub 8 p q).
Proof. intros P Q. exact (proj1 (sub_pattern 8 fs8' p q P Q)). Qed.
Lemma q_mul p q : pat p -> pat q -> pat (fl_mul 8 p q).
Proof. intros P Q. exact (proj1 (mul_pattern 8 fs8' p q P Q)). Qed.
Lemma q_div p q : pat p -> pat q -> pat (fl_div 8 p q).
Proof. intros P Q. exact (proj1 (div_pattern 8 fs8' p q P Q)). Qed.
Lemma q_sqrt p : pat p -> pat (fl_sqrt 8 p).
Proof. intros P. exact (proj1 (sqrt_pattern 8 fs8' p P)). Qed.
Lemma q_lit c : 0 <= c < 18446744073709551616 -> pat c.
Proof. intros H. exact H. Qed.
#[export] Hint Resolve q_add q_sub q_mul q_div q_sqrt : pats.

Lemma e_arg env i p : nth_error env i = Some (dat p) -> computed 8 env (Arg i) (dat p).
Proof. intros H. exact H. Qed.
Lemma e_num env x p : dat p = Fin (Rlt_bool x 0) (rounded 8 x) -> computed 8 env (Num x) (dat p).
Proof. intros H. exact H. Qed.
Lemma e_plus env a b p q : pat p -> pat q -> computed 8 env a (dat p) -> computed 8 env b (dat q) -> computed 8 env (Plus a b) (dat (fl_add 8 p q)).
Proof. intros P Q A B. exists (dat p), (dat q). split; [exact A|]. split; [exact B|]. exact (proj2 (add_pattern 8 fs8' p q P Q)). Qed.
Lemma e_minus env a b p q : pat p -> pat q -> computed 8 env a (dat p) -> computed 8 env b (dat q) -> computed 8 env (Minus a b) (dat (fl_sub 8 p q)).
Proof. intros P Q A B. exists (dat p), (dat q). split; [exact A|]. split; [exact B|]. exact (proj2 (sub_pattern 8 fs8' p q P Q)). Qed.
Lemma e_times env a b p q : pat p -> pat q -> computed 8 env a (dat p) -> computed 8 env b (dat q) -> computed 8 env (Times a b) (dat (fl_mul 8 p q)).
Proof. intros P Q A B. exists (dat p), (dat q). split; [exact A|]. split; [exact B|]. exact (proj2 (mul_pattern 8 fs8' p q P Q)). Qed.
Lemma e_over env a b p q : pat p -> pat q -> computed 8 env a (dat p) -> computed 8 env b (dat q) -> computed 8 env (Over a b) (dat (fl_div 8 p q)).
Proof. intros P Q A B. exists (dat p), (dat q). split; [exact A|]. split; [exact B|]. exact (proj2 (div_pattern 8 fs8' p q P Q)). Qed.
Lemma e_root env a p r : computed 8 env a (dat p) -> ieee_sqrt 8 (dat p) (dat r) -> computed 8 env (Root a) (dat r).
Proof. intros A B. exists (dat p). split; [exact A|exact B]. Qed.
Lemma e_sqrt env a p : pat p -> computed 8 env a (dat p) -> computed 8 env (Root a) (dat (fl_sqrt 8 p)).
Proof. intros P A. apply (e_root env a p _ A). exact (proj2 (sqrt_pattern 8 fs8' p P)). Qed.
Lemma q_neg p : pat p -> pat (f64_neg p) /\ dat (f64_neg p) = negated (dat p).
Proof.
  intros P. pose proof (sign_flip 8 p fs8' P) as H. cbv zeta in H. unfold f64_neg.
  unfold sign_field in H. change (8 * Z.of_nat 8 - 1) with 63 in H.
  rewrite Z.ltb_antisym. destruct (2 ^ 63 <=? p); exact H.
Qed.
Lemma e_opp env a p : pat p -> computed 8 env a (dat p) -> computed 8 env (Opposite a) (dat (f64_neg p)).
Proof. intros P A. exists (dat p). split; [exact A|]. exact (proj2 (q_neg p P)). Qed.

(** *** Literals *)
Lemma rounds_num x d : (0 < x)%R -> rounds_to 8 x false d -> (exists s y, d = Fin s y) -> d = Fin (Rlt_bool x 0) (rounded 8 x).
Proof.
  intros X (s & (_ & S & _) & E) (s' & y & F). rewrite (Rlt_bool_false x 0) by lra. rewrite (S X) in E.
  rewrite F in E. rewrite F. destruct (Rlt_bool _ _); [|discriminate]. congruence.
Qed.
Lemma num_datum m k p lo hi x :
  2 ^ 52 < m -> m < 2 ^ 53 -> 0 <= k -> k <= 1074 ->
  datum_of 8 p = Fin false (IZR m * bpow radix2 (- k)) -> (0 < x)%R -> (Q2R lo <= x <= Q2R hi)%R ->
  Qle_bool lo (2 * m - 1 # Z.to_pos (2 ^ (k + 1))) = false ->
  Qle_bool (2 * m + 1 # Z.to_pos (2 ^ (k + 1))) hi = false ->
  dat p = Fin (Rlt_bool x 0) (rounded 8 x).
Proof.
  intros A B C D E P Q Ql Qh. apply rounds_num; [exact P| |rewrite E; eauto].
  exact (const_rounds 8 m k p lo hi x fs8' A B C D E Q Ql Qh).
Qed.
Lemma neg_num p x : pat p -> (0 < x)%R -> dat p = Fin (Rlt_bool x 0) (rounded 8 x) ->
  dat (f64_neg p) = Fin (Rlt_bool (- x) 0) (rounded 8 (- x)).
Proof.
  intros P X E. rewrite (proj2 (q_neg p P)), E. cbn [negated]. rewrite (Rlt_bool_false x 0) by lra. rewrite (Rlt_bool_true (- x) 0) by lra.
  f_equal. symmetry. unfold rounded. apply round_NE_opp.
Qed.
