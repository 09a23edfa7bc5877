(** After how many numbers the random number generators repeat. *)
From Coq Require Import ZArith Znumtheory List Bool Lia Reals Lra.
From Verif.Model Require Import Base FloatLane Tables ExRandom.
From Verif.Spec Require Import Spec Floats Tausworthe Cycles.
From Verif.Proofs Require Import Lib PolyP ExRandomP ExRandomMainP.
Import ListNotations.
Open Scope Z_scope.

(** ** The four polynomials *)
Definition inverse_of k q n r := ppow k q (padd (ppow k q X (Z.to_pos (Zpos n / r))) [true]) (Z.to_pos (Zpos n - 1)).
Definition factors k q n (l : list Z) : list (Z * poly) := map (fun r => (r, inverse_of k q n r)) l.
Lemma factors_fst k q n l : map fst (factors k q n l) = l.
Proof. unfold factors. rewrite map_map. cbn [fst]. apply map_id. Qed.

Definition certified (g : tausworthe) (n : positive) (l : list Z) : bool :=
  is_order (degree g) (middle g) n && (product l =? Zpos n) && forallb (fun r => (1 <? r) && trial (Z.to_nat (Z.sqrt r + 2)) 2 r) l
  && forallb (fun r => no_order (degree g) (middle g) (inverse_of (degree g) (middle g) n r) (Z.to_pos (Zpos n / r))) l.
Lemma certified_period g n l x : certified g n l = true -> obeys g x -> (exists m, x m = true) ->
  forall t, (forall m, x (m + t)%nat = x m) <-> (Zpos n | Z.of_nat t).
Proof.
  intros C O E. unfold certified in C. apply andb_prop in C as [C C4]. apply andb_prop in C as [C C3].
  apply andb_prop in C as [C1 C2]. apply Z.eqb_eq in C2.
  apply (exact_period (degree g) (middle g) n (factors (degree g) (middle g) n l) x); auto.
  - now rewrite factors_fst.
  - rewrite factors_fst. apply Forall_forall. intros r R. rewrite forallb_forall in C3. specialize (C3 r R).
    apply andb_prop in C3 as [A B]. apply Z.ltb_lt in A. now apply trial_prime in B.
  - apply Forall_forall. intros [r i] I. unfold factors in I. apply in_map_iff in I as (r' & E' & I).
    injection E' as -> <-. cbn [fst snd]. rewrite forallb_forall in C4. now apply C4.
Qed.

Lemma certified0 : certified lfsr0 2147483647 [2147483647] = true. Proof. vm_compute. reflexivity. Qed.
Lemma certified1 : certified lfsr1 536870911 [233; 1103; 2089] = true. Proof. vm_compute. reflexivity. Qed.
Lemma certified2 : certified lfsr2 268435455 [3; 5; 29; 43; 113; 127] = true. Proof. vm_compute. reflexivity. Qed.
Lemma certified3 : certified lfsr3 33554431 [31; 601; 1801] = true. Proof. vm_compute. reflexivity. Qed.

(** ** The words of a generator *)
(** The low 23 bits of the words from the first. *)
Definition repeats (f : nat -> nat -> bool) (t : nat) : Prop :=
  forall n j, (1 <= n)%nat -> (9 <= j < 32)%nat -> f (n + t)%nat j = f n j.
Definition exact (f : nat -> nat -> bool) (c : Z) : Prop :=
  0 < c /\ forall t, (repeats f t -> (c | Z.of_nat t)) /\ ((c | Z.of_nat t) -> forall n j, f (n + t)%nat j = f n j).
Definition word (g : tausworthe) (x : nat -> bool) (n j : nat) : bool := x (n * step g + j)%nat.

Lemma words_period g n l x : certified g n l = true -> obeys g x -> (exists m, x m = true) ->
  (0 < step g <= 23)%nat -> rel_prime (Zpos n) (Z.of_nat (step g)) ->
  exact (word g x) (Zpos n).
Proof.
  intros C O E S R. split; [reflexivity|]. intros t. pose proof (certified_period g n l x C O E) as P. split.
  - intros H. apply (Gauss _ (Z.of_nat (step g))); [|exact R]. rewrite <- Nat2Z.inj_mul. apply P.
    assert (PN : forall c m, x (m + c * Pos.to_nat n)%nat = x m).
    { apply period_multiple. apply P. exists 1. lia. }
    assert (BIG : forall m, (step g + 9 <= m)%nat -> x (m + step g * t)%nat = x m).
    { intros m M. set (a := ((m - 9) / step g)%nat). set (b := ((m - 9) mod step g)%nat).
      pose proof (Nat.div_mod (m - 9) (step g) ltac:(lia)) as DM. fold a b in DM.
      pose proof (Nat.mod_upper_bound (m - 9) (step g) ltac:(lia)) as MB. fold b in MB.
      assert (A1 : (1 <= a)%nat) by (apply Nat.div_le_lower_bound; lia).
      assert (B1 : (9 <= 9 + b < 32)%nat) by lia.
      specialize (H a (9 + b)%nat A1 B1). unfold word in H.
      replace (a * step g + (9 + b))%nat with m in H by lia.
      replace ((a + t) * step g + (9 + b))%nat with (m + step g * t)%nat in H by lia. exact H. }
    intros m. rewrite <- (PN (step g + 9)%nat m), <- (PN (step g + 9)%nat (m + step g * t)%nat).
    replace (m + step g * t + (step g + 9) * Pos.to_nat n)%nat with (m + (step g + 9) * Pos.to_nat n + step g * t)%nat by lia.
    apply BIG. pose proof (Pos2Nat.is_pos n). nia.
  - intros [c D] i j. unfold word.
    replace ((i + t) * step g + j)%nat with (i * step g + j + step g * t)%nat by lia.
    apply P. exists (c * Z.of_nat (step g)). rewrite Nat2Z.inj_mul. lia.
Qed.

Lemma alive_bit g x z : (degree g <= 32)%nat -> started_by g x z -> pattern 4 z ->
  2 ^ (32 - Z.of_nat (degree g)) <= z -> exists m, x m = true.
Proof.
  intros D S P L.
  destruct (existsb x (seq 0 (degree g))) eqn:E.
  - apply existsb_exists in E as (m & _ & M). now exists m.
  - exfalso. apply Z.le_ngt in L. apply L. apply (below_bits (Z.of_nat (degree g)) z ltac:(lia) P).
    intros i I. rewrite S by lia. destruct (x i) eqn:Xi; [|reflexivity]. exfalso.
    assert (T : existsb x (seq 0 (degree g)) = true) by (apply existsb_exists; exists i; split; [apply in_seq; lia|exact Xi]).
    congruence.
Qed.
Lemma dead_bits g x z : (middle g < degree g <= 32)%nat -> obeys g x -> started_by g x z -> pattern 4 z ->
  z < 2 ^ (32 - Z.of_nat (degree g)) -> forall m, x m = false.
Proof.
  intros D O S P L m. apply (zeros_forward g); [lia|exact O|]. intros i I. rewrite <- S by exact I.
  apply (proj1 (below_bits (Z.of_nat (degree g)) z ltac:(lia) P) L). lia.
Qed.

Lemma words_cycle g n l x z : certified g n l = true -> Zpos n = 2 ^ Z.of_nat (degree g) - 1 ->
  (middle g < degree g <= 32)%nat -> (0 < step g <= 23)%nat -> Z.gcd (Zpos n) (Z.of_nat (step g)) = 1 ->
  obeys g x -> started_by g x z -> pattern 4 z ->
  exact (word g x) (states g z).
Proof.
  intros C N D S R O T P. unfold states. destruct (Z.leb_spec (2 ^ (32 - Z.of_nat (degree g))) z) as [L|L].
  - rewrite <- N. apply (words_period g n l); auto; [|now apply Zgcd_1_rel_prime].
    apply (alive_bit g x z); auto; lia.
  - split; [reflexivity|]. intros t. split; [intros _; apply Z.divide_1_l|]. intros _ i j. unfold word.
    now rewrite !(dead_bits g x z D O T P L).
Qed.

Lemma four_cycle g x z : of_lfsr113 g -> obeys g x -> started_by g x z -> pattern 4 z ->
  exact (word g x) (states g z).
Proof.
  intros [-> | [-> | [-> | ->]]] O S P.
  - apply (words_cycle lfsr0 _ _ x z certified0); auto; cbn [degree middle step lfsr0]; try reflexivity; lia.
  - apply (words_cycle lfsr1 _ _ x z certified1); auto; cbn [degree middle step lfsr1]; try reflexivity; lia.
  - apply (words_cycle lfsr2 _ _ x z certified2); auto; cbn [degree middle step lfsr2]; try reflexivity; lia.
  - apply (words_cycle lfsr3 _ _ x z certified3); auto; cbn [degree middle step lfsr3]; try reflexivity; lia.
Qed.

(** A component on its own. *)
Lemma low_bits a b :
  (a mod 2 ^ 23 = b mod 2 ^ 23 <-> forall j, (9 <= j < 32)%nat -> Z.testbit a (31 - Z.of_nat j) = Z.testbit b (31 - Z.of_nat j)).
Proof.
  split.
  - intros E j J. rewrite <- (Z.mod_pow2_bits_low a 23), <- (Z.mod_pow2_bits_low b 23) by lia. now rewrite E.
  - intros H. apply Z.bits_inj'. intros i I. destruct (Z.lt_ge_cases i 23) as [L|L].
    + rewrite !Z.mod_pow2_bits_low by lia. specialize (H (Z.to_nat (31 - i)) ltac:(lia)).
      rewrite Z2Nat.id in H by lia. now replace (31 - (31 - i)) with i in H by lia.
    + now rewrite !Z.mod_pow2_bits_high by lia.
Qed.

Lemma number_exists x s n : exists a, 0 <= a < 2 ^ 32 /\ forall i, (i < 32)%nat -> Z.testbit a (31 - Z.of_nat i) = x (n * s + i)%nat.
Proof.
  assert (K : forall m y, (m <= 32)%nat -> exists a, 0 <= a < 2 ^ Z.of_nat m /\
     forall i, (i < m)%nat -> Z.testbit a (Z.of_nat m - 1 - Z.of_nat i) = y i).
  { induction m as [|m IH]; intros y M.
    - exists 0. split; [cbn; lia|lia].
    - destruct (IH y ltac:(lia)) as (a & A & B). exists (2 * a + Z.b2z (y m)).
      replace (Z.of_nat (S m)) with (Z.succ (Z.of_nat m)) by lia. rewrite Z.pow_succ_r by lia.
      split; [destruct (y m); cbn [Z.b2z]; lia|]. intros i I.
      destruct (Nat.eq_dec i m) as [->|N].
      + replace (Z.succ (Z.of_nat m) - 1 - Z.of_nat m) with 0 by lia. apply Z.testbit_0_r.
      + replace (Z.succ (Z.of_nat m) - 1 - Z.of_nat i) with (Z.succ (Z.of_nat m - 1 - Z.of_nat i)) by lia.
        rewrite Z.testbit_succ_r by lia. apply B. lia. }
  destruct (K 32%nat (fun i => x (n * s + i)%nat) ltac:(lia)) as (a & A & B). exists a. split; [exact A|exact B].
Qed.

Theorem component_cycle g x z : of_lfsr113 g -> obeys g x -> started_by g x z -> 0 <= z < 2 ^ 32 ->
  cycle (number_at g x) (states g z).
Proof.
  intros G O S P. apply pat32 in P. destruct (four_cycle g x z G O S P) as [C E]. split; [exact C|]. intros t. split.
  - intros H. apply E. intros n j _ J.
    destruct (number_exists x (step g) n) as (a & A & BA). destruct (number_exists x (step g) (n + t)) as (b & B & BB).
    assert (Q : a = b) by (apply (H n); now split). subst b. unfold word. rewrite <- BA, <- BB by lia. reflexivity.
  - intros D n a b [A BA] [B BB]. apply bits_equal; [now apply pat32|now apply pat32|]. intros i I.
    rewrite BA, BB by exact I. symmetry. exact (proj2 (E t) D n i).
Qed.

(** ** Sums *)
Lemma repeats_multiple f t c : repeats f t -> repeats f (c * t).
Proof.
  intros H. induction c as [|c IH]; intros n j N J; cbn [Nat.mul]; [now rewrite Nat.add_0_r|].
  replace (n + (t + c * t))%nat with (n + t + c * t)%nat by lia. rewrite IH by lia. now apply H.
Qed.
Lemma exact_left f g a b t : exact f a -> exact g b -> Z.gcd a b = 1 ->
  repeats (fun n j => xorb (f n j) (g n j)) t -> (a | Z.of_nat t).
Proof.
  intros [A F] [B G] C H. apply (Gauss _ b); [|now apply Zgcd_1_rel_prime].
  replace (b * Z.of_nat t) with (Z.of_nat (Z.to_nat b * t)) by nia. apply F. intros n j N J.
  pose proof (repeats_multiple _ t (Z.to_nat b) H n j N J) as Q. cbv beta in Q.
  rewrite (proj2 (G (Z.to_nat b * t)%nat)) in Q; [|exists (Z.of_nat t); nia].
  destruct (f n j), (f (n + Z.to_nat b * t)%nat j), (g n j); cbn in Q; congruence.
Qed.
Lemma exact_xor f g a b : exact f a -> exact g b -> Z.gcd a b = 1 -> exact (fun n j => xorb (f n j) (g n j)) (a * b).
Proof.
  intros F G C. split; [destruct F, G; nia|]. intros t. split.
  - intros H. assert (L : (a | Z.of_nat t)) by exact (exact_left f g a b t F G C H).
    assert (R : (b | Z.of_nat t)).
    { apply (exact_left g f b a t G F); [now rewrite Z.gcd_comm|]. intros n j N J. rewrite !(xorb_comm (g _ _)). now apply H. }
    destruct L as [c L]. rewrite L. rewrite (Z.mul_comm c). apply Z.mul_divide_mono_l.
    apply (Gauss _ a); [rewrite Z.mul_comm, <- L; exact R|]. apply rel_prime_sym. now apply Zgcd_1_rel_prime.
  - intros [c D] n j. rewrite (proj2 (proj2 F t)), (proj2 (proj2 G t)); [reflexivity| |].
    + exists (c * a). lia.
    + exists (c * b). lia.
Qed.

(** ** The numbers drawn *)
Definition drawn (r : rng) (j : nat) (p : Z) : Prop := exists n, nth_error (fst (gens n r)) j = Some p.

Definition x0 z := stream 31 6 z.
Definition x1 z := stream 29 2 z.
Definition x2 z := stream 28 13 z.
Definition x3 z := stream 25 3 z.
Definition bits4 (z0 z1 z2 z3 : Z) (n j : nat) : bool :=
  xorb (xorb (xorb (word lfsr0 (x0 z0) n j) (word lfsr1 (x1 z1) n j)) (word lfsr2 (x2 z2) n j)) (word lfsr3 (x3 z3) n j).

Lemma bits4_exact z0 z1 z2 z3 : is_rng (z0, z1, z2, z3) -> exact (bits4 z0 z1 z2 z3) (lfsr113_states z0 z1 z2 z3).
Proof.
  intros (P0 & P1 & P2 & P3).
  assert (E0 : exact (word lfsr0 (x0 z0)) (states lfsr0 z0)).
  { apply four_cycle; [now left|apply (stream_obeys lfsr0); cbn; lia|apply (stream_starts lfsr0)|exact P0]. }
  assert (E1 : exact (word lfsr1 (x1 z1)) (states lfsr1 z1)).
  { apply four_cycle; [now right; left|apply (stream_obeys lfsr1); cbn; lia|apply (stream_starts lfsr1)|exact P1]. }
  assert (E2 : exact (word lfsr2 (x2 z2)) (states lfsr2 z2)).
  { apply four_cycle; [now right; right; left|apply (stream_obeys lfsr2); cbn; lia|apply (stream_starts lfsr2)|exact P2]. }
  assert (E3 : exact (word lfsr3 (x3 z3)) (states lfsr3 z3)).
  { apply four_cycle; [now right; right; right|apply (stream_obeys lfsr3); cbn; lia|apply (stream_starts lfsr3)|exact P3]. }
  unfold bits4, lfsr113_states. apply exact_xor; [apply exact_xor; [apply exact_xor| |]| |]; auto;
    unfold states; repeat destruct (_ <=? _); vm_compute; reflexivity.
Qed.

Lemma number_bits z0 z1 z2 z3 j i : is_rng (z0, z1, z2, z3) -> (i < 32)%nat ->
  Z.testbit (fst (gen_u32 (at_step z0 z1 z2 z3 j))) (31 - Z.of_nat i) = bits4 z0 z1 z2 z3 (S j) i.
Proof.
  intros (P0 & P1 & P2 & P3) I.
  change (fst (gen_u32 (at_step z0 z1 z2 z3 j))) with
    (Z.lxor (Z.lxor (Z.lxor (nth_of lfsr0 M0 z0 (S j)) (nth_of lfsr1 M1 z1 (S j))) (nth_of lfsr2 M2 z2 (S j))) (nth_of lfsr3 M3 z3 (S j))).
  rewrite !Z.lxor_spec. unfold bits4.
  pose proof (proj2 (nth_of_number lfsr0 M0 z0 j good0 P0) i I) as H0.
  pose proof (proj2 (nth_of_number lfsr1 M1 z1 j good1 P1) i I) as H1.
  pose proof (proj2 (nth_of_number lfsr2 M2 z2 j good2 P2) i I) as H2.
  pose proof (proj2 (nth_of_number lfsr3 M3 z3 j good3 P3) i I) as H3.
  rewrite H0, H1, H2, H3. reflexivity.
Qed.

Definition low23 z0 z1 z2 z3 j : Z := fst (gen_u32 (at_step z0 z1 z2 z3 j)) mod 2 ^ 23.
Lemma low23_bits z0 z1 z2 z3 j j' : is_rng (z0, z1, z2, z3) ->
  (low23 z0 z1 z2 z3 j = low23 z0 z1 z2 z3 j' <->
   forall i, (9 <= i < 32)%nat -> bits4 z0 z1 z2 z3 (S j) i = bits4 z0 z1 z2 z3 (S j') i).
Proof.
  intros R. unfold low23. rewrite low_bits. split; intros H i I; specialize (H i I);
    rewrite ?number_bits in * by (auto; lia); exact H.
Qed.

Lemma gen_fst z0 z1 z2 z3 j : fst (gen (at_step z0 z1 z2 z3 j)) = fl_sub 4 (Z.lor 1065353216 (low23 z0 z1 z2 z3 j)) (fl_of_int 4 1).
Proof. rewrite gen_gen_u32. reflexivity. Qed.
Lemma drawn_low z0 z1 z2 z3 j p : drawn (z0, z1, z2, z3) j p ->
  p = fl_sub 4 (Z.lor 1065353216 (low23 z0 z1 z2 z3 j)) (fl_of_int 4 1).
Proof.
  intros [n E]. apply (gens_nth n z0 z1 z2 z3 0) in E. rewrite Nat.add_0_l, gen_fst in E. exact E.
Qed.
Lemma drawn_exists r j : exists p, drawn r j p.
Proof.
  destruct (nth_error (fst (gens (S j) r)) j) as [p|] eqn:E; [exists p, (S j); exact E|].
  apply nth_error_None in E. rewrite gens_length in E. lia.
Qed.
Lemma low_injective a b : 0 <= a < 2 ^ 23 -> 0 <= b < 2 ^ 23 ->
  fl_sub 4 (Z.lor 1065353216 a) (fl_of_int 4 1) = fl_sub 4 (Z.lor 1065353216 b) (fl_of_int 4 1) -> a = b.
Proof.
  intros A B E. destruct (minus_one a A) as (_ & _ & FA). destruct (minus_one b B) as (_ & _ & FB).
  rewrite E, FB in FA. injection FA as Q. apply eq_IZR.
  apply Rmult_eq_reg_r with (/ IZR (2 ^ 23))%R; [symmetry; exact Q|]. apply Rinv_neq_0_compat. apply not_0_IZR. discriminate.
Qed.

Theorem state_cycle z0 z1 z2 z3 : is_rng (z0, z1, z2, z3) ->
  cycle (drawn (z0, z1, z2, z3)) (lfsr113_states z0 z1 z2 z3).
Proof.
  intros R. destruct (bits4_exact z0 z1 z2 z3 R) as [C E]. split; [exact C|]. intros t. split.
  - intros H. apply E. intros n j N J. destruct n as [|n]; [lia|]. cbn [Nat.add].
    revert j J. apply (low23_bits z0 z1 z2 z3 (n + t) n R).
    destruct (drawn_exists (z0, z1, z2, z3) n) as [a A]. destruct (drawn_exists (z0, z1, z2, z3) (n + t)) as [b B].
    pose proof (H n a b A B) as Q. apply drawn_low in A. apply drawn_low in B. subst a b.
    apply low_injective in Q; [now symmetry| |]; apply Z.mod_pos_bound; reflexivity.
  - intros D n a b A B. apply drawn_low in A. apply drawn_low in B. subst a b.
    replace (low23 z0 z1 z2 z3 (n + t)) with (low23 z0 z1 z2 z3 n); [reflexivity|].
    apply low23_bits; [exact R|]. intros i _. symmetry. exact (proj2 (E t) D (S n) i).
Qed.

Theorem seed_cycle x z0 z1 z2 z3 : 0 <= x < 2 ^ 32 -> seeds x z0 z1 z2 z3 ->
  cycle (drawn (from_seed x)) (lfsr113_states z0 z1 z2 z3).
Proof.
  intros P S. apply pat32 in P. pose proof (from_seed_seeds x P) as H. destruct (from_seed x) as [[[y0 y1] y2] y3].
  destruct H as [R S']. destruct (seeds_unique _ _ _ _ _ _ _ _ _ S S') as (-> & -> & -> & ->). now apply state_cycle.
Qed.

(** The thread generators. *)
Theorem thread_cycle : cycle (drawn thread_rng) ((2 ^ 29 - 1) * (2 ^ 28 - 1) * (2 ^ 25 - 1)).
Proof.
  assert (E : thread_rng = (1, 3203395596, 65536, 16777216)) by (vm_compute; reflexivity). rewrite E.
  assert (T : (2 ^ 29 - 1) * (2 ^ 28 - 1) * (2 ^ 25 - 1) = lfsr113_states 1 3203395596 65536 16777216)
    by (vm_compute; reflexivity).
  rewrite T. apply state_cycle. unfold is_rng. repeat split; try discriminate.
Qed.

Theorem lane_cycle wide i s : lane (incr01 wide) i s ->
  cycle (fun j p => exists n r l r' v, vthread_rng wide = Ok r /\ vgens wide n r = Ok (l, r') /\
           nth_error l j = Some v /\ lane v i p)
        (match i with
         | 0%nat => 2 ^ 29 - 1
         | 1%nat => (2 ^ 29 - 1) * (2 ^ 28 - 1) * (2 ^ 25 - 1)
         | _ => (2 ^ 31 - 1) * (2 ^ 29 - 1) * (2 ^ 28 - 1) * (2 ^ 25 - 1)
         end).
Proof.
  intros L.
  assert (V : is_vector (u32xN wide) (incr01 wide)) by (destruct wide; (split; [reflexivity|]); repeat constructor; discriminate).
  assert (K : forall j p, (exists n r l r' v, vthread_rng wide = Ok r /\ vgens wide n r = Ok (l, r') /\
           nth_error l j = Some v /\ lane v i p) <-> drawn (from_seed s) j p).
  { intros j p. split.
    - intros (n & r & l & r' & v & A & B & C & D).
      destruct (vector_draws wide (incr01 wide) n V) as (r0 & l0 & r0' & A' & B' & N & Q).
      unfold vthread_rng in A. assert (r0 = r) by congruence. subst r0. assert (l0 = l) by congruence. subst l0.
      destruct (Q j v C) as [_ W]. destruct (W i s L) as (p' & P' & G). unfold lane in *.
      assert (p' = p) by congruence. subst p'. now exists n.
    - intros [n E]. destruct (vector_draws wide (incr01 wide) n V) as (r & l & r' & A & B & N & Q).
      assert (J : (j < length l)%nat). { rewrite N. rewrite <- (gens_length n (from_seed s)). apply nth_error_Some. congruence. }
      destruct (nth_error l j) as [v|] eqn:C; [|apply nth_error_None in C; lia].
      destruct (Q j v C) as [_ W]. destruct (W i s L) as (p' & P' & G).
      assert (p' = p) by congruence. subst p'. exists n, r, l, r', v. auto. }
  assert (C : forall c, cycle (drawn (from_seed s)) c -> cycle (fun j p => exists n r l r' v, vthread_rng wide = Ok r /\
     vgens wide n r = Ok (l, r') /\ nth_error l j = Some v /\ lane v i p) c).
  { intros c [P H]. split; [exact P|]. intros t. rewrite <- H. split; intros D n a b A B.
    - apply (D n); now apply K.
    - apply (D n); now apply K. }
  apply C. clear - L. assert (S : s = Z.of_nat i /\ (i < 8)%nat).
  { unfold lane, incr01 in L. assert (I : (i < vn (u32xN wide))%nat).
    { rewrite <- (seq_length (vn (u32xN wide)) 0), <- (map_length Z.of_nat). apply nth_error_Some. congruence. }
    split; [|destruct wide; cbn in I; lia].
    apply nth_error_nth with (d := Z.of_nat 0) in L. rewrite map_nth, seq_nth in L by exact I. cbn in L. now symmetry. }
  destruct S as [-> I].
  assert (F : forall x c z0 z1 z2 z3, from_seed x = (z0, z1, z2, z3) -> c = lfsr113_states z0 z1 z2 z3 ->
    pattern 4 z0 -> pattern 4 z1 -> pattern 4 z2 -> pattern 4 z3 -> cycle (drawn (from_seed x)) c).
  { intros x c z0 z1 z2 z3 -> -> P0 P1 P2 P3. apply state_cycle. exact (conj P0 (conj P1 (conj P2 P3))). }
  assert (PT : forall z, 0 <= z < 4294967296 -> pattern 4 z) by (intros; now apply pat32).
  Ltac one F PT := eapply F; [vm_compute; reflexivity|vm_compute; reflexivity|apply PT; lia..].
  destruct i as [|i]; [one F PT|]. destruct i as [|i]; [one F PT|].
  do 6 (destruct i as [|i]; [one F PT|]). lia.
Qed.

Theorem full_cycle x z0 z1 z2 z3 : 0 <= x < 2 ^ 32 -> seeds x z0 z1 z2 z3 ->
  2 <= z0 -> 8 <= z1 -> 16 <= z2 -> 128 <= z3 ->
  cycle (drawn (from_seed x)) ((2 ^ 31 - 1) * (2 ^ 29 - 1) * (2 ^ 28 - 1) * (2 ^ 25 - 1)).
Proof.
  intros P S A0 A1 A2 A3. pose proof (seed_cycle x z0 z1 z2 z3 P S) as H. unfold lfsr113_states in H.
  assert (K : forall g z, 2 ^ (32 - Z.of_nat (degree g)) <= z -> states g z = 2 ^ Z.of_nat (degree g) - 1).
  { intros g z L. unfold states. apply Z.leb_le in L. now rewrite L. }
  assert (E0 : states lfsr0 z0 = 2 ^ 31 - 1) by (apply K; exact A0).
  assert (E1 : states lfsr1 z1 = 2 ^ 29 - 1) by (apply K; exact A1).
  assert (E2 : states lfsr2 z2 = 2 ^ 28 - 1) by (apply K; exact A2).
  assert (E3 : states lfsr3 z3 = 2 ^ 25 - 1) by (apply K; exact A3).
  rewrite E0, E1, E2, E3 in H. exact H.
Qed.

Theorem short_seed : exists x, 0 <= x < 2 ^ 32 /\
  forall j p q, drawn (from_seed x) j p -> drawn (from_seed x) (j + Z.to_nat (2 ^ 29 - 1)) q -> p = q.
Proof.
  exists 0. split; [now split|].
  assert (C : cycle (drawn (from_seed 0)) (2 ^ 29 - 1)).
  { assert (E : from_seed 0 = (0, 3203395597, 0, 0)) by (vm_compute; reflexivity). rewrite E.
    assert (T : 2 ^ 29 - 1 = lfsr113_states 0 3203395597 0 0) by (vm_compute; reflexivity). rewrite T.
    apply state_cycle. unfold is_rng. repeat split; try discriminate. }
  destruct C as [_ C]. apply C. rewrite Z2Nat.id by discriminate. apply Z.divide_refl.
Qed.
