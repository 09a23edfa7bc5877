(** C19: masks stay canonical. *)
From Coq Require Import ZArith List Bool Lia.
From Verif.Model Require Import Base Tables Minimal MaskReduce Ops Cmp Cast Shuffle ShuffleDyn.
From Verif.Spec Require Import Spec Obtain.
From Verif.Proofs Require Import Lib CastP ObtainP.
From Verif.Props Require Import Tac Targets.
Import ListNotations.
Open Scope Z_scope.

(** C19: every mask obtained with the safe API is canonical (the casts of C20 excepted). *)
Theorem C19_obtained : forall tg t m,
  (t_ptr tg = 1 \/ t_ptr tg = 2 \/ t_ptr tg = 4 \/ t_ptr tg = 8)%nat ->
  obtained tg t m -> canonical t m.
Proof. exact obtained_canonical. Qed.
Print Assumptions C19_obtained.

(** C19: so select, all and any are defined on each of them. *)
Theorem C19_defined : forall tg t m,
  (t_ptr tg = 1 \/ t_ptr tg = 2 \/ t_ptr tg = 4 \/ t_ptr tg = 8)%nat ->
  obtained tg t m ->
  (forall s x y, vector_type s -> vn s = vn t -> is_vector s x -> is_vector s y ->
     exists r, select t m x y = Ok r) /\
  (In t mask_types -> exists c d, all tg t m = Ok c /\ any tg t m = Ok d).
Proof. exact obtained_defined. Qed.
Print Assumptions C19_defined.

(** A mask built from a comparison, a shuffle, a negation and a cast. *)
Example C19_example : exists m,
  obtained x86_64_avx2 m16x4 m /\ canonical m16x4 m /\ m = [65535; 0; 65535; 0] /\
  all x86_64_avx2 m16x4 m = Ok false /\ any x86_64_avx2 m16x4 m = Ok true.
Proof.
  exists [65535; 0; 65535; 0].
  assert (O : obtained x86_64_avx2 m16x4 [65535; 0; 65535; 0]).
  { destruct (find (fun e => vty_eqb (c_to e) m16x4) (cast_table 8)) as [e|] eqn:E; [|vm_compute in E; discriminate].
    pose proof (find_some _ _ E) as [I _]. vm_compute in E. injection E as <-.
    eapply (by_cast x86_64_avx2 _ m8x4 [255; 0; 255; 0] _ I); try (vm_compute; reflexivity).
    - vm_compute. tauto.
    - ty.
    - discriminate.
    - ty.
    - apply a_mask. change [255; 0; 255; 0] with (mask_not m8x4 [0; 255; 0; 255]). apply by_not.
      eapply (by_shuffle x86_64_avx2 false m8x4 [255; 255; 0; 0] [255; 255; 0; 0] [2; 1; 3; 0]%nat);
        [| |vm_compute; reflexivity];
        change [255; 255; 0; 0] with (compare CmpLt u8x4 [1; 2; 3; 4] [9; 3; 3; 0]);
        apply (by_comparison x86_64_avx2 CmpLt u8x4); try ty; apply any_vector; try discriminate; isv. }
  split; [exact O|]. split; [|split; [reflexivity|split; vm_compute; reflexivity]].
  exact (obtained_canonical x86_64_avx2 m16x4 _ (or_intror (or_intror (or_intror eq_refl))) O).
Qed.
