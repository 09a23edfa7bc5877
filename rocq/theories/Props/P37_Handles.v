(** C84: handles to the random number generators of the ambient occlusion example. *)
From Coq Require Import ZArith List Bool Lia.
From Verif.Model Require Import Base Tables ExRandom ExRandomCell.
From Verif.Spec Require Import Spec Handles.
From Verif.Proofs Require Import Lib ExRandomCellP.
Import ListNotations.
Open Scope nat_scope.

(** C84: a program that gets, copies and uses handles in any number of threads draws one
    number each time it asks; what the handles of a thread draw, in their order, is the
    sequence of one generator. *)
Theorem C84_scalar : forall l, proper l -> exists tr w, scalar_program l = Ok (tr, w) /\ length tr = asked l /\
  (forall t, of_thread t tr = fst (gens (length (of_thread t tr)) thread_rng)) /\
  (forall before h after t, l = before ++ GenFrom h :: after -> belongs before h t ->
     exists p, nth_error tr (asked before) = Some (t, p)).
Proof. exact scalar_handles. Qed.
Print Assumptions C84_scalar.

(** C84: the same for vectors; nothing panics and nothing is undefined. *)
Theorem C84_vector : forall wide l, proper l ->
  exists r tr w, vthread_rng wide = Ok r /\ vector_program wide l = Ok (tr, w) /\ length tr = asked l /\
  (forall t, exists r', vgens wide (length (of_thread t tr)) r = Ok (of_thread t tr, r')) /\
  (forall before h after t, l = before ++ GenFrom h :: after -> belongs before h t ->
     exists v, nth_error tr (asked before) = Some (t, v)).
Proof. exact vector_handles. Qed.
Print Assumptions C84_vector.

(** C84: each handle belongs to one thread. *)
Theorem C84_belongs : forall l h, proper l -> h < made l ->
  exists t, belongs l h t /\ forall t', belongs l h t' -> t' = t.
Proof. exact belongs_unique. Qed.
Print Assumptions C84_belongs.

(** C84: threads are not independent: all draw the same numbers. *)
Theorem C84_threads_agree : forall l tr w t t' j p q, proper l -> scalar_program l = Ok (tr, w) ->
  nth_error (of_thread t tr) j = Some p -> nth_error (of_thread t' tr) j = Some q -> p = q.
Proof. exact threads_agree. Qed.
Print Assumptions C84_threads_agree.

Theorem C84_independent_threads_refuted : exists l tr w, proper l /\ scalar_program l = Ok (tr, w) /\
  of_thread 0 tr = of_thread 1 tr /\ length (of_thread 0 tr) = 2 /\ NoDup (of_thread 0 tr).
Proof. exact same_numbers. Qed.
Print Assumptions C84_independent_threads_refuted.

(** Non-vacuity: two threads, one with a handle and its copy. *)
Example C84_example :
  let l := [ThreadRng 0; ThreadRng 7; CloneOf 0; GenFrom 0; GenFrom 1; GenFrom 2; GenFrom 0] in
  proper l /\ belongs [ThreadRng 0; ThreadRng 7; CloneOf 0] 2 0 /\
  exists w, scalar_program l = Ok ([(0, 1056785568%Z); (7, 1056785568%Z); (0, 1065288140%Z); (0, 1053851688%Z)], w).
Proof.
  split; [apply proper_check; reflexivity|]. split.
  - apply (belongs_copy [ThreadRng 0; ThreadRng 7] 0 0). apply (belongs_later [ThreadRng 0]). apply (belongs_new []).
  - eexists. vm_compute. reflexivity.
Qed.
