(** The handles of the random number generators of the ambient occlusion example
    (examples/aobench/src/random.rs): thread-local cells, shared by all handles of a thread. *)
From Coq Require Import ZArith List Bool.
From Verif.Model Require Import Base ExRandom.
Import ListNotations.

(** What a program does with handles, in the order in which it happens in all threads.
    Handles are numbered in the order in which they are made.  That an [Rc] counts its
    owners is not modelled: the thread keeps one for itself. *)
Inductive event :=
| ThreadRng (t : nat)     (* thread [t] calls [thread_rng()] *)
| CloneOf (h : nat)       (* [RngH::clone] of handle [h] *)
| GenFrom (h : nat).      (* [RngH::gen] of handle [h] *)

Section Cells.
  Context {S A : Type}.
  (** [RngT::from_seed] of the constant seed, and [RngT::gen]. *)
  Variable seeded : outcome S.
  Variable draw : S -> outcome (A * S).

  (** THREAD_RNG_KEY (random.rs:62-66, 130-134): the cell of each thread, made when it is
      first used; and of each handle (random.rs:51-54, 118-121) the thread whose cell it
      points to.  An [Rc] stays in its thread. *)
  Record world := { cells : nat -> option S; handles : list nat }.
  Definition start : world := {| cells := fun _ => None; handles := [] |}.
  Definition store (w : world) (t : nat) (s : S) : world :=
    {| cells := fun t' => if Nat.eqb t' t then Some s else cells w t'; handles := handles w |}.
  Definition add_handle (w : world) (t : nat) : world :=
    {| cells := cells w; handles := handles w ++ [t] |}.

  (** thread_rng (random.rs:68-72, 136-140): [with] makes the cell if there is none. *)
  Definition do_thread_rng (w : world) (t : nat) : outcome world :=
    match cells w t with
    | Some _ => Ok (add_handle w t)
    | None => s <- seeded ;; Ok (add_handle (store w t s) t)
    end.
  (** RngH::gen (random.rs:56-60, 123-128). *)
  Definition do_gen (w : world) (t : nat) : outcome (A * world) :=
    match cells w t with
    | Some s => as_ <- draw s ;; let (a, s) := as_ : A * S in Ok (a, store w t s)
    | None => UB
    end.
  (** One event: the number drawn, with its thread, and the new world.  No program uses a
      handle that was not made: such an event does nothing. *)
  Definition do_event (w : world) (e : event) : outcome (list (nat * A) * world) :=
    match e with
    | ThreadRng t => w <- do_thread_rng w t ;; Ok ([], w)
    | CloneOf h => match nth_error (handles w) h with Some t => Ok ([], add_handle w t) | None => Ok ([], w) end
    | GenFrom h =>
        match nth_error (handles w) h with
        | Some t => aw <- do_gen w t ;; let (a, w) := aw : A * world in Ok ([(t, a)], w)
        | None => Ok ([], w)
        end
    end.
  Fixpoint do_events (w : world) (l : list event) : outcome (list (nat * A) * world) :=
    match l with
    | [] => Ok ([], w)
    | e :: l =>
        aw <- do_event w e ;; let (a, w) := aw : list (nat * A) * world in
        bw <- do_events w l ;; let (b, w) := bw : list (nat * A) * world in
        Ok (a ++ b, w)
    end.
End Cells.

(** A program that uses the scalar, or the vector generator. *)
Definition scalar_program (l : list event) : outcome (list (nat * Z) * world) :=
  do_events (Ok thread_rng) (fun s => Ok (gen s)) start l.
Definition vector_program (wide : bool) (l : list event) : outcome (list (nat * vec) * world) :=
  do_events (vthread_rng wide) (vgen wide) start l.
