(** The slice sums (examples/slice_sum/src/main.rs) and the dot product
    (examples/dot_product/src).  Slices are in memory; [tg] gives the byte order, the debug
    assertions and the reductions, [al] is [align_of::<f32s>()]. *)
From Coq Require Import ZArith List Bool.
From Verif.Model Require Import Base FloatLane Bytes Tables Minimal Ops Reduce Slice.
Import ListNotations.
Open Scope Z_scope.

(** [f32s] (slice_sum/src/main.rs:3). *)
Definition f32s : vty := f32x8.

(** core's [chunks_exact(n)] on a slice of [b]-byte elements: the consecutive subslices of
    [n] elements; what remains is left out. *)
Definition chunks_exact (b n : nat) (s : slice) : list slice :=
  map (fun i => {| s_ptr := s_ptr s + Z.of_nat (b * (n * i)); s_len := n |}) (seq 0 (s_len s / n)).

(** An iterator mapped through a function that may fail, run to its end. *)
Fixpoint map_ok {A B} (f : A -> outcome B) (l : list A) : outcome (list B) :=
  match l with
  | [] => Ok []
  | x :: l' => y <- f x ;; r <- map_ok f l' ;; Ok (y :: r)
  end.

(** [.map(f32s::from_slice_unaligned)] on the chunks. *)
Definition read_chunks (tg : target) (t : vty) (m : mem) (s : slice) : outcome (list vec) :=
  map_ok (from_slice_unaligned (t_big_endian tg) (t_debug tg) t m) (chunks_exact (vb t) (vn t) s).

(** core's [Sum for f32]: a fold from 0.0. *)
Definition scalar_sum (xs : list Z) : Z := fold_left (fl_add 4) xs (fl_of_int 4 0).

(** sum_ver (main.rs:12-19). *)
Definition sum_ver (tg : target) (m : mem) (x : slice) : outcome Z :=
  _ <- assert (Nat.eqb (Nat.modulo (s_len x) (lanes f32s)) 0) ;;
  vs <- read_chunks tg f32s m x ;;
  fsum tg f32s (iter_sum f32s vs).

(** sum_hor (main.rs:21-28). *)
Definition sum_hor (tg : target) (m : mem) (x : slice) : outcome Z :=
  _ <- assert (Nat.eqb (Nat.modulo (s_len x) (lanes f32s)) 0) ;;
  vs <- read_chunks tg f32s m x ;;
  hs <- map_ok (fsum tg f32s) vs ;;
  Ok (scalar_sum hs).

(** [s.iter()]: the elements, read one after the other. *)
Definition read_elements (tg : target) (m : mem) (base : Z) (n : nat) : outcome (list Z) :=
  map_ok (fun i => load_lane (t_big_endian tg) 4 m (base + Z.of_nat (4 * i))) (seq 0 n).

(** rayon's parallel [sum()]: the items are split into consecutive parts in a way that
    depends on the schedule, each part is summed from the empty sum, and sums are added in
    pairs (rayon::iter::sum; the library itself is not in the repository).  A schedule
    is a tree whose leaves are the lengths of the parts. *)
Inductive schedule := Part (n : nat) | Split (l r : schedule).
Fixpoint items (sch : schedule) : nat :=
  match sch with Part n => n | Split l r => (items l + items r)%nat end.
Definition par_add (t : vty) (l r : vec) : vec := iter_sum t [l; r].
Fixpoint par_sum (t : vty) (sch : schedule) (vs : list vec) : vec :=
  match sch with
  | Part n => par_add t (iter_sum t []) (iter_sum t (firstn n vs))
  | Split l r => par_add t (par_sum t l vs) (par_sum t r (skipn (items l) vs))
  end.

(** [find] of the first element whose address is a multiple of [al] (main.rs:36-42). *)
Definition first_aligned (al : Z) (x : slice) : option nat :=
  find (fun i => (s_ptr x + Z.of_nat (4 * i)) mod al =? 0) (seq 0 (s_len x)).

(** sum_ver_par (main.rs:30-55); [sch] must have as many items as the tail. *)
Definition sum_ver_par (tg : target) (al : Z) (sch : schedule) (m : mem) (x : slice) : outcome Z :=
  _ <- assert (Nat.eqb (Nat.modulo (s_len x) 8) 0) ;;
  match first_aligned al x with
  | None => Panic                                        (* unwrap *)
  | Some i =>
      head <- read_elements tg m (s_ptr x) i ;;
      let tail := s_ptr x + Z.of_nat (4 * i) in
      vs <- map_ok (fun k => deref_vec (t_big_endian tg) f32s al m (tail + Z.of_nat (4 * (8 * k))))
              (seq 0 ((s_len x - i) / lanes f32s)) ;;
      s <- fsum tg f32s (par_sum f32s sch vs) ;;
      Ok (fl_add 4 (scalar_sum head) s)
  end.

(** scalar::dot_prod (dot_product/src/scalar.rs:3-6). *)
Definition scalar_dot_prod (tg : target) (m : mem) (a b : slice) : outcome Z :=
  _ <- assert (Nat.eqb (s_len a) (s_len b)) ;;
  xs <- read_elements tg m (s_ptr a) (s_len a) ;;
  ys <- read_elements tg m (s_ptr b) (s_len b) ;;
  Ok (scalar_sum (map2 (fl_mul 4) xs ys)).

(** simd::dot_prod (dot_product/src/simd.rs:5-15). *)
Definition simd_dot_prod (tg : target) (m : mem) (a b : slice) : outcome Z :=
  _ <- assert (Nat.eqb (s_len a) (s_len b)) ;;
  _ <- assert (Nat.eqb (Nat.modulo (s_len a) 4) 0) ;;
  xs <- read_chunks tg f32x4 m a ;;
  ys <- read_chunks tg f32x4 m b ;;
  fsum tg f32x4 (iter_sum f32x4 (map2 (mul f32x4) xs ys)).
