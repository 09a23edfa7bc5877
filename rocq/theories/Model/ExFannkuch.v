(** The fannkuch redux example (examples/fannkuch_redux/src).  Integers are mathematical
    values; additions and multiplications wrap as in a release build.  Arrays are lists and an
    index out of bounds panics. *)
From Coq Require Import ZArith List Bool.
From Verif.Model Require Import Base Tables Arch Minimal ShuffleDyn.
Import ListNotations.
Open Scope Z_scope.

(** ** Loops and arrays *)

(** A program with [while] loops: [None] if the fuel does not suffice. *)
Definition prog (A : Type) := option (outcome A).
Definition ret {A} (x : A) : prog A := Some (Ok x).
Definition call {A} (x : outcome A) : prog A := Some x.
Definition pbind {A B} (x : prog A) (k : A -> prog B) : prog B :=
  match x with
  | None => None
  | Some (Ok a) => k a
  | Some Panic => Some Panic
  | Some UB => Some UB
  end.
Notation "x <~ e ;; k" := (pbind e (fun x => k)) (at level 61, e at next level, right associativity).

(** [while cond(s) { s = body(s) }] *)
Fixpoint while {S} (fuel : nat) (cond : S -> bool) (body : S -> prog S) (s : S) : prog S :=
  if cond s then
    match fuel with
    | O => None
    | Datatypes.S f => s' <~ body s ;; while f cond body s'
    end
  else ret s.

(** [l[i]] and [l[i] = x]. *)
Definition aget {A} (l : list A) (i : nat) : outcome A :=
  match nth_error l i with Some x => Ok x | None => Panic end.
Definition aset {A} (l : list A) (i : nat) (x : A) : outcome (list A) :=
  if Nat.ltb i (length l) then Ok (update l i x) else Panic.

(** [l.swap(i, j)]. *)
Definition swap {A} (l : list A) (i j : nat) : outcome (list A) :=
  x <- aget l i ;; y <- aget l j ;; l <- aset l i y ;; aset l j x.

(** Wrapping i32 arithmetic. *)
Definition i32_of (x : Z) : Z := sval 4 (wrap 4 x).
Definition i32_add (x y : Z) : Z := i32_of (x + y).
Definition i32_neg (x : Z) : Z := i32_of (- x).

(** ** The scalar version *)

(** rotate (scalar.rs:6-11): the old first element enters at the end and every element
    moves one place to the front. *)
Fixpoint push_back (prev : Z) (rev_x : list Z) : list Z :=
  match rev_x with
  | [] => []
  | place :: r => prev :: push_back place r
  end.
Definition rotate (x : list Z) : outcome (list Z) :=
  prev <- aget x 0 ;; Ok (rev (push_back prev (rev x))).

(** [rotate(&mut perm[..=i])]. *)
Definition rotate_to (perm : list Z) (i : nat) : outcome (list Z) :=
  if Nat.ltb i (length perm) then
    h <- rotate (firstn (S i) perm) ;; Ok (h ++ skipn (S i) perm)
  else Panic.

(** next_permutation (scalar.rs:13-24); [is]: what is left of [1..perm.len()]. *)
Fixpoint next_from (is : list nat) (perm count : list Z) : outcome (list Z * list Z) :=
  match is with
  | [] => Ok (perm, count)
  | i :: is' =>
      perm <- rotate_to perm i ;;
      count_i <- aget count i ;;
      if Z.of_nat i <=? count_i then
        count <- aset count i 0 ;; next_from is' perm count
      else
        count <- aset count i (i32_add count_i 1) ;; Ok (perm, count)
  end.
Definition next_permutation (perm count : list Z) : outcome (list Z * list Z) :=
  next_from (seq 1 (length perm - 1)) perm count.

(** Perm (scalar.rs:31-38). *)
Record perm_t := mkPerm { p_cnt : list Z; p_fact : list Z; p_n : nat; p_count : Z; p_perm : list Z }.

(** Perm::new (scalar.rs:41-47). *)
Definition perm_new (n : nat) : outcome perm_t :=
  fact <- for_loop n 1 (repeat 1 16) (fun i fact =>
    f <- aget fact (i - 1) ;; aset fact i (wrap 4 (f * wrap 4 (Z.of_nat i)))) ;;
  Ok (mkPerm (repeat 0 16) fact n 0 (repeat 0 16)).

(** i32 division and remainder. *)
Definition i32_div (x y : Z) : outcome Z :=
  if (y =? 0) || ((x =? - 2 ^ 31) && (y =? -1)) then Panic else Ok (Z.quot x y).
Definition i32_rem (x y : Z) : outcome Z :=
  if (y =? 0) || ((x =? - 2 ^ 31) && (y =? -1)) then Panic else Ok (Z.rem x y).

(** One round of Perm::get (scalar.rs:56-72).  The factorials that fit in the table are
    positive as i32, also the three that have wrapped, so [d as usize] is [d].  Behind its first
    i + 1 elements [pp] has zeros here, not what earlier rounds left: these elements are read
    only if [d > i]. *)
Definition get_round (fact : list Z) (i : nat) (st : list Z * list Z * Z) : outcome (list Z * list Z * Z) :=
  let cnt := fst (fst st) in
  let p := snd (fst st) in
  let idx := snd st in
  f <- aget fact i ;;
  d <- i32_div idx (i32_of f) ;;
  cnt <- aset cnt i d ;;
  idx <- i32_rem idx (i32_of f) ;;
  let pp := map (wrap 1) (firstn (S i) p) ++ repeat 0 (16 - S i) in
  p <- for_loop (S i) 0 p (fun j p =>
    x <- (if Nat.leb (j + Z.to_nat d) i then aget pp (j + Z.to_nat d) else aget pp (j + Z.to_nat d - i - 1)) ;;
    aset p j x) ;;
  Ok (cnt, p, idx).
(** Perm::get (scalar.rs:49-76): the rounds go from n - 1 down to 1. *)
Fixpoint get_rounds (fact : list Z) (is : list nat) (st : list Z * list Z * Z) : outcome (list Z * list Z * Z) :=
  match is with
  | [] => Ok st
  | i :: is' => st <- get_round fact i st ;; get_rounds fact is' st
  end.
Definition perm_get (x : perm_t) (idx : Z) : outcome perm_t :=
  r <- get_rounds (p_fact x) (rev (seq 1 (p_n x - 1))) (p_cnt x, map (fun i => Z.of_nat i + 1) (seq 0 16), idx) ;;
  Ok (mkPerm (fst (fst r)) (p_fact x) (p_n x) (wrap 4 idx) (snd (fst r))).

(** Perm::max (scalar.rs:81-83) and Perm::next (85-90). *)
Definition perm_max (x : perm_t) : outcome Z := aget (p_fact x) (p_n x).
Definition perm_next (x : perm_t) : outcome perm_t :=
  r <- next_permutation (p_perm x) (p_cnt x) ;;
  Ok (mkPerm (snd r) (p_fact x) (p_n x) (wrap 4 (p_count x + 1)) (fst r)).

(** reverse (scalar.rs:93-95). *)
Definition reverse (p : list Z) (k : nat) : outcome (list Z) :=
  if Nat.leb k (length p) then Ok (rev (firstn k p) ++ skipn k p) else Panic.

Definition head (l : list Z) : Z := nth 0 l 0.

(** The inner loop of work (scalar.rs:106-110); the arrays have sixteen elements, so p[0] exists. *)
Definition count_flips (fuel : nat) (p : list Z) : prog (list Z * Z) :=
  while fuel (fun st => negb (head (fst st) =? 1)) (fun st =>
    p <~ call (reverse (fst st) (Z.to_nat (head (fst st)))) ;;
    ret (p, i32_add (snd st) 1)) (p, 0).

(** work (scalar.rs:97-118). *)
Record work_t := mkWork { w_perm : perm_t; w_p : list Z; w_checksum : Z; w_maxflips : Z }.
Definition work (fuel : nat) (perm : perm_t) (n max : Z) : prog (Z * Z) :=
  perm <~ call (perm_get perm (i32_of n)) ;;
  w <~ while fuel (fun w => p_count (w_perm w) <? wrap 4 max) (fun w =>
    f <~ count_flips fuel (w_p w) ;;
    let flips := snd f in
    let checksum := i32_add (w_checksum w) (if p_count (w_perm w) mod 2 =? 0 then flips else i32_neg flips) in
    let maxflips := Z.max (w_maxflips w) flips in
    perm <~ call (perm_next (w_perm w)) ;;
    ret (mkWork perm (p_perm perm) checksum maxflips)) (mkWork perm (p_perm perm) 0 0) ;;
  ret (w_checksum w, w_maxflips w).

(** fannkuch_redux (scalar.rs:120-142) with m = 1: one thread, if there is anything to do. *)
Definition scalar_fannkuch (fuel n : nat) : prog (Z * Z) :=
  perm <~ call (perm_new (Z.to_nat (wrap 4 (Z.of_nat n)))) ;;
  k <~ call (perm_max perm) ;;
  if 0 <? k then
    r <~ work fuel perm 0 (Z.min k k) ;;
    ret (i32_add 0 (fst r), Z.max 0 (snd r))
  else ret (0, 0).

(** ** The vector version *)

(** rotate_sisd (simd.rs:31-37). *)
Definition rotate_sisd (s : list Z) (n : nat) : outcome (list Z) :=
  c <- aget s 0 ;;
  s <- for_loop n 1 s (fun i s => x <- aget s i ;; aset s (i - 1) x) ;;
  aset s n c.

(** popmasks (simd.rs:38-57); reading a vector from an array of sixteen bytes
    ([from_slice_unaligned]) gives these bytes.  The result also has the array [s]. *)
Definition flip_mask (i : nat) : outcome vec :=
  for_loop (Nat.div (i + 1) 2) 0 (map Z.of_nat (seq 0 16)) (fun x mask => swap mask x (i - x)).
Definition popmasks : outcome (list Z * list vec * list vec) :=
  for_loop 16 0 (repeat 0 16, repeat (repeat 0 16) 16, repeat (repeat 0 16) 16) (fun i st =>
    m <- flip_mask i ;;
    flips <- aset (snd (fst st)) i m ;;
    s <- rotate_sisd (map Z.of_nat (seq 0 16)) i ;;
    rotates <- aset (snd st) i s ;;
    Ok (s, flips, rotates)).

(** rotate (simd.rs:58-62). *)
Definition rotate_dyn (tg : target) (rotates : list vec) (s : vec) (n : nat) : outcome vec :=
  m <- aget rotates n ;; shuffle1_dyn tg false u8x16 s m.

(** One flip (simd.rs:123-124 and alike). *)
Definition flip_dyn (tg : target) (flips : list vec) (perm : vec) (toterm : Z) : outcome vec :=
  m <- aget flips (Z.to_nat toterm) ;; shuffle1_dyn tg false u8x16 perm m.

(** The local Perm (simd.rs:69-74). *)
Record pending := mkPending { q_perm : vec; q_start : Z; q_odd : Z }.

(** The variables of tk (simd.rs:68-83); [perms] has the first [perm_max] entries of the array. *)
Record tk_t := mkTk { k_s : list Z; k_c : list Z; k_i : nat; k_odd : Z; k_max : Z; k_sum : Z; k_perms : list pending }.

(** The body of the loop that collects permutations (simd.rs:86-111). *)
Definition collect (tg : target) (rotates : list vec) (t : tk_t) : outcome tk_t :=
  let i := k_i t in
  s <- rotate_dyn tg rotates (k_s t) i ;;
  ci <- aget (k_c t) i ;;
  if Nat.leb i (Z.to_nat ci) then
    c <- aset (k_c t) i 0 ;;
    Ok (mkTk s c (i + 1) (k_odd t) (k_max t) (k_sum t) (k_perms t))
  else
    c <- aset (k_c t) i (wrap 1 (ci + 1)) ;;
    let odd := 65535 - k_odd t in
    if head s =? 0 then Ok (mkTk s c 1 odd (k_max t) (k_sum t) (k_perms t))
    else
      x <- aget s (Z.to_nat (head s)) ;;
      if x =? 0 then
        Ok (mkTk s c 1 odd (if k_max t =? 0 then 1 else k_max t)
             (i32_add (k_sum t) (if odd =? 0 then 1 else -1)) (k_perms t))
      else
        Ok (mkTk s c 1 odd (k_max t) (k_sum t) (k_perms t ++ [mkPending s (head s) odd])).

(** A loop that flips one permutation until its first element is zero (simd.rs:134-144, 164-168):
    permutation, [toterm], count. *)
Definition flip_one (fuel : nat) (tg : target) (flips : list vec) : vec * Z * Z -> prog (vec * Z * Z) :=
  while fuel (fun st => negb (snd (fst st) =? 0)) (fun st =>
    perm <~ call (flip_dyn tg flips (fst (fst st)) (snd (fst st))) ;;
    toterm <~ call (extract u8x16 perm 0) ;;
    ret (perm, toterm, i32_add (snd st) 1)).

(** The loop that flips two at a time (simd.rs:121-133). *)
Definition flip_two (fuel : nat) (tg : target) (flips : list vec) :
    (vec * Z * Z) * (vec * Z * Z) -> prog ((vec * Z * Z) * (vec * Z * Z)) :=
  while fuel (fun st => negb (snd (fst (fst st)) =? 0) && negb (snd (fst (snd st)) =? 0)) (fun st =>
    perm1 <~ call (flip_dyn tg flips (fst (fst (fst st))) (snd (fst (fst st)))) ;;
    perm2 <~ call (flip_dyn tg flips (fst (fst (snd st))) (snd (fst (snd st)))) ;;
    toterm1 <~ call (extract u8x16 perm1 0) ;;
    toterm2 <~ call (extract u8x16 perm2 0) ;;
    ret ((perm1, toterm1, i32_add (snd (fst st)) 1), (perm2, toterm2, i32_add (snd (snd st)) 1))).

(** [if f > self.maxflips]; [self.checksum += ..]. *)
Definition new_max (m f : Z) : Z := if m <? f then f else m.
Definition new_sum (c : Z) (p : pending) (f : Z) : Z := i32_add c (if q_odd p =? 0 then f else i32_neg f).

(** The loops that count the flips of what was collected (simd.rs:112-175).  The state is [k],
    maxflips and checksum. *)
Definition pairs (fuel : nat) (tg : target) (flips : list vec) (perms : list pending) :
    nat * Z * Z -> prog (nat * Z * Z) :=
  while fuel (fun st => Nat.ltb (fst (fst st)) (Nat.max 1 (length perms) - 1)) (fun st =>
    let k := fst (fst st) in
    pk <~ call (aget perms k) ;;
    pk1 <~ call (aget perms (k + 1)) ;;
    both <~ flip_two fuel tg flips ((q_perm pk, q_start pk, 0), (q_perm pk1, q_start pk1, 0)) ;;
    r1 <~ flip_one fuel tg flips (fst both) ;;
    r2 <~ flip_one fuel tg flips (snd both) ;;
    let f1 := snd r1 in
    let f2 := snd r2 in
    let m := new_max (new_max (snd (fst st)) f1) f2 in
    let c := new_sum (new_sum (snd st) pk f1) pk1 f2 in
    ret ((k + 2)%nat, m, c)).
Definition singles (fuel : nat) (tg : target) (flips : list vec) (perms : list pending) :
    nat * Z * Z -> prog (nat * Z * Z) :=
  while fuel (fun st => Nat.ltb (fst (fst st)) (length perms)) (fun st =>
    let k := fst (fst st) in
    pk <~ call (aget perms k) ;;
    r <~ flip_one fuel tg flips (q_perm pk, q_start pk, 0) ;;
    ret ((k + 1)%nat, new_max (snd (fst st)) (snd r), new_sum (snd st) pk (snd r))).

(** tk (simd.rs:68-177), from the outer loop on. *)
Definition tk (fuel : nat) (tg : target) (flips rotates : list vec) (n : nat) (t : tk_t) : prog tk_t :=
  while fuel (fun t => Nat.ltb (k_i t) n) (fun t =>
    t <~ while fuel (fun t => Nat.ltb (k_i t) n && Nat.ltb (length (k_perms t)) 60)
           (fun t => call (collect tg rotates t)) t ;;
    r <~ pairs fuel tg flips (k_perms t) (0%nat, k_max t, k_sum t) ;;
    r <~ singles fuel tg flips (k_perms t) r ;;
    ret (mkTk (k_s t) (k_c t) (k_i t) (k_odd t) (snd (fst r)) (snd r) [])) t.

(** fannkuch_redux (simd.rs:180-190). *)
Definition simd_fannkuch (fuel : nat) (tg : target) (n : nat) : prog (Z * Z) :=
  st <~ call popmasks ;;
  let flips := snd (fst st) in
  let rotates := snd st in
  s <~ call (for_loop n 0 (fst (fst st)) (fun i s => aset s i (wrap 1 (Z.of_nat i)))) ;;
  t <~ tk fuel tg flips rotates n (mkTk s (repeat 0 16) 0 0 0 0 []) ;;
  ret (k_sum t, k_max t).
