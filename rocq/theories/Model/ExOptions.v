(** The option pricing example (examples/options_pricing/src).  A slice of f32 is the list of its elements and
    scalar arithmetic is that of one lane.  The ISPC version (ispc_.rs) calls a compiler that is not in the
    repository and is left out, as are timing and printing (main.rs). *)
From Coq Require Import ZArith List Bool.
From Verif.Model Require Import Base FloatLane Llvm Tables MathTables Math Minimal Ops Cmp Float Cast Reduce ExSum ExStencil ExGeometry.
Import ListNotations.
Open Scope Z_scope.

(** BINOMIAL_NUM (lib.rs:17). *)
Definition BINOMIAL_NUM : nat := 64.

(** f32 literals (scalar.rs:6-18, simd_kernels.rs:6-18): 0.2316419, 0.31938153, 0.356563782, 1.781477937,
    -1.821255978, 1.330274429, INV_SQRT_2PI, 0.5. *)
Definition c_k : Z := 0x3e6d3389.
Definition c_1 : Z := 0x3ea385fa.
Definition c_2 : Z := 0x3eb68f87.
Definition c_3 : Z := 0x3fe40778.
Definition c_4 : Z := 0xbfe91eea.
Definition c_5 : Z := 0x3faa466f.
Definition INV_SQRT_2PI : Z := 0x3ecc422a.
Definition c_half : Z := 0x3f000000.

(** [BINOMIAL_NUM as f32] (scalar.rs:57, simd_kernels.rs:34) and
    [(2_i32 * (j as i32)).wrapping_sub(BINOMIAL_NUM as i32) as f32] (scalar.rs:65-66, simd_kernels.rs:44-45). *)
Definition steps_f32 : Z := fl_of_int 4 (Z.of_nat BINOMIAL_NUM).
Definition exponent_f32 (j : nat) : Z := fl_of_int 4 (2 * Z.of_nat j - Z.of_nat BINOMIAL_NUM).

(** [l[i]] and [l[i] = x]. *)
Definition at_ {A} (l : list A) (i : nat) : outcome A :=
  match nth_error l i with Some x => Ok x | None => Panic end.
Definition put {A} (l : list A) (i : nat) (x : A) : outcome (list A) :=
  if (i <? length l)%nat then Ok (Base.update l i x) else Panic.

(** The loops that walk back through the tree (scalar.rs:70-74, simd_kernels.rs:49-53); [node] is the right-hand
    side of the assignment. *)
Definition roll_back {A} (node : A -> A -> outcome A) (vs : list A) : outcome (list A) :=
  foreach (rev (seq 0 BINOMIAL_NUM)) vs (fun j vs =>
    foreach (seq 0 j) vs (fun k vs =>
      a <- at_ vs k ;;
      b <- at_ vs (k + 1) ;;
      n <- node a b ;;
      put vs k n)).

(** ** Scalar version (scalar.rs) *)
Section Scalar.
  (** f32::exp, f32::ln and f32::powf of the platform. *)
  Variables (expf lnf : Z -> Z) (powff : Z -> Z -> Z).

  (** cnd (scalar.rs:5-25). *)
  Definition scalar_cnd (x : Z) : Z :=
    let l := fl_abs 4 x in
    let k := fl_div 4 f32_1 (fl_add 4 f32_1 (fl_mul 4 c_k l)) in
    let k2 := fl_mul 4 k k in
    let k3 := fl_mul 4 k2 k in
    let k4 := fl_mul 4 k2 k2 in
    let k5 := fl_mul 4 k3 k2 in
    let w := fl_add 4 (fl_add 4 (fl_add 4 (fl_sub 4 (fl_mul 4 c_1 k) (fl_mul 4 c_2 k2))
                                          (fl_mul 4 c_3 k3))
                                (fl_mul 4 c_4 k4))
                      (fl_mul 4 c_5 k5) in
    let w := fl_mul 4 (fl_mul 4 w INV_SQRT_2PI) (expf (fl_mul 4 (fl_mul 4 (f32_neg l) l) c_half)) in
    if fl_gt 4 x f32_0 then fl_sub 4 f32_1 w else w.

  (** The body of the loop of black_scholes (scalar.rs:37-39). *)
  Definition scalar_call (s x t r v : Z) : Z :=
    let d1 := fl_div 4 (fl_add 4 (lnf (fl_div 4 s x)) (fl_mul 4 (fl_add 4 r (fl_mul 4 (fl_mul 4 v v) c_half)) t))
                       (fl_mul 4 v (fl_sqrt 4 t)) in
    let d2 := fl_sub 4 d1 (fl_mul 4 v (fl_sqrt 4 t)) in
    fl_sub 4 (fl_mul 4 s (scalar_cnd d1)) (fl_mul 4 (fl_mul 4 x (expf (fl_mul 4 (f32_neg r) t))) (scalar_cnd d2)).

  (** The body of the loop of binomial_put (scalar.rs:57-76). *)
  Definition scalar_put (s x t r v : Z) : outcome Z :=
    let dt := fl_div 4 t steps_f32 in
    let u := expf (fl_mul 4 v (fl_sqrt 4 dt)) in
    let d := fl_div 4 f32_1 u in
    let disc := expf (fl_mul 4 r dt) in
    let pu := fl_div 4 (fl_sub 4 disc d) (fl_sub 4 u d) in
    let vs := map (fun j => fl_max 4 f32_0 (fl_sub 4 x (fl_mul 4 s (powff u (exponent_f32 j))))) (seq 0 BINOMIAL_NUM) in
    vs <- roll_back (fun a b =>
            Ok (fl_div 4 (fl_add 4 (fl_mul 4 (fl_sub 4 f32_1 pu) a) (fl_mul 4 pu b)) disc)) vs ;;
    at_ vs 0.

  (** The loop over the options (scalar.rs:31-40, 50-77). *)
  Definition scalar_loop (price : Z -> Z -> Z -> Z -> Z -> outcome Z) (sa xa ta ra va result : list Z) (count : nat) :
      outcome (list Z) :=
    foreach (seq 0 count) result (fun i result =>
      s <- at_ sa i ;;
      x <- at_ xa i ;;
      t <- at_ ta i ;;
      r <- at_ ra i ;;
      v <- at_ va i ;;
      p <- price s x t r v ;;
      put result i p).

  (** slice_scalar (sum.rs:20-26); [f64::from] of an f32. *)
  Definition f64_from (p : Z) : Z := fl_convert 4 8 p.
  Definition slice_scalar (x : list Z) : Z := fold_left (fun sum p => fl_add 8 sum (f64_from p)) x (fl_of_int 8 0).

  (** black_scholes (scalar.rs:27-42) and binomial_put (44-79): the sum, and the result slice afterwards. *)
  Definition scalar_black_scholes (sa xa ta ra va result : list Z) (count : nat) : outcome (Z * list Z) :=
    result <- scalar_loop (fun s x t r v => Ok (scalar_call s x t r v)) sa xa ta ra va result count ;;
    Ok (slice_scalar result, result).
  Definition scalar_binomial_put (sa xa ta ra va result : list Z) (count : nat) : outcome (Z * list Z) :=
    result <- scalar_loop scalar_put sa xa ta ra va result count ;;
    Ok (slice_scalar result, result).
End Scalar.

(** ** Vector kernels (simd_kernels.rs) *)
Section Kernels.
  (** As in Model/Math.v: external functions and what uninitialised vectors hold. *)
  Variables (X : externals) (tg : target) (junk junk' : vec).
  Local Notation f := f32x8.

  (** cnd (simd_kernels.rs:5-21). *)
  Definition simd_cnd (x : vec) : outcome vec :=
    l <- method (fabs X tg junk f x) ;;
    k <- div_sv f f32_1 (add_sv f f32_1 (mul_sv f c_k l)) ;;
    let k2 := mul f k k in
    let k3 := mul f k2 k in
    let k4 := mul f k2 k2 in
    let k5 := mul f k3 k2 in
    let w := add f (add f (add f (sub f (mul_sv f c_1 k) (mul_sv f c_2 k2))
                                 (mul_sv f c_3 k3))
                          (mul_sv f c_4 k4))
                   (mul_sv f c_5 k5) in
    e <- method (exp X tg junk f (mul_vs f (mul f (neg f l) l) c_half)) ;;
    let w := mul f (mul f w (splat f INV_SQRT_2PI)) e in
    select m32x8 (vgt f x (splat f f32_0)) (sub_sv f f32_1 w) w.

  (** black_scholes (simd_kernels.rs:24-28). *)
  Definition simd_call (s x t r v : vec) : outcome vec :=
    q <- div f s x ;;
    l <- method (ln X tg junk f q) ;;
    rt <- method (fsqrt X tg junk f t) ;;
    d1 <- div f (add f l (mul f (add f r (mul_vs f (mul f v v) c_half)) t)) (mul f v rt) ;;
    rt' <- method (fsqrt X tg junk f t) ;;
    let d2 := sub f d1 (mul f v rt') in
    n1 <- simd_cnd d1 ;;
    e <- method (exp X tg junk f (mul f (neg f r) t)) ;;
    n2 <- simd_cnd d2 ;;
    Ok (sub f (mul f s n1) (mul f (mul f x e) n2)).

  (** binomial_put (simd_kernels.rs:31-56). *)
  Definition simd_put (s x t r v : vec) : outcome vec :=
    dt <- div_vs f t steps_f32 ;;
    rdt <- method (fsqrt X tg junk f dt) ;;
    u <- method (exp X tg junk f (mul f v rdt)) ;;
    d <- div_sv f f32_1 u ;;
    disc <- method (exp X tg junk f (mul f r dt)) ;;
    inv_disc <- div_sv f f32_1 disc ;;
    pu <- div f (sub f disc d) (sub f u d) ;;
    let o_m_pu := sub_sv f f32_1 pu in
    vs <- map_ok (fun j =>
            upow <- method (powf X tg junk junk' f u (splat f (exponent_f32 j))) ;;
            Ok (float_max f (splat f f32_0) (sub f x (mul f s upow)))) (seq 0 BINOMIAL_NUM) ;;
    vs <- roll_back (fun a b => Ok (mul f (add f (mul f o_m_pu a) (mul f pu b)) inv_disc)) vs ;;
    at_ vs 0.
End Kernels.

(** ** Vector version (simd.rs) *)

(** [&l[i..]]. *)
Definition from (l : list Z) (i : nat) : outcome (list Z) :=
  if (i <=? length l)%nat then Ok (skipn i l) else Panic.
(** [f32x8::from_slice_unaligned_unchecked(l)] and [v.write_to_slice_unaligned_unchecked(l)]
    (src/api/slice/from_slice.rs:57-65, write_to_slice.rs:61-66): the length is only checked in debug builds. *)
Definition read_unchecked (debug : bool) (l : list Z) : outcome vec :=
  if (8 <=? length l)%nat then Ok (firstn 8 l) else if debug then Panic else UB.
Definition write_unchecked (debug : bool) (l : list Z) (v : vec) : outcome (list Z) :=
  if (8 <=? length l)%nat then Ok (v ++ skipn 8 l) else if debug then Panic else UB.

Definition kernel := vec -> vec -> vec -> vec -> vec -> outcome vec.

(** One round of the loop (simd.rs:15-20, simd_par.rs:18-23): read at [i], compute. *)
Definition read_and_price (debug : bool) (k : kernel) (sa xa ta ra va : list Z) (i : nat) : outcome vec :=
  s <- (l <- from sa i ;; read_unchecked debug l) ;;
  x <- (l <- from xa i ;; read_unchecked debug l) ;;
  t <- (l <- from ta i ;; read_unchecked debug l) ;;
  r <- (l <- from ra i ;; read_unchecked debug l) ;;
  v <- (l <- from va i ;; read_unchecked debug l) ;;
  k s x t r v.

(** [(0..n).step_by(8)]. *)
Definition by_8 (n : nat) : list nat := map (fun i => (8 * i)%nat) (seq 0 ((n + 7) / 8)).

(** slice (sum.rs:5-18).  Here [debug] is also [t_debug tg]. *)
Definition sum_slice (tg : target) (x : list Z) : outcome Z :=
  _ <- assert (Nat.eqb (lanes f32x8) (lanes f64x8)) ;;
  _ <- assert (Nat.eqb (length x mod lanes f32x8) 0) ;;
  sum <- foreach (by_8 (length x)) (splat f64x8 (fl_of_int 8 0)) (fun i sum =>
    l <- from x i ;;
    v <- read_unchecked (t_debug tg) l ;;
    w <- cast PlainCast f32x8 f64x8 v ;;
    Ok (add f64x8 sum w)) ;;
  fsum tg f64x8 sum.

(** serial (simd.rs:5-25). *)
Definition serial (tg : target) (k : kernel) (sa xa ta ra va result : list Z) (count : nat) : outcome (Z * list Z) :=
  _ <- assert (Nat.eqb (count mod lanes f32x8) 0) ;;
  result <- foreach (by_8 count) result (fun i result =>
    p <- read_and_price (t_debug tg) k sa xa ta ra va i ;;
    tail <- from result i ;;
    tail <- write_unchecked (t_debug tg) tail p ;;
    Ok (firstn i result ++ tail)) ;;
  sum <- sum_slice tg result ;;
  Ok (sum, result).

(** black_scholes (simd.rs:27-41) and binomial_put (43-57). *)
Definition simd_black_scholes X tg junk := serial tg (simd_call X tg junk).
Definition simd_binomial_put X tg junk junk' := serial tg (simd_put X tg junk junk').

(** ** Parallel version (simd_par.rs) *)

(** The body of [for_each] (simd_par.rs:14-26) for chunk [i].  [par_chunks_mut(8)] (14) has a shorter last chunk if
    the length is no multiple of eight. *)
Definition par_body (debug : bool) (k : kernel) (sa xa ta ra va : list Z) (i : nat) (result : list Z) : outcome (list Z) :=
  let chunk := firstn 8 (skipn (8 * i) result) in
  _ <- assert (negb debug || Nat.eqb (length chunk) 8) ;;
  p <- read_and_price debug k sa xa ta ra va i ;;
  chunk <- write_unchecked debug chunk p ;;
  Ok (firstn (8 * i) result ++ chunk ++ skipn (8 * i + 8) result).

(** parallel (simd_par.rs:5-29).  The chunks are disjoint and the inputs are shared read-only, so running the
    bodies at the same time is the same as running them one after the other in some order: [order] lists the
    chunks as they are run, each once. *)
Definition chunk_count (result : list Z) : nat := ((length result + 7) / 8)%nat.
Definition parallel (tg : target) (k : kernel) (order : list nat) (sa xa ta ra va result : list Z) (count : nat) :
    outcome (Z * list Z) :=
  _ <- assert (Nat.eqb (count mod lanes f32x8) 0) ;;
  result <- foreach order result (par_body (t_debug tg) k sa xa ta ra va) ;;
  sum <- sum_slice tg result ;;
  Ok (sum, result).

(** black_scholes (simd_par.rs:31-45) and binomial_put (47-61). *)
Definition par_black_scholes X tg junk := parallel tg (simd_call X tg junk).
Definition par_binomial_put X tg junk junk' := parallel tg (simd_put X tg junk junk').

(** ** State (lib.rs:27-72) *)

(** State::new (lib.rs:39-49): 100, 98, 2, 0.02, 5 and 0. *)
Record state := State { st_s : list Z; st_x : list Z; st_t : list Z; st_r : list Z; st_v : list Z; st_result : list Z; st_count : nat }.
Definition state_new (count : nat) : state :=
  State (repeat 0x42c80000 count) (repeat 0x42c40000 count) (repeat 0x40000000 count) (repeat 0x3ca3d70a count)
        (repeat 0x40a00000 count) (repeat f32_0 count) count.
(** exec (lib.rs:50-71): the sum and the new state. *)
Definition exec (m : list Z -> list Z -> list Z -> list Z -> list Z -> list Z -> nat -> outcome (Z * list Z)) (st : state) :
    outcome (Z * state) :=
  o <- m (st_s st) (st_x st) (st_t st) (st_r st) (st_v st) (st_result st) (st_count st) ;;
  let (sum, result) := o : Z * list Z in
  Ok (sum, State (st_s st) (st_x st) (st_t st) (st_r st) (st_v st) result (st_count st)).
