(** Comparisons (src/api/cmp/*.rs) and integer min/max
    (src/api/ops/vector_int_min_max.rs). *)
From Coq Require Import ZArith List Bool.
From Verif.Model Require Import Base Llvm Minimal MaskReduce.
Import ListNotations.
Open Scope Z_scope.

(** The mask type belonging to a vector type: same lane size and count
    ([$mask_ty] of src/v*.rs). *)
Definition mask_of (t : vty) : vty := V KMask (vb t) (vn t).

Definition is_mask (t : vty) : bool := kind_eqb (vkind t) KMask.

(** Vertical comparisons (src/api/cmp/vertical.rs: eq 12-15, ne 19-22, lt 26-33,
    le 37-44, gt 48-55, ge 59-66).  The result lanes are those of the mask. *)
Definition veq (t : vty) (x y : vec) : vec := simd_eq (vkind t) (vb t) (vb t) x y.
Definition vne (t : vty) (x y : vec) : vec := simd_ne (vkind t) (vb t) (vb t) x y.
Definition vlt (t : vty) (x y : vec) : vec :=
  if is_mask t then simd_gt (vkind t) (vb t) (vb t) x y
  else simd_lt (vkind t) (vb t) (vb t) x y.
Definition vle (t : vty) (x y : vec) : vec :=
  if is_mask t then simd_ge (vkind t) (vb t) (vb t) x y
  else simd_le (vkind t) (vb t) (vb t) x y.
Definition vgt (t : vty) (x y : vec) : vec :=
  if is_mask t then simd_lt (vkind t) (vb t) (vb t) x y
  else simd_gt (vkind t) (vb t) (vb t) x y.
Definition vge (t : vty) (x y : vec) : vec :=
  if is_mask t then simd_le (vkind t) (vb t) (vb t) x y
  else simd_ge (vkind t) (vb t) (vb t) x y.

(** [==] and [!=] (src/api/cmp/partial_eq.rs:13-19).  (For isize/usize/msize
    vectors [all] and [any] go through [msize_all]/[msize_any], which are shown
    equal to [all]/[any].) *)
Definition op_eq (tg : target) (t : vty) (x y : vec) : outcome bool :=
  all tg (mask_of t) (veq t x y).
Definition op_ne (tg : target) (t : vty) (x y : vec) : outcome bool :=
  any tg (mask_of t) (vne t x y).

(** LexicographicallyOrdered [==] and [!=] (partial_eq.rs:24-33). *)
Definition lex_eq (tg : target) (t : vty) (x y : vec) : outcome bool := op_eq tg t x y.
Definition lex_ne (tg : target) (t : vty) (x y : vec) : outcome bool := op_ne tg t x y.

(** The loop shared by [lt] and [gt] of LexicographicallyOrdered
    (partial_ord.rs:32-38, 52-58). *)
Fixpoint lex_loop (t : vty) (count i : nat) (m_cmp m_eq : vec) : outcome bool :=
  match count with
  | O => Ok false
  | S c =>
      e <- mask_extract (mask_of t) m_eq (Z.of_nat i) ;;
      if e then lex_loop t c (S i) m_cmp m_eq
      else mask_extract (mask_of t) m_cmp (Z.of_nat i)
  end.

(** lt 29-39, gt 49-59, le 41-43, ge 45-47. *)
Definition lex_lt (t : vty) (x y : vec) : outcome bool :=
  lex_loop t (lanes t) 0 (vlt t x y) (veq t x y).
Definition lex_gt (t : vty) (x y : vec) : outcome bool :=
  lex_loop t (lanes t) 0 (vgt t x y) (veq t x y).
Definition lex_le (tg : target) (t : vty) (x y : vec) : outcome bool :=
  a <- lex_lt t x y ;; e <- lex_eq tg t x y ;; Ok (a || e).
Definition lex_ge (tg : target) (t : vty) (x y : vec) : outcome bool :=
  a <- lex_gt t x y ;; e <- lex_eq tg t x y ;; Ok (a || e).

(** partial_cmp 17-27. *)
Definition lex_partial_cmp (tg : target) (t : vty) (x y : vec) : outcome (option comparison) :=
  e <- lex_eq tg t x y ;;
  if e then Ok (Some Eq) else
  l <- lex_lt t x y ;;
  if l then Ok (Some Lt) else
  g <- lex_gt t x y ;;
  if g then Ok (Some Gt) else Ok None.

(** Ord::cmp (src/api/cmp/ord.rs:19-24). *)
Definition lex_cmp (tg : target) (t : vty) (x y : vec) : outcome comparison :=
  c <- lex_partial_cmp tg t x y ;;
  match c with Some c => Ok c | None => UB end.

(** Integer [min] and [max] (src/api/ops/vector_int_min_max.rs:11-13, 20-22). *)
Definition vmin (t : vty) (x y : vec) : outcome vec := select (mask_of t) (vlt t x y) x y.
Definition vmax (t : vty) (x y : vec) : outcome vec := select (mask_of t) (vgt t x y) x y.

(** [==] and [!=] of isizexN, usizexN and msizexN, whose comparisons yield msizexN
    (src/vSize.rs; partial_eq.rs:13-19): None where the pointer width has no
    implementation. *)
Definition size_op_eq (tg : target) (k : kind) (n : nat) (x y : vec) : option (outcome bool) :=
  msize_all tg n (veq (V k (t_ptr tg) n) x y).
Definition size_op_ne (tg : target) (k : kind) (n : nat) (x y : vec) : option (outcome bool) :=
  msize_any tg n (vne (V k (t_ptr tg) n) x y).
