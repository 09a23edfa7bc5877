(** The compiler intrinsics declared in src/codegen/llvm.rs:8-122, on bit
    patterns.  The source only declares them; the definitions below follow the
    Rust/LLVM documentation of each intrinsic.  [b] is the lane size in
    bytes, [k] the lane kind. *)
From Coq Require Import ZArith List Bool.
From Verif.Model Require Import Base FloatLane.
Import ListNotations.
Open Scope Z_scope.

(** simd_add / simd_sub / simd_mul (llvm.rs:85-87): wrapping on integers,
    rounding on floats. *)
Definition lane_add (k : kind) (b : nat) (p q : Z) : Z :=
  match k with KFloat => fl_add b p q | _ => wrap b (p + q) end.
Definition lane_sub (k : kind) (b : nat) (p q : Z) : Z :=
  match k with KFloat => fl_sub b p q | _ => wrap b (p - q) end.
Definition lane_mul (k : kind) (b : nat) (p q : Z) : Z :=
  match k with KFloat => fl_mul b p q | _ => wrap b (p * q) end.
Definition simd_add (k : kind) (b : nat) (x y : vec) : vec := map2 (lane_add k b) x y.
Definition simd_sub (k : kind) (b : nat) (x y : vec) : vec := map2 (lane_sub k b) x y.
Definition simd_mul (k : kind) (b : nat) (x y : vec) : vec := map2 (lane_mul k b) x y.

(** simd_div / simd_rem (llvm.rs:88-89): LLVM [sdiv]/[srem], [udiv]/[urem] or
    [fdiv]/[frem]; on integers undefined for a zero divisor and for MIN / -1. *)
Definition div_defined (k : kind) (b : nat) (p q : Z) : bool :=
  negb (q =? 0) &&
  negb (is_signed k && (sval b p =? - 2 ^ (bits b - 1)) && (sval b q =? -1)).

Definition lane_div (k : kind) (b : nat) (p q : Z) : option Z :=
  match k with
  | KFloat => Some (fl_div b p q)
  | _ =>
      if div_defined k b p q
      then Some (if is_signed k then wrap b (Z.quot (sval b p) (sval b q)) else p / q)
      else None
  end.

Definition lane_rem (k : kind) (b : nat) (p q : Z) : option Z :=
  match k with
  | KFloat => Some (fl_rem b p q)
  | _ =>
      if div_defined k b p q
      then Some (if is_signed k then wrap b (Z.rem (sval b p) (sval b q)) else p mod q)
      else None
  end.

Definition simd_div (k : kind) (b : nat) (x y : vec) : outcome vec :=
  all_ok (map2 (lane_div k b) x y).
Definition simd_rem (k : kind) (b : nat) (x y : vec) : outcome vec :=
  all_ok (map2 (lane_rem k b) x y).

(** simd_shl / simd_shr (llvm.rs:90-91): LLVM [shl], and [ashr] or [lshr];
    poison when the amount, read as unsigned, is not below the lane width. *)
Definition lane_shl (b : nat) (p q : Z) : option Z :=
  if q <? bits b then Some (wrap b (Z.shiftl p q)) else None.
Definition lane_shr (k : kind) (b : nat) (p q : Z) : option Z :=
  if q <? bits b
  then Some (if is_signed k then wrap b (Z.shiftr (sval b p) q) else Z.shiftr p q)
  else None.

Definition simd_shl (b : nat) (x y : vec) : outcome vec := all_ok (map2 (lane_shl b) x y).
Definition simd_shr (k : kind) (b : nat) (x y : vec) : outcome vec :=
  all_ok (map2 (lane_shr k b) x y).

(** simd_and / simd_or / simd_xor (llvm.rs:92-94). *)
Definition simd_and (x y : vec) : vec := map2 Z.land x y.
Definition simd_or (x y : vec) : vec := map2 Z.lor x y.
Definition simd_xor (x y : vec) : vec := map2 Z.lxor x y.

(** simd_eq .. simd_ge (llvm.rs:73-78): lanes of the result type, [bm] bytes
    wide, all ones when the relation holds.  Signed lanes compare as signed,
    float lanes by [fcmp]. *)
Definition lane_eq (k : kind) (b : nat) (p q : Z) : bool :=
  match k with KFloat => fl_eq b p q | _ => ival k b p =? ival k b q end.
Definition lane_ne (k : kind) (b : nat) (p q : Z) : bool :=
  match k with KFloat => fl_ne b p q | _ => negb (ival k b p =? ival k b q) end.
Definition lane_lt (k : kind) (b : nat) (p q : Z) : bool :=
  match k with KFloat => fl_lt b p q | _ => ival k b p <? ival k b q end.
Definition lane_le (k : kind) (b : nat) (p q : Z) : bool :=
  match k with KFloat => fl_le b p q | _ => ival k b p <=? ival k b q end.
Definition lane_gt (k : kind) (b : nat) (p q : Z) : bool :=
  match k with KFloat => fl_gt b p q | _ => ival k b p >? ival k b q end.
Definition lane_ge (k : kind) (b : nat) (p q : Z) : bool :=
  match k with KFloat => fl_ge b p q | _ => ival k b p >=? ival k b q end.

Definition simd_cmp (rel : kind -> nat -> Z -> Z -> bool) (k : kind) (b bm : nat)
    (x y : vec) : vec :=
  map2 (fun p q => mlane bm (rel k b p q)) x y.
Definition simd_eq := simd_cmp lane_eq.
Definition simd_ne := simd_cmp lane_ne.
Definition simd_lt := simd_cmp lane_lt.
Definition simd_le := simd_cmp lane_le.
Definition simd_gt := simd_cmp lane_gt.
Definition simd_ge := simd_cmp lane_ge.

(** simd_insert / simd_extract (llvm.rs:80-81): the index must be in range. *)
Definition simd_extract (x : vec) (i : Z) : outcome Z :=
  match nth_error x (Z.to_nat i) with
  | Some p => Ok p
  | None => UB
  end.
Definition simd_insert (x : vec) (i : Z) (p : Z) : outcome vec :=
  if i <? Z.of_nat (length x) then Ok (update x (Z.to_nat i) p) else UB.

(** simd_cast (llvm.rs:83).  Integer to integer: truncate, or extend by the
    signedness of the source lane (mask lanes are signed integers).  Integer to
    float: round to nearest even.  Float to integer: truncate; undefined when the
    result does not fit (NaN and infinities included).  Float to float: re-round. *)
Definition int_min (k : kind) (b : nat) : Z :=
  if is_signed k then - 2 ^ (bits b - 1) else 0.
Definition int_max (k : kind) (b : nat) : Z :=
  if is_signed k then 2 ^ (bits b - 1) - 1 else modulus b - 1.

Definition lane_cast (k : kind) (b : nat) (k' : kind) (b' : nat) (p : Z) : option Z :=
  match k, k' with
  | KFloat, KFloat => Some (fl_convert b b' p)
  | KFloat, _ =>
      match SFtrunc (fdecode b p) with
      | Some z => if (int_min k' b' <=? z) && (z <=? int_max k' b')
                  then Some (wrap b' z) else None
      | None => None
      end
  | _, KFloat => Some (fl_of_int b' (ival k b p))
  | _, _ => Some (wrap b' (ival k b p))
  end.
Definition simd_cast (k : kind) (b : nat) (k' : kind) (b' : nat) (x : vec) : outcome vec :=
  all_ok (map (lane_cast k b k' b') x).

(** simd_reduce_{add,mul}_ordered (llvm.rs:98-99). *)
Definition simd_reduce_add_ordered (k : kind) (b : nat) (x : vec) (acc : Z) : Z :=
  fold_left (lane_add k b) x acc.
Definition simd_reduce_mul_ordered (k : kind) (b : nat) (x : vec) (acc : Z) : Z :=
  fold_left (lane_mul k b) x acc.

(** simd_reduce_{min,max} (llvm.rs:100-101; vectors have at least one lane, the
    empty case is a dummy).  On floats [minnum]/[maxnum]. *)
Definition lane_max (k : kind) (b : nat) (p q : Z) : Z :=
  match k with
  | KFloat => fl_max b p q
  | _ => if ival k b p <? ival k b q then q else p
  end.
Definition lane_min (k : kind) (b : nat) (p q : Z) : Z :=
  match k with
  | KFloat => fl_min b p q
  | _ => if ival k b q <? ival k b p then q else p
  end.
Definition simd_reduce_max (k : kind) (b : nat) (x : vec) : Z :=
  match x with [] => 0 | p :: x' => fold_left (lane_max k b) x' p end.
Definition simd_reduce_min (k : kind) (b : nat) (x : vec) : Z :=
  match x with [] => 0 | p :: x' => fold_left (lane_min k b) x' p end.

(** simd_fmin / simd_fmax / simd_fsqrt (llvm.rs:112-115). *)
Definition simd_fmin (b : nat) (x y : vec) : vec := map2 (fl_min b) x y.
Definition simd_fmax (b : nat) (x y : vec) : vec := map2 (fl_max b) x y.
Definition simd_fsqrt (b : nat) (x : vec) : vec := map (fl_sqrt b) x.

(** simd_reduce_{and,or,xor} (llvm.rs:104-106). *)
Definition simd_reduce_and (b : nat) (x : vec) : Z := fold_left Z.land x (ones b).
Definition simd_reduce_or (x : vec) : Z := fold_left Z.lor x 0.
Definition simd_reduce_xor (x : vec) : Z := fold_left Z.lxor x 0.

(** A mask lane accepted by the mask-consuming intrinsics. *)
Definition mask_lane_ok (b : nat) (p : Z) : bool := (p =? 0) || (p =? ones b).

(** simd_reduce_{all,any} (llvm.rs:107-108): every lane must be 0 or !0. *)
Definition simd_reduce_all (b : nat) (x : vec) : outcome bool :=
  if forallb (mask_lane_ok b) x then Ok (forallb (fun p => negb (p =? 0)) x) else UB.
Definition simd_reduce_any (b : nat) (x : vec) : outcome bool :=
  if forallb (mask_lane_ok b) x then Ok (existsb (fun p => negb (p =? 0)) x) else UB.

(** simd_select (llvm.rs:110): every mask lane ([bm] bytes) must be 0 or !0. *)
Fixpoint select_lanes (m x y : vec) : vec :=
  match m, x, y with
  | c :: m', p :: x', q :: y' => (if c =? 0 then q else p) :: select_lanes m' x' y'
  | _, _, _ => []
  end.
Definition simd_select (bm : nat) (m x y : vec) : outcome vec :=
  if forallb (mask_lane_ok bm) m then Ok (select_lanes m x y) else UB.

(** simd_bitmask (llvm.rs:121): the most significant bit of each lane.  The
    vector of i1 is bitcast to an integer, so lane 0 ends up in the least
    significant bit on little-endian and in bit (lanes-1) on big-endian targets;
    the integer is then zero-extended to the result type. *)
Definition msb (b : nat) (p : Z) : bool := Z.testbit p (bits b - 1).
Fixpoint pack (l : list bool) : Z :=
  match l with
  | [] => 0
  | c :: l' => Z.b2z c + 2 * pack l'
  end.
Definition simd_bitmask (big_endian : bool) (b : nat) (x : vec) : Z :=
  let l := map (msb b) x in pack (if big_endian then rev l else l).

(** simd_shuffle (llvm.rs:8-10): constant indices into the concatenation; an
    out-of-range index is a compile-time error (reported here as [None]). *)
Fixpoint collect {A} (l : list (option A)) : option (list A) :=
  match l with
  | [] => Some []
  | None :: _ => None
  | Some x :: l' => match collect l' with Some r => Some (x :: r) | None => None end
  end.
Definition simd_shuffle (x y : vec) (idx : list nat) : option vec :=
  collect (map (fun i => nth_error (x ++ y) i) idx).

(** llvm.ctpop / llvm.ctlz / llvm.cttz with is_zero_undef = false
    (src/codegen/bit_manip.rs:8-148), per lane. *)
Fixpoint pop_count (p : positive) : Z :=
  match p with
  | xH => 1
  | xO q => pop_count q
  | xI q => 1 + pop_count q
  end.
Fixpoint pos_ctz (p : positive) : Z :=
  match p with
  | xO q => 1 + pos_ctz q
  | _ => 0
  end.
Definition lane_ctpop (p : Z) : Z :=
  match p with Zpos q => pop_count q | _ => 0 end.
Definition lane_ctlz (b : nat) (p : Z) : Z :=
  if p =? 0 then bits b else bits b - 1 - Z.log2 p.
Definition lane_cttz (b : nat) (p : Z) : Z :=
  match p with Zpos q => pos_ctz q | _ => bits b end.
