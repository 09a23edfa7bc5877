(** The [core::arch] intrinsics the crate calls, on bit patterns.  The source
    only calls them; the definitions follow the vendors' documentation. *)
From Coq Require Import ZArith List Bool.
From Verif.Model Require Import Base Llvm.
Import ListNotations.
Open Scope Z_scope.

(** x86 [movmskps], [movmskpd], [pmovmskb] and their 256-bit forms: the sign bit
    of lane i becomes bit i.  Used in codegen/reductions/mask/x86/sse.rs:19-32,
    sse2.rs:19-66, avx.rs:45-92, avx2.rs:16-32. *)
Definition movemask (b : nat) (v : vec) : Z := pack (map (msb b) v).

(** x86 [vptest] as _mm256_testc_si256 / _mm256_testz_si256, on lanes of any
    size: CF = ((~a & b) == 0), ZF = ((a & b) == 0).  Used in
    codegen/reductions/mask/x86/avx.rs:15-28. *)
Definition testc (b : nat) (x y : vec) : Z :=
  Z.b2z (forallb (fun p => p =? 0) (map2 (fun p q => Z.land (wrap b (Z.lnot p)) q) x y)).
Definition testz (x y : vec) : Z :=
  Z.b2z (forallb (fun p => p =? 0) (map2 Z.land x y)).

(** Arm [vminv]/[vmaxv] on unsigned lanes (codegen/reductions/mask/aarch64.rs:11,
    19, 36, 49): minimum / maximum over the lanes. *)
Definition vminv (v : vec) : Z :=
  match v with [] => 0 | x :: v' => fold_left Z.min v' x end.
Definition vmaxv (v : vec) : Z :=
  match v with [] => 0 | x :: v' => fold_left Z.max v' x end.

(** Arm [vpmin]/[vpmax] on unsigned lanes (codegen/reductions/mask/arm.rs:18,
    33): minimum / maximum of adjacent pairs of the concatenation. *)
Fixpoint pairwise (f : Z -> Z -> Z) (v : vec) : vec :=
  match v with
  | x :: y :: v' => f x y :: pairwise f v'
  | _ => []
  end.
Definition vpmin (x y : vec) : vec := pairwise Z.min (x ++ y).
Definition vpmax (x y : vec) : vec := pairwise Z.max (x ++ y).

(** x86 [pshufb] (codegen/shuffle1_dyn.rs:66-86): per byte, 0 when bit 7 of
    the index is set, otherwise the byte selected by the index's low 4 bits. *)
Definition pshufb (x idx : vec) : vec :=
  map (fun i => if Z.testbit i 7 then 0 else nth (Z.to_nat (i mod 16)) x 0) idx.

(** Arm [vtbl1_u8] / [vqtbl1q_u8] (codegen/shuffle1_dyn.rs:28-63, 87-105): 0
    when the index is out of range. *)
Definition vtbl (x idx : vec) : vec := map (fun i => nth (Z.to_nat i) x 0) idx.

(** x86 [vpermilps] / [vpermilpd] with variable control, 128 bit
    (codegen/shuffle1_dyn.rs:162-180, 208-230): low two bits of each 32-bit
    control lane; bit 1 of each 64-bit control lane. *)
Definition permutevar_ps (x idx : vec) : vec :=
  map (fun i => nth (Z.to_nat (i mod 4)) x 0) idx.
Definition permutevar_pd (x idx : vec) : vec :=
  map (fun i => nth (if Z.testbit i 1 then 1%nat else 0%nat) x 0) idx.
