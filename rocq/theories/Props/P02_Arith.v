(** C04 - C13: integer arithmetic, bitwise operators, shifts and rotates. *)
From Coq Require Import ZArith List Bool Lia.
From Verif.Model Require Import Base Tables Minimal Ops.
From Verif.Spec Require Import Spec.
From Verif.Proofs Require Import Lib OpsP OpsP2 RotateP LawsP AssignP ExtraP.
From Verif.Props Require Import Tac Targets.
Import ListNotations.
Open Scope Z_scope.

(** C04: each lane of a + b is the sum wrapped to the lane type. *)
Theorem C04_add : forall t x y,
  integer_type t -> is_vector t x -> is_vector t y ->
  lanewise2 t x y (add t x y) (fun a b c => wraps_to t (value t a + value t b) (value t c)).
Proof. exact add_wraps. Qed.
Print Assumptions C04_add.

(** C04: each lane of a - b is the difference wrapped to the lane type. *)
Theorem C04_sub : forall t x y,
  integer_type t -> is_vector t x -> is_vector t y ->
  lanewise2 t x y (sub t x y) (fun a b c => wraps_to t (value t a - value t b) (value t c)).
Proof. exact sub_wraps. Qed.
Print Assumptions C04_sub.

(** C04: each lane of a * b is the product wrapped to the lane type. *)
Theorem C04_mul : forall t x y,
  integer_type t -> is_vector t x -> is_vector t y ->
  lanewise2 t x y (mul t x y) (fun a b c => wraps_to t (value t a * value t b) (value t c)).
Proof. exact mul_wraps. Qed.
Print Assumptions C04_mul.

(** C04: the vectors of one integer type form a commutative ring. *)
Theorem C04_ring : forall t x y z,
  integer_type t -> is_vector t x -> is_vector t y -> is_vector t z ->
  add t x y = add t y x /\ add t (add t x y) z = add t x (add t y z) /\
  add t (splat t 0) x = x /\ sub t x x = splat t 0 /\ add t (sub t x y) y = x /\
  mul t x y = mul t y x /\ mul t (mul t x y) z = mul t x (mul t y z) /\
  mul t (splat t 1) x = x /\ mul t (splat t 0) x = splat t 0 /\
  mul t x (add t y z) = add t (mul t x y) (mul t x z).
Proof. exact integer_ring. Qed.
Print Assumptions C04_ring.

(** C04: so do +=, -=, *=. *)
Theorem C04_assign : forall t x y,
  integer_type t -> is_vector t x -> is_vector t y ->
  lanewise2 t x y (add_assign t x y) (fun a b c => wraps_to t (value t a + value t b) (value t c)) /\
  lanewise2 t x y (sub_assign t x y) (fun a b c => wraps_to t (value t a - value t b) (value t c)) /\
  lanewise2 t x y (mul_assign t x y) (fun a b c => wraps_to t (value t a * value t b) (value t c)).
Proof. exact arithmetic_assign. Qed.
Print Assumptions C04_assign.

Example C04_example :
  integer_type i8x4 /\ is_vector i8x4 [127; 128; 255; 5] /\ is_vector i8x4 [1; 255; 255; 250] /\
  add i8x4 [127; 128; 255; 5] [1; 255; 255; 250] = [128; 127; 254; 255] /\
  sub i8x4 [127; 128; 255; 5] [1; 255; 255; 250] = [126; 129; 0; 11] /\
  mul i8x4 [127; 128; 255; 5] [1; 255; 255; 250] = [127; 128; 1; 226].
Proof. split; [ity|]. split; [isv|]. split; [isv|]. repeat split; vm_compute; reflexivity. Qed.

(** C05: each lane of a / b is the quotient truncated toward zero. *)
Theorem C05_div : forall t x y,
  integer_type t -> is_vector t x -> is_vector t y ->
  (forall i a b, lane x i a -> lane y i b -> ~ bad_division t a b) ->
  exists r, div t x y = Ok r /\
    lanewise2 t x y r (fun a b c => value t c = Z.quot (value t a) (value t b)).
Proof. exact div_correct. Qed.
Print Assumptions C05_div.

(** C05: each lane of a % b is the remainder with the sign of the dividend. *)
Theorem C05_rem : forall t x y,
  integer_type t -> is_vector t x -> is_vector t y ->
  (forall i a b, lane x i a -> lane y i b -> ~ bad_division t a b) ->
  exists r, rem t x y = Ok r /\
    lanewise2 t x y r (fun a b c => value t c = Z.rem (value t a) (value t b)).
Proof. exact rem_correct. Qed.
Print Assumptions C05_rem.

(** C05: (a / b) * b + a % b = a. *)
Theorem C05_division_identity : forall t x y,
  integer_type t -> is_vector t x -> is_vector t y ->
  (forall i a b, lane x i a -> lane y i b -> ~ bad_division t a b) ->
  exists q r, div t x y = Ok q /\ rem t x y = Ok r /\ add t (mul t q y) r = x.
Proof. exact division_identity. Qed.
Print Assumptions C05_division_identity.

(** C05: /= and %=, where defined; undefined exactly on a bad pair of lanes. *)
Theorem C05_assign : forall t x y,
  integer_type t -> is_vector t x -> is_vector t y ->
  let bad := exists i a b, lane x i a /\ lane y i b /\ bad_division t a b in
  (bad -> div_assign t x y = UB /\ rem_assign t x y = UB) /\
  (~ bad ->
     (exists r, div_assign t x y = Ok r /\
        lanewise2 t x y r (fun a b c => value t c = Z.quot (value t a) (value t b))) /\
     (exists r, rem_assign t x y = Ok r /\
        lanewise2 t x y r (fun a b c => value t c = Z.rem (value t a) (value t b)))).
Proof. exact division_assign. Qed.
Print Assumptions C05_assign.

Example C05_example :
  integer_type i32x2 /\ is_vector i32x2 [4294967289; 7] /\ is_vector i32x2 [2; 4294967294] /\
  (forall i a b, lane [4294967289; 7] i a -> lane [2; 4294967294] i b -> ~ bad_division i32x2 a b) /\
  div i32x2 [4294967289; 7] [2; 4294967294] = Ok [4294967293; 4294967293] /\
  rem i32x2 [4294967289; 7] [2; 4294967294] = Ok [4294967295; 1].
Proof.
  split; [ity|]. split; [isv|]. split; [isv|]. split.
  - intros [|[|i]] a b A B; unfold lane in *; cbn in A, B; [| |destruct i; discriminate];
      injection A as <-; injection B as <-; vm_compute; intros [H|[_ [H1 H2]]]; discriminate.
  - split; vm_compute; reflexivity.
Qed.

(** C06: / is undefined exactly on a bad pair of lanes, and never panics. *)
Theorem C06_div : forall t x y,
  integer_type t -> is_vector t x -> is_vector t y ->
  (div t x y = UB <-> exists i a b, lane x i a /\ lane y i b /\ bad_division t a b)
  /\ div t x y <> Panic.
Proof. exact div_undefined_iff. Qed.
Print Assumptions C06_div.

(** C06: % likewise. *)
Theorem C06_rem : forall t x y,
  integer_type t -> is_vector t x -> is_vector t y ->
  (rem t x y = UB <-> exists i a b, lane x i a /\ lane y i b /\ bad_division t a b)
  /\ rem t x y <> Panic.
Proof. exact rem_undefined_iff. Qed.
Print Assumptions C06_rem.

(** C06: << is undefined exactly for a bad shift amount. *)
Theorem C06_shl : forall t x y,
  integer_type t -> is_vector t x -> is_vector t y ->
  (shl t x y = UB <-> exists i b, lane y i b /\ bad_amount t b) /\ shl t x y <> Panic.
Proof. exact shl_undefined_iff. Qed.
Print Assumptions C06_shl.

(** C06: >> likewise. *)
Theorem C06_shr : forall t x y,
  integer_type t -> is_vector t x -> is_vector t y ->
  (shr t x y = UB <-> exists i b, lane y i b /\ bad_amount t b) /\ shr t x y <> Panic.
Proof. exact shr_undefined_iff. Qed.
Print Assumptions C06_shr.

(** C06, defect: the claim that safe integer operators always have a defined
    result is false. *)
Theorem C06_safe_operators_defined_refuted :
  ~ (forall t x y, integer_type t -> is_vector t x -> is_vector t y -> div t x y <> UB) /\
  ~ (forall t x y, integer_type t -> is_vector t x -> is_vector t y -> rem t x y <> UB) /\
  ~ (forall t x y, integer_type t -> is_vector t x -> is_vector t y -> shl t x y <> UB) /\
  ~ (forall t x y, integer_type t -> is_vector t x -> is_vector t y -> shr t x y <> UB).
Proof.
  assert (T : integer_type i8x2) by ity.
  assert (A : is_vector i8x2 [128; 1]) by isv. assert (B : is_vector i8x2 [255; 9]) by isv.
  repeat split; intros H; apply (H i8x2 _ _ T A B); vm_compute; reflexivity.
Qed.
Print Assumptions C06_safe_operators_defined_refuted.

Example C06_example :
  div i8x2 [128; 1] [255; 9] = UB /\ div u8x2 [128; 1] [255; 9] = Ok [0; 0] /\
  div u8x2 [128; 1] [255; 0] = UB /\ shl u8x2 [1; 1] [8; 0] = UB /\ shl u8x2 [1; 1] [7; 0] = Ok [128; 1].
Proof. repeat split; vm_compute; reflexivity. Qed.

(** C07: +, -, * with a scalar act on every lane. *)
Theorem C07_arithmetic : forall t x s,
  integer_type t -> is_vector t x -> 0 <= s < 2 ^ width t ->
  lanewise1 t x (add_vs t x s) (fun a c => wraps_to t (value t a + value t s) (value t c)) /\
  lanewise1 t x (add_sv t s x) (fun a c => wraps_to t (value t s + value t a) (value t c)) /\
  lanewise1 t x (sub_vs t x s) (fun a c => wraps_to t (value t a - value t s) (value t c)) /\
  lanewise1 t x (sub_sv t s x) (fun a c => wraps_to t (value t s - value t a) (value t c)) /\
  lanewise1 t x (mul_vs t x s) (fun a c => wraps_to t (value t a * value t s) (value t c)) /\
  lanewise1 t x (mul_sv t s x) (fun a c => wraps_to t (value t s * value t a) (value t c)).
Proof. exact scalar_arithmetic. Qed.
Print Assumptions C07_arithmetic.

(** C07: / and % with a scalar act on every lane. *)
Theorem C07_division : forall t x s,
  integer_type t -> is_vector t x -> 0 <= s < 2 ^ width t ->
  ((forall i a, lane x i a -> ~ bad_division t a s) ->
     (exists r, div_vs t x s = Ok r /\
        lanewise1 t x r (fun a c => value t c = Z.quot (value t a) (value t s))) /\
     (exists r, rem_vs t x s = Ok r /\
        lanewise1 t x r (fun a c => value t c = Z.rem (value t a) (value t s)))) /\
  ((forall i a, lane x i a -> ~ bad_division t s a) ->
     (exists r, div_sv t s x = Ok r /\
        lanewise1 t x r (fun a c => value t c = Z.quot (value t s) (value t a))) /\
     (exists r, rem_sv t s x = Ok r /\
        lanewise1 t x r (fun a c => value t c = Z.rem (value t s) (value t a)))).
Proof. exact scalar_division. Qed.
Print Assumptions C07_division.

(** C07: and are undefined exactly when some lane's quotient is; so are the assigning forms. *)
Theorem C07_division_undefined : forall t x s,
  integer_type t -> is_vector t x -> 0 <= s < 2 ^ width t ->
  let bad_vs := exists i a, lane x i a /\ bad_division t a s in
  let bad_sv := exists i a, lane x i a /\ bad_division t s a in
  (div_vs t x s = UB <-> bad_vs) /\ (rem_vs t x s = UB <-> bad_vs) /\
  (div_sv t s x = UB <-> bad_sv) /\ (rem_sv t s x = UB <-> bad_sv) /\
  (div_vs_assign t x s = UB <-> bad_vs) /\ (rem_vs_assign t x s = UB <-> bad_vs).
Proof. exact scalar_division_undefined. Qed.
Print Assumptions C07_division_undefined.

(** C07: &, |, ^ with a scalar. *)
Theorem C07_bitwise : forall t x s,
  integer_type t -> is_vector t x -> 0 <= s < 2 ^ width t ->
  lanewise1 t x (bitand_vs t x s) (fun a => bitwise2 t andb a s) /\
  lanewise1 t x (bitand_sv t s x) (fun a => bitwise2 t andb s a) /\
  lanewise1 t x (bitor_vs t x s) (fun a => bitwise2 t orb a s) /\
  lanewise1 t x (bitor_sv t s x) (fun a => bitwise2 t orb s a) /\
  lanewise1 t x (bitxor_vs t x s) (fun a => bitwise2 t xorb a s) /\
  lanewise1 t x (bitxor_sv t s x) (fun a => bitwise2 t xorb s a).
Proof. exact bitwise_scalar. Qed.
Print Assumptions C07_bitwise.

(** C07: &, |, ^ of a mask with a bool. *)
Theorem C07_mask : forall t x s,
  mask_type t -> canonical t x ->
  let ok f g := canonical t (f : vec) /\
    forall i c, lane x i (mask_lane t c) -> lane f i (mask_lane t (g c)) in
  ok (mask_bitand_vs t x s) (fun c => c && s) /\ ok (mask_bitand_sv t s x) (fun c => c && s) /\
  ok (mask_bitor_vs t x s) (fun c => c || s) /\ ok (mask_bitor_sv t s x) (fun c => c || s) /\
  ok (mask_bitxor_vs t x s) (fun c => xorb c s) /\ ok (mask_bitxor_sv t s x) (fun c => xorb c s).
Proof. exact mask_scalar_operators. Qed.
Print Assumptions C07_mask.

(** C07: the assigning operators with a scalar operand. *)
Theorem C07_assign : forall t x s,
  integer_type t -> is_vector t x -> 0 <= s < 2 ^ width t ->
  lanewise1 t x (add_vs_assign t x s) (fun a c => wraps_to t (value t a + value t s) (value t c)) /\
  lanewise1 t x (sub_vs_assign t x s) (fun a c => wraps_to t (value t a - value t s) (value t c)) /\
  lanewise1 t x (mul_vs_assign t x s) (fun a c => wraps_to t (value t a * value t s) (value t c)) /\
  lanewise1 t x (bitand_vs_assign t x s) (fun a => bitwise2 t andb a s) /\
  lanewise1 t x (bitor_vs_assign t x s) (fun a => bitwise2 t orb a s) /\
  lanewise1 t x (bitxor_vs_assign t x s) (fun a => bitwise2 t xorb a s) /\
  ((forall i a, lane x i a -> ~ bad_division t a s) ->
     (exists r, div_vs_assign t x s = Ok r /\
        lanewise1 t x r (fun a c => value t c = Z.quot (value t a) (value t s))) /\
     (exists r, rem_vs_assign t x s = Ok r /\
        lanewise1 t x r (fun a c => value t c = Z.rem (value t a) (value t s)))).
Proof. exact scalar_assign. Qed.
Print Assumptions C07_assign.

(** C07: and those of masks with a bool. *)
Theorem C07_mask_assign : forall t x s,
  mask_type t -> canonical t x ->
  let ok f g := canonical t (f : vec) /\
    forall i c, lane x i (mask_lane t c) -> lane f i (mask_lane t (g c)) in
  ok (mask_bitand_vs_assign t x s) (fun c => c && s) /\
  ok (mask_bitor_vs_assign t x s) (fun c => c || s) /\
  ok (mask_bitxor_vs_assign t x s) (fun c => xorb c s).
Proof. exact mask_scalar_assign. Qed.
Print Assumptions C07_mask_assign.

Example C07_example :
  integer_type u16x2 /\ is_vector u16x2 [10; 65535] /\ 0 <= 7 < 2 ^ width u16x2 /\
  add_vs u16x2 [10; 65535] 7 = [17; 6] /\ sub_sv u16x2 7 [10; 65535] = [65533; 8] /\
  div_sv u16x2 7 [10; 65535] = Ok [0; 0] /\ rem_vs u16x2 [10; 65535] 7 = Ok [3; 1].
Proof.
  split; [ity|]. split; [isv|]. split; [vm_compute; split; congruence|].
  repeat split; vm_compute; reflexivity.
Qed.

(** C08: &, |, ^, ! act on every bit. *)
Theorem C08_bits : forall t x y,
  integer_type t -> is_vector t x -> is_vector t y ->
  lanewise2 t x y (bitand t x y) (bitwise2 t andb) /\
  lanewise2 t x y (bitor t x y) (bitwise2 t orb) /\
  lanewise2 t x y (bitxor t x y) (bitwise2 t xorb) /\
  lanewise1 t x (not t x) (bitwise1 t negb).
Proof. exact bitwise_operators. Qed.
Print Assumptions C08_bits.

(** C08: De Morgan, double complement, a ^ a = 0, idempotence. *)
Theorem C08_laws : forall t x y,
  integer_type t -> is_vector t x -> is_vector t y ->
  not t (bitand t x y) = bitor t (not t x) (not t y) /\
  not t (bitor t x y) = bitand t (not t x) (not t y) /\
  not t (not t x) = x /\ bitxor t x x = splat t 0 /\
  bitand t x x = x /\ bitor t x x = x.
Proof. exact bitwise_laws. Qed.
Print Assumptions C08_laws.

(** C08: on masks the operators are boolean and/or/xor/not of the lanes. *)
Theorem C08_masks : forall t x y,
  mask_type t -> canonical t x -> canonical t y ->
  (canonical t (mask_bitand t x y) /\
   forall i c d, lane x i (mask_lane t c) -> lane y i (mask_lane t d) ->
     lane (mask_bitand t x y) i (mask_lane t (c && d))) /\
  (canonical t (mask_bitor t x y) /\
   forall i c d, lane x i (mask_lane t c) -> lane y i (mask_lane t d) ->
     lane (mask_bitor t x y) i (mask_lane t (c || d))) /\
  (canonical t (mask_bitxor t x y) /\
   forall i c d, lane x i (mask_lane t c) -> lane y i (mask_lane t d) ->
     lane (mask_bitxor t x y) i (mask_lane t (xorb c d))) /\
  (canonical t (mask_not t x) /\
   forall i c, lane x i (mask_lane t c) -> lane (mask_not t x) i (mask_lane t (negb c))).
Proof. exact mask_operators. Qed.
Print Assumptions C08_masks.

(** C08: &=, |=, ^=. *)
Theorem C08_assign : forall t x y,
  integer_type t -> is_vector t x -> is_vector t y ->
  lanewise2 t x y (bitand_assign t x y) (bitwise2 t andb) /\
  lanewise2 t x y (bitor_assign t x y) (bitwise2 t orb) /\
  lanewise2 t x y (bitxor_assign t x y) (bitwise2 t xorb).
Proof. exact bitwise_assign. Qed.
Print Assumptions C08_assign.

(** C08: and on masks. *)
Theorem C08_mask_assign : forall t x y,
  mask_type t -> canonical t x -> canonical t y ->
  let ok f g := canonical t (f : vec) /\
    forall i c d, lane x i (mask_lane t c) -> lane y i (mask_lane t d) -> lane f i (mask_lane t (g c d)) in
  ok (mask_bitand_assign t x y) andb /\ ok (mask_bitor_assign t x y) orb /\ ok (mask_bitxor_assign t x y) xorb.
Proof. exact mask_assign. Qed.
Print Assumptions C08_mask_assign.

Example C08_example :
  integer_type i8x2 /\ is_vector i8x2 [12; 255] /\ is_vector i8x2 [10; 1] /\
  bitand i8x2 [12; 255] [10; 1] = [8; 1] /\ bitor i8x2 [12; 255] [10; 1] = [14; 255] /\
  bitxor i8x2 [12; 255] [10; 1] = [6; 254] /\ not i8x2 [12; 255] = [243; 0] /\
  mask_type m16x2 /\ canonical m16x2 [0; 65535] /\ mask_not m16x2 [0; 65535] = [65535; 0].
Proof.
  split; [ity|]. split; [isv|]. split; [isv|]. do 4 (split; [vm_compute; reflexivity|]).
  split; [ty|]. split; [canon|]. vm_compute; reflexivity.
Qed.

(** C09: -v is the wrapped negation of every lane. *)
Theorem C09_neg : forall t x,
  signed_type t -> is_vector t x ->
  lanewise1 t x (neg t x) (fun a c => wraps_to t (- value t a) (value t c)).
Proof. exact neg_wraps. Qed.
Print Assumptions C09_neg.

(** C09: -v + v = 0, -(-v) = v, -MIN = MIN. *)
Theorem C09_laws : forall t x,
  signed_type t -> is_vector t x ->
  add t (neg t x) x = splat t 0 /\ neg t (neg t x) = x /\
  (forall i a, lane x i a -> value t a = min_value t ->
     exists c, lane (neg t x) i c /\ value t c = min_value t).
Proof. exact neg_laws. Qed.
Print Assumptions C09_laws.

Example C09_example :
  signed_type i16x2 /\ is_vector i16x2 [32768; 5] /\ neg i16x2 [32768; 5] = [32768; 65531].
Proof. split; [ty|]. split; [isv|]. vm_compute; reflexivity. Qed.

(** C10: a << n is a * 2^n wrapped. *)
Theorem C10_shl : forall t x y,
  integer_type t -> is_vector t x -> is_vector t y ->
  (forall i b, lane y i b -> ~ bad_amount t b) ->
  exists r, shl t x y = Ok r /\
    lanewise2 t x y r (fun a b c => wraps_to t (value t a * 2 ^ value t b) (value t c)).
Proof. exact shl_correct. Qed.
Print Assumptions C10_shl.

(** C10: a >> n is floor(a / 2^n). *)
Theorem C10_shr : forall t x y,
  integer_type t -> is_vector t x -> is_vector t y ->
  (forall i b, lane y i b -> ~ bad_amount t b) ->
  exists r, shr t x y = Ok r /\
    lanewise2 t x y r (fun a b c => value t c = value t a / 2 ^ value t b).
Proof. exact shr_correct. Qed.
Print Assumptions C10_shr.

(** C10: <<= and >>=; undefined exactly for a bad amount. *)
Theorem C10_assign : forall t x y,
  integer_type t -> is_vector t x -> is_vector t y ->
  let bad := exists i b, lane y i b /\ bad_amount t b in
  (bad -> shl_assign t x y = UB /\ shr_assign t x y = UB) /\
  (~ bad ->
     (exists r, shl_assign t x y = Ok r /\
        lanewise2 t x y r (fun a b c => wraps_to t (value t a * 2 ^ value t b) (value t c))) /\
     (exists r, shr_assign t x y = Ok r /\
        lanewise2 t x y r (fun a b c => value t c = value t a / 2 ^ value t b))).
Proof. exact shift_assign. Qed.
Print Assumptions C10_assign.

Example C10_example :
  integer_type i8x2 /\ is_vector i8x2 [128; 65] /\ is_vector i8x2 [3; 7] /\
  (forall i b, lane [3; 7] i b -> ~ bad_amount i8x2 b) /\
  shl i8x2 [128; 65] [3; 7] = Ok [0; 128] /\ shr i8x2 [128; 65] [3; 7] = Ok [240; 0].
Proof.
  split; [ity|]. split; [isv|]. split; [isv|]. split.
  - intros [|[|i]] b B; unfold lane in *; cbn in B; [| |destruct i; discriminate];
      injection B as <-; vm_compute; intros [H|H]; [discriminate|now apply H|discriminate|now apply H].
  - split; vm_compute; reflexivity.
Qed.

(** C11: a u32 amount k acts as k mod 2^width and is defined exactly when that is below the width. *)
Theorem C11_scalar_amounts : forall t x k,
  integer_type t -> is_vector t x -> 0 <= k ->
  let m := k mod 2 ^ width t in
  (m < width t ->
     (exists r, shl_scalar t x k = Ok r /\
        lanewise1 t x r (fun a c => wraps_to t (value t a * 2 ^ m) (value t c))) /\
     (exists r, shr_scalar t x k = Ok r /\
        lanewise1 t x r (fun a c => value t c = value t a / 2 ^ m))) /\
  (width t <= m -> shl_scalar t x k = UB /\ shr_scalar t x k = UB).
Proof. exact scalar_shift. Qed.
Print Assumptions C11_scalar_amounts.

(** C11: the assigning forms. *)
Theorem C11_assign : forall t x k,
  integer_type t -> is_vector t x -> 0 <= k ->
  let m := k mod 2 ^ width t in
  (m < width t ->
     (exists r, shl_scalar_assign t x k = Ok r /\
        lanewise1 t x r (fun a c => wraps_to t (value t a * 2 ^ m) (value t c))) /\
     (exists r, shr_scalar_assign t x k = Ok r /\
        lanewise1 t x r (fun a c => value t c = value t a / 2 ^ m))) /\
  (width t <= m -> shl_scalar_assign t x k = UB /\ shr_scalar_assign t x k = UB).
Proof. exact scalar_shift_assign. Qed.
Print Assumptions C11_assign.

(** C11, defect: an amount that is not below the lane width can be accepted. *)
Theorem C11_long_amount_undefined_refuted :
  ~ (forall t x k, integer_type t -> is_vector t x -> width t <= k < 2 ^ 32 -> shl_scalar t x k = UB).
Proof.
  intros H. assert (T : integer_type u8x2) by ity. assert (A : is_vector u8x2 [1; 2]) by isv.
  specialize (H u8x2 [1; 2] 257 T A). vm_compute in H.
  assert (X : Ok [2; 4] = UB); [|discriminate X]. apply H. split; congruence.
Qed.
Print Assumptions C11_long_amount_undefined_refuted.

Example C11_example :
  integer_type u8x2 /\ is_vector u8x2 [1; 2] /\
  shl_scalar u8x2 [1; 2] 3 = Ok [8; 16] /\ shl_scalar u8x2 [1; 2] 8 = UB /\
  shl_scalar u8x2 [1; 2] 256 = Ok [1; 2].
Proof. split; [ity|]. split; [isv|]. repeat split; vm_compute; reflexivity. Qed.

(** C12: rotates of unsigned vectors move bit k to (k +- n) mod width, for every n. *)
Theorem C12_rotates : forall t x n,
  unsigned_type t -> is_vector t x -> is_vector t n ->
  (exists r, rotate_left t x n = Ok r /\ lanewise2 t x n r (rotated_left t)) /\
  (exists r, rotate_right t x n = Ok r /\ lanewise2 t x n r (rotated_right t)).
Proof. exact unsigned_rotates. Qed.
Print Assumptions C12_rotates.

(** C12: they are mutually inverse, and rotating by a multiple of the width is the identity. *)
Theorem C12_laws : forall t x n,
  unsigned_type t -> is_vector t x -> is_vector t n ->
  (exists r, rotate_left t x n = Ok r /\ rotate_right t r n = Ok x) /\
  (exists r, rotate_right t x n = Ok r /\ rotate_left t r n = Ok x) /\
  (forall k, (forall i q, lane n i q -> q = k * width t) ->
     rotate_left t x n = Ok x /\ rotate_right t x n = Ok x).
Proof. exact rotate_laws. Qed.
Print Assumptions C12_laws.

Example C12_example :
  unsigned_type u8x2 /\ is_vector u8x2 [129; 7] /\ is_vector u8x2 [1; 12] /\
  rotate_left u8x2 [129; 7] [1; 12] = Ok [3; 112] /\ rotate_right u8x2 [3; 112] [1; 12] = Ok [129; 7].
Proof. split; [ty|]. split; [isv|]. split; [isv|]. split; vm_compute; reflexivity. Qed.

(** C13: what rotates of signed vectors compute, and exactly when they are undefined. *)
Theorem C13_signed_exact : forall t x n,
  signed_type t -> is_vector t x -> is_vector t n ->
  let w := width t in
  let defined := forall i q, lane n i q -> 0 <= Z.rem (value t q) w in
  (defined ->
     (exists r, rotate_left t x n = Ok r /\ lanewise2 t x n r (fun a q c =>
        forall j, 0 <= j < w ->
          Z.testbit c j = Z.testbit a ((j - value t q) mod w)
            || (negb (Z.rem (value t q) w =? 0) && (Z.rem (value t q) w <=? j) && (value t a <? 0)))) /\
     (exists r, rotate_right t x n = Ok r /\ lanewise2 t x n r (fun a q c =>
        forall j, 0 <= j < w ->
          Z.testbit c j = Z.testbit a ((j + value t q) mod w)
            || ((w <=? j + Z.rem (value t q) w) && (value t a <? 0))))) /\
  (~ defined -> rotate_left t x n = UB /\ rotate_right t x n = UB).
Proof. exact signed_rotates. Qed.
Print Assumptions C13_signed_exact.

(** C13: with non-negative lanes and amounts they are rotations. *)
Theorem C13_signed_nonneg : forall t x n,
  signed_type t -> is_vector t x -> is_vector t n ->
  (forall i a, lane x i a -> 0 <= value t a) ->
  (forall i q, lane n i q -> 0 <= value t q) ->
  (exists r, rotate_left t x n = Ok r /\ lanewise2 t x n r (fun a q c => rotated_left t a (value t q) c)) /\
  (exists r, rotate_right t x n = Ok r /\ lanewise2 t x n r (fun a q c => rotated_right t a (value t q) c)).
Proof. exact signed_rotates_nonneg. Qed.
Print Assumptions C13_signed_nonneg.

(** C13, defect: on signed vectors the rotates are not rotations, and can be
    undefined. *)
Theorem C13_signed_rotate_refuted :
  ~ (forall t x n, signed_type t -> is_vector t x -> is_vector t n ->
       exists r, rotate_left t x n = Ok r /\
         lanewise2 t x n r (fun a q c => rotated_left t a (value t q) c)) /\
  (exists t x n, signed_type t /\ is_vector t x /\ is_vector t n /\ rotate_left t x n = UB) /\
  (exists t x n r, signed_type t /\ is_vector t x /\ is_vector t n /\
     rotate_left t x n = Ok r /\
     ~ lanewise2 t x n r (fun a q c => rotated_left t a (value t q) c)).
Proof.
  assert (T : signed_type i8x2) by ty. assert (A : is_vector i8x2 [128; 1]) by isv.
  assert (N : is_vector i8x2 [1; 1]) by isv. assert (M : is_vector i8x2 [255; 0]) by isv.
  assert (U : rotate_left i8x2 [128; 1] [255; 0] = UB) by (vm_compute; reflexivity).
  assert (W : rotate_left i8x2 [128; 1] [1; 1] = Ok [255; 2]) by (vm_compute; reflexivity).
  split; [|split].
  - intros H. destruct (H _ _ _ T A M) as (r & E & _). rewrite U in E. discriminate E.
  - exists i8x2, [128; 1], [255; 0]. auto.
  - exists i8x2, [128; 1], [1; 1], [255; 2]. split; [auto|split; [auto|split; [auto|split; [auto|]]]].
    intros [_ L]. destruct (L 0%nat 128 1 eq_refl eq_refl) as (c & C & R).
    unfold lane in C. cbn in C. injection C as <-.
    specialize (R 1). vm_compute in R. assert (true = false); [apply R; split; congruence|discriminate].
Qed.
Print Assumptions C13_signed_rotate_refuted.

Example C13_example :
  signed_type i8x2 /\ is_vector i8x2 [3; 64] /\ is_vector i8x2 [1; 9] /\
  rotate_left i8x2 [3; 64] [1; 9] = Ok [6; 128].
Proof. split; [ty|]. split; [isv|]. split; [isv|]. vm_compute; reflexivity. Qed.
