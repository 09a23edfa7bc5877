(** The assigning operators. *)
From Coq Require Import ZArith List Bool Lia.
From Verif.Model Require Import Base Minimal Ops.
From Verif.Spec Require Import Spec.
From Verif.Proofs Require Import Lib OpsP OpsP2.
Open Scope Z_scope.

Lemma arithmetic_assign t x y :
  integer_type t -> is_vector t x -> is_vector t y ->
  lanewise2 t x y (add_assign t x y) (fun a b c => wraps_to t (value t a + value t b) (value t c)) /\
  lanewise2 t x y (sub_assign t x y) (fun a b c => wraps_to t (value t a - value t b) (value t c)) /\
  lanewise2 t x y (mul_assign t x y) (fun a b c => wraps_to t (value t a * value t b) (value t c)).
Proof. intros. split; [now apply add_wraps|split; [now apply sub_wraps|now apply mul_wraps]]. Qed.

Lemma division_assign t x y :
  integer_type t -> is_vector t x -> is_vector t y ->
  let bad := exists i a b, lane x i a /\ lane y i b /\ bad_division t a b in
  (bad -> div_assign t x y = UB /\ rem_assign t x y = UB) /\
  (~ bad ->
     (exists r, div_assign t x y = Ok r /\
        lanewise2 t x y r (fun a b c => value t c = Z.quot (value t a) (value t b))) /\
     (exists r, rem_assign t x y = Ok r /\
        lanewise2 t x y r (fun a b c => value t c = Z.rem (value t a) (value t b)))).
Proof.
  intros T X Y bad. split; intros B.
  - split; [now apply div_undefined_iff|now apply rem_undefined_iff].
  - assert (forall i a b, lane x i a -> lane y i b -> ~ bad_division t a b) as N.
    { intros i a b A C D. apply B. now exists i, a, b. }
    split; [now apply div_correct|now apply rem_correct].
Qed.

Lemma scalar_assign t x s :
  integer_type t -> is_vector t x -> 0 <= s < 2 ^ width t ->
  lanewise1 t x (add_vs_assign t x s) (fun a c => wraps_to t (value t a + value t s) (value t c)) /\
  lanewise1 t x (sub_vs_assign t x s) (fun a c => wraps_to t (value t a - value t s) (value t c)) /\
  lanewise1 t x (mul_vs_assign t x s) (fun a c => wraps_to t (value t a * value t s) (value t c)) /\
  lanewise1 t x (bitand_vs_assign t x s) (fun a => bitwise2 t andb a s) /\
  lanewise1 t x (bitor_vs_assign t x s) (fun a => bitwise2 t orb a s) /\
  lanewise1 t x (bitxor_vs_assign t x s) (fun a => bitwise2 t xorb a s) /\
  ((forall i a, lane x i a -> ~ bad_division t a s) ->
     (exists r, div_vs_assign t x s = Ok r /\
        lanewise1 t x r (fun a c => value t c = Z.quot (value t a) (value t s))) /\
     (exists r, rem_vs_assign t x s = Ok r /\
        lanewise1 t x r (fun a c => value t c = Z.rem (value t a) (value t s)))).
Proof.
  intros T X S. destruct (scalar_arithmetic t x s T X S) as (A & _ & B & _ & C & _).
  destruct (bitwise_scalar t x s T X S) as (D & _ & E & _ & F & _).
  destruct (scalar_division t x s T X S) as (G & _). auto 10.
Qed.

Lemma mask_scalar_assign t x s :
  mask_type t -> canonical t x ->
  let ok f g := canonical t (f : vec) /\
    forall i c, lane x i (mask_lane t c) -> lane f i (mask_lane t (g c)) in
  ok (mask_bitand_vs_assign t x s) (fun c => c && s) /\
  ok (mask_bitor_vs_assign t x s) (fun c => c || s) /\
  ok (mask_bitxor_vs_assign t x s) (fun c => xorb c s).
Proof. intros T X. destruct (mask_scalar_operators t x s T X) as (A & _ & B & _ & C & _). auto. Qed.

Lemma bitwise_assign t x y :
  integer_type t -> is_vector t x -> is_vector t y ->
  lanewise2 t x y (bitand_assign t x y) (bitwise2 t andb) /\
  lanewise2 t x y (bitor_assign t x y) (bitwise2 t orb) /\
  lanewise2 t x y (bitxor_assign t x y) (bitwise2 t xorb).
Proof. intros T X Y. destruct (bitwise_operators t x y T X Y) as (A & B & C & _). auto. Qed.

Lemma mask_assign t x y :
  mask_type t -> canonical t x -> canonical t y ->
  let ok f g := canonical t (f : vec) /\
    forall i c d, lane x i (mask_lane t c) -> lane y i (mask_lane t d) -> lane f i (mask_lane t (g c d)) in
  ok (mask_bitand_assign t x y) andb /\ ok (mask_bitor_assign t x y) orb /\ ok (mask_bitxor_assign t x y) xorb.
Proof. intros T X Y. destruct (mask_operators t x y T X Y) as (A & B & C & _). auto. Qed.

Lemma shift_assign t x y :
  integer_type t -> is_vector t x -> is_vector t y ->
  let bad := exists i b, lane y i b /\ bad_amount t b in
  (bad -> shl_assign t x y = UB /\ shr_assign t x y = UB) /\
  (~ bad ->
     (exists r, shl_assign t x y = Ok r /\
        lanewise2 t x y r (fun a b c => wraps_to t (value t a * 2 ^ value t b) (value t c))) /\
     (exists r, shr_assign t x y = Ok r /\
        lanewise2 t x y r (fun a b c => value t c = value t a / 2 ^ value t b))).
Proof.
  intros T X Y bad. split; intros B.
  - split; [now apply shl_undefined_iff|now apply shr_undefined_iff].
  - assert (forall i b, lane y i b -> ~ bad_amount t b) as N by (intros i b L D; apply B; now exists i, b).
    split; [now apply shl_correct|now apply shr_correct].
Qed.

Lemma scalar_shift_assign t x k :
  integer_type t -> is_vector t x -> 0 <= k ->
  let m := k mod 2 ^ width t in
  (m < width t ->
     (exists r, shl_scalar_assign t x k = Ok r /\
        lanewise1 t x r (fun a c => wraps_to t (value t a * 2 ^ m) (value t c))) /\
     (exists r, shr_scalar_assign t x k = Ok r /\
        lanewise1 t x r (fun a c => value t c = value t a / 2 ^ m))) /\
  (width t <= m -> shl_scalar_assign t x k = UB /\ shr_scalar_assign t x k = UB).
Proof. exact (scalar_shift t x k). Qed.
