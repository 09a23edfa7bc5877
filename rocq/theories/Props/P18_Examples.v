(** C56, C57, C58: the triangle, slice sum and dot product examples. *)
From Coq Require Import ZArith List Bool Lia Reals.
From Flocq Require Import Core.
From Verif.Model Require Import Base FloatLane Bytes Tables Slice ExTriangle ExSum.
From Verif.Spec Require Import Spec Memory Floats Examples.
From Verif.Proofs Require Import ExTriangleP ExSumP.
From Verif.Props Require Import Tac Targets.
Import ListNotations.
Open Scope Z_scope.

(** C56: packing needs exactly eight triangles. *)
Theorem C56_pack : forall tris, length tris <> 8%nat -> pack tris = Panic.
Proof. exact pack_length. Qed.
Print Assumptions C56_pack.

(** C56: packing eight triangles, transforming them and unpacking gives bit for bit what the
    scalar program gives, namely the affine map of every vertex; packing and unpacking
    alone gives the triangles back. *)
Theorem C56_transform : forall mat tris,
  f32_array 4 3 mat -> length tris = 8%nat -> Forall (f32_array 3 3) tris ->
  exists s out, pack tris = Ok s /\ unpack s = Ok tris /\ unpack (simd_transform mat s) = Ok out /\
    out = map (scalar_transform mat) tris /\
    forall n t, nth_error tris n = Some t ->
    exists t', nth_error out n = Some t' /\ f32_array 3 3 t' /\
      forall k r a b c d x y z,
        entry mat 0 r a -> entry mat 1 r b -> entry mat 2 r c -> entry mat 3 r d ->
        entry t k 0 x -> entry t k 1 y -> entry t k 2 z ->
        exists q, entry t' k r q /\
          affine (datum_of 4 a) (datum_of 4 b) (datum_of 4 c) (datum_of 4 d)
            (datum_of 4 x) (datum_of 4 y) (datum_of 4 z) (datum_of 4 q).
Proof. exact triangle_transform. Qed.
Print Assumptions C56_transform.

(** The numbers 0, 1, 2, 3 and 4 in f32. *)
Definition f0 : Z := 0.
Definition f1 : Z := 0x3F800000.
Definition f2 : Z := 0x40000000.
Definition f3 : Z := 0x40400000.
Definition f4 : Z := 0x40800000.

(** Scaling by two and moving by (1, 0, 0): vertex (1, 0, 1) goes to (3, 0, 2). *)
Example C56_example :
  let mat := [[f2; f0; f0]; [f0; f2; f0]; [f0; f0; f2]; [f1; f0; f0]] in
  let t := [[f1; f0; f1]; [f0; f1; f0]; [f0; f0; f0]] in
  f32_array 4 3 mat /\ length (repeat t 8) = 8%nat /\ Forall (f32_array 3 3) (repeat t 8) /\
  (exists s, pack (repeat t 8) = Ok s /\
     unpack (simd_transform mat s) = Ok (repeat [[f3; f0; f2]; [f1; f2; f0]; [f1; f0; f0]] 8)) /\
  pack (repeat t 7) = Panic.
Proof.
  cbv zeta. split; [split; [reflexivity|repeat constructor; vm_compute; congruence]|].
  split; [reflexivity|].
  split; [repeat (apply Forall_cons; [split; [reflexivity|repeat constructor; vm_compute; congruence]|]); apply Forall_nil|].
  split; [eexists; split; [vm_compute; reflexivity|vm_compute; reflexivity]|reflexivity].
Qed.

(** C57: the vertical and the horizontal sum of a slice of numbers on a grid, small enough
    for the total to be exact, are the exact total. *)
Theorem C57_exact : forall tg m x xs zs e,
  length xs = s_len x -> array_at (t_big_endian tg) 4 m (s_ptr x) xs ->
  Nat.modulo (length xs) 8 = 0%nat ->
  unit_exponent 4 e -> Forall2 (units 4 e) xs zs -> total_abs zs <= 2 ^ 24 ->
  (exists r, sum_ver tg m x = Ok r /\ units 4 e r (total zs)) /\
  (exists r, sum_hor tg m x = Ok r /\ units 4 e r (total zs)).
Proof. exact sums_exact. Qed.
Print Assumptions C57_exact.

(** C57: for any numbers, the vertical sum adds each of the eight columns in order and then
    the column sums; the horizontal sum adds each group of eight in order and then the
    group sums.  (On AArch64 the sum of one vector starts from its first lane.) *)
Theorem C57_order : forall tg m x xs,
  length xs = s_len x -> Forall (fun p => 0 <= p < 2 ^ 32) xs -> array_at (t_big_endian tg) 4 m (s_ptr x) xs ->
  Nat.modulo (length xs) 8 = 0%nat -> t_arch tg <> Aarch64 ->
  let zero := Fin false 0 in
  let adds d l r := folds 4 (ieee_add 4) d l (datum_of 4 r) in
  (exists cs r, sum_ver tg m x = Ok r /\ length cs = 8%nat /\ adds zero cs r /\
     forall j c, nth_error cs j = Some c -> exists col, adds zero col c /\
       (8 * length col = length xs)%nat /\
       forall k, (k < length col)%nat -> nth_error col k = nth_error xs (8 * k + j)) /\
  (exists rs r, sum_hor tg m x = Ok r /\ (8 * length rs = length xs)%nat /\ adds zero rs r /\
     forall k c, nth_error rs k = Some c -> adds zero (firstn 8 (skipn (8 * k) xs)) c).
Proof. exact sums_order. Qed.
Print Assumptions C57_order.

(** C57: a length that is no multiple of eight panics. *)
Theorem C57_panics : forall tg al sch m x, Nat.modulo (s_len x) 8 <> 0%nat ->
  sum_ver tg m x = Panic /\ sum_hor tg m x = Panic /\ sum_ver_par tg al sch m x = Panic.
Proof. exact sums_panic. Qed.
Print Assumptions C57_panics.

(** C57: the parallel sum is the exact total of the elements it looks at, whatever the
    schedule; these are all of them if the slice is aligned, and otherwise all but the
    last 8 - i, where element i is the first aligned one. *)
Theorem C57_parallel : forall tg al sch m x xs zs e i,
  length xs = s_len x -> array_at (t_big_endian tg) 4 m (s_ptr x) xs ->
  Nat.modulo (length xs) 8 = 0%nat -> xs <> [] ->
  0 < al -> (al | 32) -> (4 | s_ptr x) ->
  (al | s_ptr x + Z.of_nat (4 * i)) -> (forall j, (j < i)%nat -> ~ (al | s_ptr x + Z.of_nat (4 * j))) ->
  items sch = ((length xs - i) / 8)%nat ->
  unit_exponent 4 e -> Forall2 (units 4 e) xs zs -> total_abs zs <= 2 ^ 24 ->
  exists r, sum_ver_par tg al sch m x = Ok r /\ (i < 8)%nat /\
    let kept := if Nat.eqb i 0 then length xs else (length xs - 8 + i)%nat in
    units 4 e r (total (firstn kept zs)).
Proof. exact par_exact. Qed.
Print Assumptions C57_parallel.

(** C57: of nothing, the sums are zero, and the parallel sum panics. *)
Theorem C57_empty : forall tg al sch m x, s_len x = 0%nat ->
  (exists r, sum_ver tg m x = Ok r /\ units 4 0 r 0) /\
  (exists r, sum_hor tg m x = Ok r /\ units 4 0 r 0) /\
  sum_ver_par tg al sch m x = Panic.
Proof. exact sums_empty. Qed.
Print Assumptions C57_empty.

(** The elements [xs] from address [base] on. *)
Definition stored (base : Z) (xs : list Z) : mem :=
  fun a => if a <? base then None else nth_error (image false 4 xs) (Z.to_nat (a - base)).

(** That the three sums agree is false: sixteen ones of which the eighth is the first
    aligned one add up to 15 in the parallel sum. *)
Theorem C57_parallel_agrees_refuted :
  exists tg al sch m x a b, array_at (t_big_endian tg) 4 m (s_ptr x) (repeat f1 16) /\ s_len x = 16%nat /\
    items sch = 1%nat /\ sum_ver tg m x = Ok a /\ sum_ver_par tg al sch m x = Ok b /\
    units 4 0 a 16 /\ units 4 0 b 15.
Proof.
  exists x86_64_avx2, 32, (Part 1), (stored 4100 (repeat f1 16)), {| s_ptr := 4100; s_len := 16 |},
    0x41800000, 0x41700000.
  split.
  { intros i p E.
    do 16 (destruct i as [|i]; [injection E as <-; intros [|[|[|[|k]]]] K; try (exfalso; lia); vm_compute; reflexivity|]).
    destruct i; discriminate E. }
  split; [reflexivity|]. split; [reflexivity|].
  split; [vm_compute; reflexivity|]. split; [vm_compute; reflexivity|].
  split; [exact (int_units 16 eq_refl)|exact (int_units 15 eq_refl)].
Qed.
Print Assumptions C57_parallel_agrees_refuted.

(** 1 + 2 + .. with negative numbers among them, in units of one. *)
Example C57_example :
  let zs := [1; -2; 3; 4; 1; 2; 3; -4; 4; 3; 2; 1; -4; -3; 2; 1] in
  let xs := map (fl_of_int 4) zs in
  let x := {| s_ptr := 4096; s_len := 16 |} in
  array_at false 4 (stored 4096 xs) 4096 xs /\ unit_exponent 4 0 /\ Forall2 (units 4 0) xs zs /\
  total_abs zs <= 2 ^ 24 /\ total zs = 14 /\
  sum_ver x86_64_avx2 (stored 4096 xs) x = Ok (fl_of_int 4 14) /\
  sum_hor aarch64_neon (stored 4096 xs) x = Ok (fl_of_int 4 14) /\
  sum_ver_par x86_64_avx2 32 (Split (Part 1) (Part 1)) (stored 4096 xs) x = Ok (fl_of_int 4 14).
Proof.
  cbv zeta. split.
  { intros i p E.
    do 16 (destruct i as [|i]; [injection E as <-; intros [|[|[|[|k]]]] K; try (exfalso; lia); vm_compute; reflexivity|]).
    destruct i; discriminate E. }
  split; [split; [vm_compute; discriminate|reflexivity]|].
  split; [cbn [map]; repeat (apply Forall2_cons; [apply int_units; reflexivity|]); apply Forall2_nil|].
  split; [vm_compute; discriminate|]. split; [reflexivity|].
  split; [vm_compute; reflexivity|]. split; vm_compute; reflexivity.
Qed.

(** C58: both dot products are the exact one for numbers on two grids whose products add
    up exactly. *)
Theorem C58_exact : forall tg m a b xs ys xz yz e e',
  length xs = s_len a -> length ys = s_len b -> length xs = length ys ->
  array_at (t_big_endian tg) 4 m (s_ptr a) xs -> array_at (t_big_endian tg) 4 m (s_ptr b) ys ->
  Forall2 (units 4 e) xs xz -> Forall2 (units 4 e') ys yz -> unit_exponent 4 (e + e') ->
  total_abs (map2 Z.mul xz yz) <= 2 ^ 24 ->
  (exists r, scalar_dot_prod tg m a b = Ok r /\ units 4 (e + e') r (total (map2 Z.mul xz yz))) /\
  (Nat.modulo (length xs) 4 = 0%nat ->
   exists r, simd_dot_prod tg m a b = Ok r /\ units 4 (e + e') r (total (map2 Z.mul xz yz))).
Proof. exact dots_exact. Qed.
Print Assumptions C58_exact.

(** C58: slices of different lengths panic, and so does a length that is no multiple of
    four in the vector version. *)
Theorem C58_panics : forall tg m a b,
  (s_len a <> s_len b -> scalar_dot_prod tg m a b = Panic /\ simd_dot_prod tg m a b = Panic) /\
  (Nat.modulo (s_len a) 4 <> 0%nat -> simd_dot_prod tg m a b = Panic).
Proof. exact dot_lengths. Qed.
Print Assumptions C58_panics.

Example C58_example :
  let zs := [1; -2; 3; 4; 1; 2; 3; -4] in
  let xs := map (fl_of_int 4) zs in
  let x := {| s_ptr := 4096; s_len := 8 |} in
  array_at false 4 (stored 4096 xs) 4096 xs /\ Forall2 (units 4 0) xs zs /\ unit_exponent 4 (0 + 0) /\
  total_abs (map2 Z.mul zs zs) <= 2 ^ 24 /\
  scalar_dot_prod x86_64_avx2 (stored 4096 xs) x x = Ok (fl_of_int 4 60) /\
  simd_dot_prod x86_64_avx2 (stored 4096 xs) x x = Ok (fl_of_int 4 60).
Proof.
  cbv zeta. split.
  { intros i p E.
    do 8 (destruct i as [|i]; [injection E as <-; intros [|[|[|[|k]]]] K; try (exfalso; lia); vm_compute; reflexivity|]).
    destruct i; discriminate E. }
  split; [cbn [map]; repeat (apply Forall2_cons; [apply int_units; reflexivity|]); apply Forall2_nil|].
  split; [split; [vm_compute; discriminate|reflexivity]|].
  split; [vm_compute; discriminate|]. split; vm_compute; reflexivity.
Qed.
