(** The mathematical constants of float vectors (src/api/math/float/consts.rs:25-71): each
    is the constant of core::f32::consts or core::f64::consts in every lane. *)
From Coq Require Import ZArith List Bool.
From Verif.Model Require Import Base Minimal Float.
Open Scope Z_scope.

(** The constants of core, as bit patterns.  core writes them as decimal literals with
    more digits than the format holds; the patterns are the literals correctly rounded. *)
Definition elem_frac_pi_2 (b : nat) : Z := if Nat.eqb b 4 then 0x3FC90FDB else 0x3FF921FB54442D18.
Definition elem_frac_pi_3 (b : nat) : Z := if Nat.eqb b 4 then 0x3F860A92 else 0x3FF0C152382D7366.
Definition elem_frac_pi_4 (b : nat) : Z := if Nat.eqb b 4 then 0x3F490FDB else 0x3FE921FB54442D18.
Definition elem_frac_pi_6 (b : nat) : Z := if Nat.eqb b 4 then 0x3F060A92 else 0x3FE0C152382D7366.
Definition elem_frac_pi_8 (b : nat) : Z := if Nat.eqb b 4 then 0x3EC90FDB else 0x3FD921FB54442D18.
Definition elem_frac_1_pi (b : nat) : Z := if Nat.eqb b 4 then 0x3EA2F983 else 0x3FD45F306DC9C883.
Definition elem_frac_2_pi (b : nat) : Z := if Nat.eqb b 4 then 0x3F22F983 else 0x3FE45F306DC9C883.
Definition elem_frac_2_sqrt_pi (b : nat) : Z := if Nat.eqb b 4 then 0x3F906EBB else 0x3FF20DD750429B6D.
Definition elem_sqrt_2 (b : nat) : Z := if Nat.eqb b 4 then 0x3FB504F3 else 0x3FF6A09E667F3BCD.
Definition elem_frac_1_sqrt_2 (b : nat) : Z := if Nat.eqb b 4 then 0x3F3504F3 else 0x3FE6A09E667F3BCD.
Definition elem_e (b : nat) : Z := if Nat.eqb b 4 then 0x402DF854 else 0x4005BF0A8B145769.
Definition elem_log2_e (b : nat) : Z := if Nat.eqb b 4 then 0x3FB8AA3B else 0x3FF71547652B82FE.
Definition elem_log10_e (b : nat) : Z := if Nat.eqb b 4 then 0x3EDE5BD9 else 0x3FDBCB7B1526E50E.
Definition elem_ln_2 (b : nat) : Z := if Nat.eqb b 4 then 0x3F317218 else 0x3FE62E42FEFA39EF.
Definition elem_ln_10 (b : nat) : Z := if Nat.eqb b 4 then 0x40135D8E else 0x40026BB1BBB55516.

(** consts.rs:29. *)
Definition FRAC_PI_2 (t : vty) : vec := splat t (elem_frac_pi_2 (vb t)).
(** consts.rs:32. *)
Definition FRAC_PI_3 (t : vty) : vec := splat t (elem_frac_pi_3 (vb t)).
(** consts.rs:35. *)
Definition FRAC_PI_4 (t : vty) : vec := splat t (elem_frac_pi_4 (vb t)).
(** consts.rs:38. *)
Definition FRAC_PI_6 (t : vty) : vec := splat t (elem_frac_pi_6 (vb t)).
(** consts.rs:41. *)
Definition FRAC_PI_8 (t : vty) : vec := splat t (elem_frac_pi_8 (vb t)).
(** consts.rs:44. *)
Definition FRAC_1_PI (t : vty) : vec := splat t (elem_frac_1_pi (vb t)).
(** consts.rs:47. *)
Definition FRAC_2_PI (t : vty) : vec := splat t (elem_frac_2_pi (vb t)).
(** consts.rs:50. *)
Definition FRAC_2_SQRT_PI (t : vty) : vec := splat t (elem_frac_2_sqrt_pi (vb t)).
(** consts.rs:53. *)
Definition SQRT_2 (t : vty) : vec := splat t (elem_sqrt_2 (vb t)).
(** consts.rs:56. *)
Definition FRAC_1_SQRT_2 (t : vty) : vec := splat t (elem_frac_1_sqrt_2 (vb t)).
(** consts.rs:59. *)
Definition E (t : vty) : vec := splat t (elem_e (vb t)).
(** consts.rs:62. *)
Definition LOG2_E (t : vty) : vec := splat t (elem_log2_e (vb t)).
(** consts.rs:65. *)
Definition LOG10_E (t : vty) : vec := splat t (elem_log10_e (vb t)).
(** consts.rs:68. *)
Definition LN_2 (t : vty) : vec := splat t (elem_ln_2 (vb t)).
(** consts.rs:71. *)
Definition LN_10 (t : vty) : vec := splat t (elem_ln_10 (vb t)).
