(** Tactics for the concrete cases shown beside the theorems. *)
From Coq Require Import ZArith List Lia.
From Verif.Model Require Import Base Tables.
From Verif.Spec Require Import Spec.
Import ListNotations.
Open Scope Z_scope.

Ltac ty := vm_compute; repeat split; auto; lia.
Ltac ity := first [left; ty | right; ty].
Ltac isv := split; [vm_compute; reflexivity | repeat (apply Forall_cons; [vm_compute; split; congruence|]); apply Forall_nil].
Ltac canon := split; [vm_compute; reflexivity |
  repeat (apply Forall_cons; [first [left; vm_compute; reflexivity | right; vm_compute; reflexivity]|]); apply Forall_nil].
