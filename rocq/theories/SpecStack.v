(** Specification: spend policies nested in each other. *)

From Verif Require Import Base Model_encoding Model_common Model_policy.

(** [n] thresholds around a policy. *)
Fixpoint nest (n : nat) : policy :=
  match n with
  | O => PAbove (uwrap 64 0)
  | S n' => PThreshold x01 [nest n']
  end.
