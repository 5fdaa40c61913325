(** Specification: what becomes of the times of a policy when they are written in whole seconds. *)

From Verif Require Import Base Model_encoding Model_common Model_policy.

(** [Rounded q r]: [r] is [q] with every time, at any depth, put back to the start of its second. *)
Inductive Rounded : policy -> policy -> Prop :=
| Rounded_time : forall t u, odt_secs u = odt_secs t -> odt_nanos u = 0%N -> Rounded (PAfter t) (PAfter u)
| Rounded_threshold : forall n of of', Forall2 Rounded of of' -> Rounded (PThreshold n of) (PThreshold n of')
| Rounded_above : forall h, Rounded (PAbove h) (PAbove h)
| Rounded_key : forall k, Rounded (PPublicKey k) (PPublicKey k)
| Rounded_hash : forall h, Rounded (PHash h) (PHash h)
| Rounded_opaque : forall a, Rounded (POpaque a) (POpaque a)
| Rounded_conditions : forall u, Rounded (PUnlockConditions u) (PUnlockConditions u).

(** At most 255 children in every threshold, at any depth. *)
Inductive Narrow : policy -> Prop :=
| Narrow_threshold : forall n of, (length of <= 255)%nat -> Forall Narrow of -> Narrow (PThreshold n of)
| Narrow_other : forall q, (forall n of, q <> PThreshold n of) -> Narrow q.
