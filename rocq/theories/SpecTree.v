(** Specification: exactly which unlock conditions, and which policies, share an address. *)

From Verif Require Import Base Io Model_encoding Model_common Model_v1 Model_policy Model_ids.
Local Open Scope N_scope.

(** What is hashed into a leaf: the timelock and the number of required signatures are numbers. *)
Inductive leaf_item : Type := LNumber (n : u64) | LKey (k : unlock_key).
Definition condition_leaves (u : unlock_conditions) : list leaf_item :=
  LNumber (uc_timelock u) :: map LKey (vlist (uc_public_keys u)) ++ [LNumber (uc_signatures_required u)].

Inductive commit_tree : Type := CLeaf (x : leaf_item) | CNode (l r : commit_tree).

(** [ChainTree k l t]: the part of [2^k] leaves that counts. The right child of a node is the
    last leaf below it; the other leaves of the right half are left out. *)
Inductive ChainTree : nat -> list leaf_item -> commit_tree -> Prop :=
| Chain_leaf : forall x, ChainTree 0 [x] (CLeaf x)
| Chain_node : forall k l r x t, ChainTree k l t -> S (length r) = (2 ^ k)%nat ->
    ChainTree (S k) (l ++ r ++ [x]) (CNode t (CLeaf x)).

(** Of any number of leaves: the largest power of two on the left, the rest on the right. *)
Inductive CommitTree : list leaf_item -> commit_tree -> Prop :=
| Commit_full : forall k l t, ChainTree k l t -> CommitTree l t
| Commit_split : forall k l r t s, ChainTree k l t -> CommitTree r s -> (length r < 2 ^ k)%nat ->
    CommitTree (l ++ r) (CNode t s).

(** The two conditions have the same tree. *)
Definition same_tree (u v : unlock_conditions) : Prop :=
  exists t, CommitTree (condition_leaves u) t /\ CommitTree (condition_leaves v) t.

(** The two policies are the same up to redaction on either side, the fraction of a second of
    times, and unlock conditions with the same tree. *)
Inductive SameAddress (p : profile) : policy -> policy -> Prop :=
| Same_refl : forall q, SameAddress p q q
| Same_left : forall q a, policy_address p q = Val a -> SameAddress p (POpaque a) q
| Same_right : forall q a, policy_address p q = Val a -> SameAddress p q (POpaque a)
| Same_after : forall t u, odt_secs t = odt_secs u -> SameAddress p (PAfter t) (PAfter u)
| Same_conditions : forall u v, same_tree u v ->
    SameAddress p (PUnlockConditions u) (PUnlockConditions v)
| Same_threshold : forall n of of', Forall2 (SameAddress p) of of' ->
    SameAddress p (PThreshold n of) (PThreshold n of').
