(** Specification: redaction of spend policies, and what an address commits to. *)

From Verif Require Import Base Io Model_encoding Model_common Model_v1 Model_policy Model_ids
  SpecMerkle.
Local Open Scope N_scope.

(** [Redacted p q r]: [r] is [q] with any number of sub-policies, at any depth, replaced by
    the opaque policy of their address. *)
Inductive Redacted (p : profile) : policy -> policy -> Prop :=
| Red_same : forall q, Redacted p q q
| Red_opaque : forall q a, policy_address p q = Val a -> Redacted p q (POpaque a)
| Red_threshold : forall n of of', Forall2 (Redacted p) of of' ->
    Redacted p (PThreshold n of) (PThreshold n of').

(** [UpToOpaque p q r]: the two policies are the same except that, at any depth, one may have
    an opaque policy where the other has a policy with that address. *)
Inductive UpToOpaque (p : profile) : policy -> policy -> Prop :=
| Up_same : forall q, UpToOpaque p q q
| Up_left : forall q a, policy_address p q = Val a -> UpToOpaque p (POpaque a) q
| Up_right : forall q a, policy_address p q = Val a -> UpToOpaque p q (POpaque a)
| Up_threshold : forall n of of', Forall2 (UpToOpaque p) of of' ->
    UpToOpaque p (PThreshold n of) (PThreshold n of').

(** The timelock, the number of required signatures and the first public key agree (or both
    have no public key). *)
Definition same_committed (u v : unlock_conditions) : Prop :=
  uc_timelock u = uc_timelock v /\ uc_signatures_required u = uc_signatures_required v /\
  hd_error (vlist (uc_public_keys u)) = hd_error (vlist (uc_public_keys v)).

(** For conditions with the same number of keys: the timelock, the number of required
    signatures and the public keys at the committed positions agree. The timelock is leaf 0,
    so that key [i] is leaf [i + 1]; the number of signatures is the last leaf. *)
Definition same_committed_keys (u v : unlock_conditions) : Prop :=
  uc_timelock u = uc_timelock v /\ uc_signatures_required u = uc_signatures_required v /\
  forall i, CommittedAt (length (vlist (uc_public_keys u)) + 2)%nat (S i) ->
    nth_error (vlist (uc_public_keys u)) i = nth_error (vlist (uc_public_keys v)) i.

(** [Alike p q r]: the two policies are the same up to redaction on either side, the fraction
    of a second of times, and the public keys after the first one of unlock conditions. *)
Inductive Alike (p : profile) : policy -> policy -> Prop :=
| Alike_same : forall q, Alike p q q
| Alike_left : forall q a, policy_address p q = Val a -> Alike p (POpaque a) q
| Alike_right : forall q a, policy_address p q = Val a -> Alike p q (POpaque a)
| Alike_after : forall t u, odt_secs t = odt_secs u -> Alike p (PAfter t) (PAfter u)
| Alike_conditions : forall u v, same_committed u v ->
    Alike p (PUnlockConditions u) (PUnlockConditions v)
| Alike_threshold : forall n of of', Forall2 (Alike p) of of' ->
    Alike p (PThreshold n of) (PThreshold n of').

(** Unlock conditions with at most one key, and times in whole seconds, at every depth. *)
Fixpoint plain (q : policy) : Prop :=
  match q with
  | PAfter t => odt_nanos t = 0
  | PUnlockConditions u => (length (vlist (uc_public_keys u)) <= 1)%nat
  | PThreshold _ of => fold_right (fun r acc => plain r /\ acc) True of
  | _ => True
  end.

(** No opaque policy at any depth. *)
Fixpoint revealed (q : policy) : Prop :=
  match q with
  | POpaque _ => False
  | PThreshold _ of => fold_right (fun r acc => revealed r /\ acc) True of
  | _ => True
  end.
