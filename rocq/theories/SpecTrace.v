(** The byte strings hashed by the Merkle accumulator and by the addresses built on it.

    A statement "unless the hash collides" needs the two strings that collide: saying only
    that some two strings collide is true of every hash function. The functions of this file
    list the strings each computation feeds to BLAKE2b, following the computation step by
    step. *)

From Verif Require Import Base Io Model_encoding Model_common Blake2b Model_v1 Model_policy
  Model_consensus Model_merkle Model_ids SpecMerkle.
Local Open Scope N_scope.

(** The nodes hashed when a leaf is added: merkle.rs:33-36. *)
Fixpoint carry_inputs (fuel : nat) (a : accumulator) (h : hash256) (i : nat) : list bytes :=
  match fuel with
  | O => []
  | S fuel' =>
    if has_tree_at_height (acc_num_leaves a) (N.of_nat i)
    then node_input (nth i (acc_trees a) zero_hash) h :: carry_inputs fuel' a h (S i)
    else []
  end.

(** The nodes hashed when the root is computed: merkle.rs:48-53. *)
Fixpoint root_loop_inputs (a : accumulator) (k i : nat) (root : hash256) : list bytes :=
  match k with
  | O => []
  | S k' =>
    if has_tree_at_height (acc_num_leaves a) (N.of_nat i)
    then node_input (nth i (acc_trees a) zero_hash) root ::
         root_loop_inputs a k' (S i) (node_hash (nth i (acc_trees a) zero_hash) root)
    else root_loop_inputs a k' (S i) root
  end.

Definition acc_root_inputs (a : accumulator) : list bytes :=
  let i := trailing_zeros (acc_num_leaves a) in
  root_loop_inputs a (64 - S i) (S i) (nth i (acc_trees a) zero_hash).

(** Adding the leaves [l] to [a] and computing the root. *)
Fixpoint adding_inputs (p : profile) (a : accumulator) (l : list hash256) : list bytes :=
  match l with
  | [] => acc_root_inputs a
  | h :: r =>
    carry_inputs 64 a h 0 ++
    match add_leaf p a h with Val a' => adding_inputs p a' r | Panic _ => [] end
  end.

Definition tree_inputs (p : profile) (l : list hash256) : list bytes := adding_inputs p acc_new l.

(** The leaves of an unlock-conditions address: v1.rs:125-153. *)
Definition uc_leaf_inputs (u : unlock_conditions) : list bytes :=
  (x00 :: le_bytes 8 (uval (uc_timelock u))) ::
  map (fun k => x00 :: wbytes (encode_unlock_key k)) (vlist (uc_public_keys u)) ++
  [x00 :: le_bytes 8 (uval (uc_signatures_required u))].

(** Everything hashed for an unlock-conditions address. *)
Definition uc_inputs (p : profile) (u : unlock_conditions) : list bytes :=
  uc_leaf_inputs u ++ tree_inputs p (map hash (uc_leaf_inputs u)).

(** Everything hashed for a policy address. *)
Fixpoint policy_inputs (p : profile) (q : policy) : list bytes :=
  match q with
  | PUnlockConditions u => uc_inputs p u
  | POpaque _ => []
  | PThreshold n of =>
    match sequence_outcome (map (policy_address p) of) with
    | Val addrs => [policy_address_preimage (PThreshold n (map POpaque addrs))]
    | Panic _ => []
    end ++ concat (map (policy_inputs p) of)
  | _ => [policy_address_preimage q]
  end.
