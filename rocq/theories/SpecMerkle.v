(** Specification: Merkle trees over hashes, and what it means for a hash to bind its input.
    Independent of the model of the code, except for BLAKE2b itself. *)

From Verif Require Import Base Blake2b.
Local Open Scope N_scope.

(** The hash of an inner node: BLAKE2b-256 of the byte 1 and the two child hashes. *)
Definition node_input (l r : arr 32) : bytes := x01 :: aval l ++ aval r.
Definition node_hash (l r : arr 32) : arr 32 := hash (node_input l r).

(** [MerkleRoot leaves root inputs]: [root] is the Merkle root of the non-empty sequence
    [leaves], where every node splits its leaves after the largest power of two that is
    smaller than their number; [inputs] are the byte strings hashed to compute it. *)
Inductive MerkleRoot : list (arr 32) -> arr 32 -> list bytes -> Prop :=
| MR_leaf : forall h, MerkleRoot [h] h []
| MR_node : forall k l r a b il ir,
    length l = (2 ^ k)%nat -> (0 < length r <= 2 ^ k)%nat ->
    MerkleRoot l a il -> MerkleRoot r b ir ->
    MerkleRoot (l ++ r) (node_hash a b) (node_input a b :: il ++ ir).

(** Two different byte strings of [xs] and [ys] with the same BLAKE2b-256 hash. *)
Definition Collision (xs ys : list bytes) : Prop :=
  exists x y, In x xs /\ In y ys /\ x <> y /\ blake2b_256 x = blake2b_256 y.

(** The leaves at positions 0, 1, 3, 7, ..., [2^k - 1]. *)
Definition power_positions (k : nat) (l : list (arr 32)) : list (option (arr 32)) :=
  map (fun i => nth_error l (2 ^ i - 1)) (seq 0 (S k)).

(** [Committed l c]: splitting [l] into runs whose lengths are decreasing powers of two, [c]
    lists, run by run, the leaves at the positions 0, 1, 3, 7, ... of the run. *)
Inductive Committed : list (arr 32) -> list (option (arr 32)) -> Prop :=
| Com_run : forall k l, length l = (2 ^ k)%nat -> Committed l (power_positions k l)
| Com_more : forall k l r c, length l = (2 ^ k)%nat -> (0 < length r < 2 ^ k)%nat -> Committed r c ->
    Committed (l ++ r) (power_positions k l ++ c).

(** [CommittedAt n i]: among [n] leaves, the one at position [i] is a committed one: position
    0, 1, 3, 7, ... of the longest run of a power of two, or a committed one of the rest. *)
Inductive CommittedAt : nat -> nat -> Prop :=
| At_run : forall n k j, (2 ^ k <= n < 2 ^ S k)%nat -> (j <= k)%nat -> CommittedAt n (2 ^ j - 1)
| At_rest : forall n k i, (2 ^ k <= n < 2 ^ S k)%nat -> CommittedAt (n - 2 ^ k) i ->
    CommittedAt n (2 ^ k + i).
