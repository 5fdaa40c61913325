(** Specification: the address that a single public key has. *)

From Verif Require Import Base Blake2b.
Local Open Scope N_scope.

(** The Merkle tree of three leaves: no timelock, the ed25519 key [pk] (the algorithm padded to
    16 bytes, the length 32 and the key) and one required signature. Leaves are hashed after a
    byte 0, nodes after a byte 1; numbers have eight bytes, the lowest first. *)
Definition standard_address (pk : bytes) : bytes :=
  let timelock := blake2b_256 (x00 :: repeat x00 8) in
  let key := blake2b_256 (x00 :: ascii "ed25519" ++ repeat x00 9 ++ (x20 :: repeat x00 7) ++ pk) in
  let signatures := blake2b_256 (x00 :: x01 :: repeat x00 7) in
  blake2b_256 (x01 :: blake2b_256 (x01 :: timelock ++ key) ++ signatures).
