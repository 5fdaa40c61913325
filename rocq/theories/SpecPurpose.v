(** Specification: the messages that keys sign, and when two of them are the same. *)

From Verif Require Import Base Io Model_common Model_v1 Model_v2 Model_consensus Model_ids SpecMerkle
  SpecIds SpecSign.
Local Open Scope N_scope.

(** What a signature is made for: all of a v1 transaction, for one of its parents, keys and timelocks,
    or one of the objects signed in v2. *)
Inductive message : Type :=
| WholeV1 (t : v1_transaction) (parent : hash256) (index lock : u64)
| SignedV2 (s : signed).

(** The hash that is signed. *)
Definition message_hash (m : message) (cs : chain_state) : hash256 :=
  match m with
  | WholeV1 t parent index lock => whole_sig_hash t cs parent index lock
  | SignedV2 s => signed_hash s cs
  end.

(** The bytes it is the hash of. *)
Definition message_bytes (m : message) (cs : chain_state) : bytes :=
  match m with
  | WholeV1 t parent index lock => whole_sig_preimage t cs parent index lock
  | SignedV2 s => signed_bytes s cs
  end.

(** The same kind of object with the same content, apart from signatures. Of v2 transactions this is
    what C40 says is bound whatever their resolutions are. *)
Definition SameSigned (s s' : signed) : Prop :=
  match s, s' with
  | SignedAttestation a, SignedAttestation b => SameAttestation a b
  | SignedContract c, SignedContract d => SameContract c d
  | SignedRenewal r, SignedRenewal q => SameRenewal r q
  | SignedInput t, SignedInput u => SameApartResolutions t u
  | _, _ => False
  end.

(** The same message, for chains with the same replay prefix. A v1 transaction without inputs does
    not depend on the prefix. *)
Definition SameMessage (m : message) (cs : chain_state) (m' : message) (cs' : chain_state) : Prop :=
  match m, m' with
  | WholeV1 t parent index lock, WholeV1 u parent' index' lock' =>
    SameUnsigned t u /\ parent = parent' /\ index = index' /\ lock = lock' /\
    (has_inputs t -> replay_prefix cs = replay_prefix cs')
  | SignedV2 s, SignedV2 s' => SameSigned s s' /\ replay_prefix cs = replay_prefix cs'
  | _, _ => False
  end.

(** Two different hashes with the same challenge, for one key and one nonce point. The challenge is the
    SHA-512 of nonce point, key and hash, modulo the order of the group. *)
Definition ChallengeCollision (pk : hash256) (sig : signature) (h h' : hash256) : Prop :=
  h <> h' /\
  challenge_of (firstn 32 (aval sig)) (aval pk) (aval h) =
  challenge_of (firstn 32 (aval sig)) (aval pk) (aval h').
