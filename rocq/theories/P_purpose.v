(** Property C72: a signature is for one message. What a seed signs, from the recovery phrase to the
    verified hash of a transaction, contract, renewal or attestation. Messages and their sameness are
    defined in SpecPurpose.v. "Unless the hash functions collide" is [Collision] for BLAKE2b-256 of the
    two byte strings named, and [ChallengeCollision] for SHA-512 modulo the order of the group. *)

From Verif Require Import Base Io Model_common Model_v1 Model_v2 Model_consensus Model_ids Model_networks
  Model_signing Model_seed SpecUtf8 SpecMerkle SpecConsensus SpecIds SpecSign SpecSeed SpecPurpose Samples SigMore
  SigningProofs PurposeProofs.
Local Open Scope N_scope.

(** The full statement fails for signatures over chosen parts of a v1 transaction: under every key and
    after the hardforks on every chain, there are such parts the signature of which is the signature of
    an attestation by that key. *)
Theorem C72_attestation_refuted : forall seed cs,
  uval (hfa_height (net_hardfork_asic (cs_network cs))) <= height cs ->
  let pk := sk_public_key (from_seed seed) in
  exists t c h a, partial_sig_hash t cs c = inl h /\ att_public_key a = pk /\
    pk_verify pk h (sign_hash (from_seed seed) h) = Val true /\
    pk_verify pk (att_sig_hash a cs) (sign_hash (from_seed seed) h) = Val true.
Proof. exact signs_both. Qed.
Print Assumptions C72_attestation_refuted.

(** And parts the signature of which is the signature of all of another v1 transaction. *)
Theorem C72_whole_refuted : forall seed cs,
  let pk := sk_public_key (from_seed seed) in
  exists t c h u parent index lock, partial_sig_hash t cs c = inl h /\ ~ SameUnsigned t u /\
    pk_verify pk h (sign_hash (from_seed seed) h) = Val true /\
    pk_verify pk (whole_sig_hash u cs parent index lock) (sign_hash (from_seed seed) h) = Val true.
Proof. exact signs_whole. Qed.
Print Assumptions C72_whole_refuted.

(** For signatures of whole v1 transactions and of v2 objects, on chains with replay prefixes of one
    length: whatever else a signature verifies for is the same message. *)
Theorem C72_one_message_partial : forall seed sig m m' cs cs',
  let pk := sk_public_key (from_seed seed) in
  length (replay_prefix cs) = length (replay_prefix cs') ->
  pk_verify pk (message_hash m cs) sig = Val true -> pk_verify pk (message_hash m' cs') sig = Val true ->
  SameMessage m cs m' cs' \/ Collision [message_bytes m cs] [message_bytes m' cs'] \/
  ChallengeCollision pk sig (message_hash m cs) (message_hash m' cs').
Proof. exact one_message. Qed.
Print Assumptions C72_one_message_partial.

(** In particular from the first replay protection hardfork on. *)
Theorem C72_after_asic_partial : forall seed sig m m' cs cs',
  let pk := sk_public_key (from_seed seed) in
  uval (hfa_height (net_hardfork_asic (cs_network cs))) <= height cs ->
  uval (hfa_height (net_hardfork_asic (cs_network cs'))) <= height cs' ->
  pk_verify pk (message_hash m cs) sig = Val true -> pk_verify pk (message_hash m' cs') sig = Val true ->
  SameMessage m cs m' cs' \/ Collision [message_bytes m cs] [message_bytes m' cs'] \/
  ChallengeCollision pk sig (message_hash m cs) (message_hash m' cs').
Proof. exact one_message_after. Qed.
Print Assumptions C72_after_asic_partial.

(** At any heights of any chains, the signature of a whole v1 transaction is of no use in v2, and the
    reverse. *)
Theorem C72_versions_partial : forall seed sig t parent index lock s cs cs',
  let pk := sk_public_key (from_seed seed) in
  pk_verify pk (whole_sig_hash t cs parent index lock) sig = Val true ->
  pk_verify pk (signed_hash s cs') sig = Val true ->
  Collision [whole_sig_preimage t cs parent index lock] [signed_bytes s cs'] \/
  ChallengeCollision pk sig (whole_sig_hash t cs parent index lock) (signed_hash s cs').
Proof. exact one_version. Qed.
Print Assumptions C72_versions_partial.

(** What a wallet restored from its recovery phrase signs verifies under the keys of the wallet before. *)
Theorem C72_restored : forall nfkd, (forall t, ascii_only t -> nfkd t = t) -> forall s t i h,
  to_mnemonic s = Val t ->
  exists s', from_mnemonic nfkd t = inl s' /\
    pk_verify (sk_public_key (seed_private_key s i)) h (sign_hash (seed_private_key s' i) h) = Val true.
Proof. exact restored_signs. Qed.
Print Assumptions C72_restored.

(** A contract, and the same contract signed by others: one signature serves both. *)
Definition signed_otherwise : v2_file_contract :=
  MkV2Fc (v2fc_capacity s_v2_contract) (v2fc_filesize s_v2_contract) (v2fc_file_merkle_root s_v2_contract)
    (v2fc_proof_height s_v2_contract) (v2fc_expiration_height s_v2_contract) (v2fc_renter_output s_v2_contract)
    (v2fc_host_output s_v2_contract) (v2fc_missed_host_value s_v2_contract) (v2fc_total_collateral s_v2_contract)
    (v2fc_renter_public_key s_v2_contract) (v2fc_host_public_key s_v2_contract) (v2fc_revision_number s_v2_contract)
    (s_sig 201) (s_sig 202).

Example C72_example : forall seed,
  let cs := chain_at mainnet 180000 in
  let m := SignedV2 (SignedContract s_v2_contract) in
  let m' := SignedV2 (SignedContract signed_otherwise) in
  let sig := sign_hash (from_seed seed) (message_hash m cs) in
  uval (hfa_height (net_hardfork_asic (cs_network cs))) <= height cs /\ m <> m' /\
  pk_verify (sk_public_key (from_seed seed)) (message_hash m cs) sig = Val true /\
  pk_verify (sk_public_key (from_seed seed)) (message_hash m' cs) sig = Val true.
Proof.
  intros seed cs m m' sig. split; [vm_compute; discriminate|].
  split. { intros E. apply (f_equal (fun m => match m with SignedV2 (SignedContract c) => aval (v2fc_renter_signature c) | _ => [] end)) in E.
    vm_compute in E. discriminate E. }
  assert (E : message_hash m' cs = message_hash m cs).
  { symmetry. apply (proj1 (fc_sig_exact s_v2_contract signed_otherwise cs)). exists (s_sig 201), (s_sig 202). reflexivity. }
  rewrite E. split; apply sign_verify.
Qed.

(** Different messages are told apart. *)
Example C72_different : let cs := chain_at mainnet 180000 in
  ~ SameMessage (SignedV2 (SignedContract s_v2_contract)) cs (SignedV2 (SignedRenewal s_renewal)) cs /\
  ~ SameMessage (SignedV2 (SignedInput s_v2_transaction)) cs (SignedV2 (SignedInput s_v2_empty)) cs /\
  ~ SameMessage (WholeV1 s_v1_transaction (s_hash 1) (uwrap 64 0) (uwrap 64 0)) cs
                (WholeV1 s_v1_transaction (s_hash 2) (uwrap 64 0) (uwrap 64 0)) cs.
Proof.
  intros cs. split; [intros [H _]; exact H|]. split.
  - intros [(H & _) _]. apply (f_equal (@length _)) in H. vm_compute in H. discriminate H.
  - intros (_ & H & _). apply (f_equal aval) in H. vm_compute in H. discriminate H.
Qed.
