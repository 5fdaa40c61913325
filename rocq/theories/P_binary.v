(** Property C64: serde with a format that is not human readable (CBOR, MessagePack). [Kept],
    [Lost], [SameUpToHashes] and [SameReading] are in SpecBinary.v, the conditions [json_...] under which a value can be written at all in SpecJson.v. Only
    statements. *)

From Verif Require Import Base Io Spec SpecUtf8 SpecText SpecWire SpecFormat Model_encoding Model_common
  Model_v1 Model_currency Model_policy Model_v2 Model_consensus Model_text Model_json Model_jsontypes Model_binary SpecJson
  SpecBinary Samples JsonExamples BinaryProofs BinaryMore BinaryNames BinaryReading.
Local Open Scope N_scope.

(** ** C64. The full statement, that a value written is read back, fails for every hash and every
    unlock key ... *)

Theorem C64_hash_refuted : forall h, Lost b_hash h.
Proof. exact lost_hash. Qed.
Print Assumptions C64_hash_refuted.

Theorem C64_key_refuted : forall k, json_key k -> Lost b_unlock_key k.
Proof. exact lost_key. Qed.
Print Assumptions C64_key_refuted.

(** ... and so for every value of these types: *)

Theorem C64_v1_refuted : forall p,
  (forall a, json_v1_siacoin_input a -> Lost b_v1_siacoin_input a) /\
  (forall a, json_v1_siafund_input a -> Lost b_v1_siafund_input a) /\
  (forall a, Lost (b_v1_file_contract p) a) /\
  (forall a, json_v1_revision a -> Lost (b_v1_file_contract_revision p) a) /\
  (forall a, Lost b_v1_storage_proof a) /\
  (forall a, json_v1_signature a -> Lost b_transaction_signature a) /\
  (forall a, json_block a -> Lost (b_block p) a).
Proof. exact v1_lost. Qed.
Print Assumptions C64_v1_refuted.

Theorem C64_v2_refuted : forall p n stack, (n <= stack)%nat ->
  (forall a, Lost (b_v2_file_contract p) a) /\
  (forall a, Lost (b_siacoin_element p) a) /\
  (forall a, Lost (b_siafund_element p) a) /\
  (forall a, Lost (b_file_contract_element p) a) /\
  (forall a, Lost b_chain_index_element a) /\
  (forall a, json_v2_siacoin_input n a -> Lost (b_v2_siacoin_input p stack) a) /\
  (forall a, json_v2_siafund_input n a -> Lost (b_v2_siafund_input p stack) a) /\
  (forall a, Lost (b_v2_file_contract_revision p) a) /\
  (forall a, Lost (b_file_contract_renewal p) a) /\
  (forall a, Lost b_v2_storage_proof a) /\
  (forall a, Lost (b_file_contract_resolution p) a).
Proof. exact v2_lost. Qed.
Print Assumptions C64_v2_refuted.

Theorem C64_consensus_refuted : forall p,
  (forall a, Lost b_chain_index a) /\
  (forall a, json_duration (hfa_oak_time a) -> Lost b_hardfork_asic a) /\
  (forall a, json_network a -> Lost (b_network p) a) /\
  (forall a, json_state a -> Lost (b_state p) a) /\
  (forall a, json_chain_state a -> Lost (b_chain_state p) a).
Proof. exact consensus_lost. Qed.
Print Assumptions C64_consensus_refuted.

(** What is written, and what would have been read. *)
Theorem C64_forms :
  (forall h, c_ser b_hash h = JOk (JArr (map (fun b => JUint (uwrap 64 (b2n b))) (aval h)))) /\
  (forall h, c_de b_hash (JStr (hash_text h)) = JOk h) /\
  (forall k, exists a l, c_ser j_specifier (uk_algorithm k) = JOk a /\ c_ser (j_vec 1 j_u8) (uk_key k) = JOk l /\
    c_de b_unlock_key (JArr [a; l]) = JOk k).
Proof. exact binary_forms. Qed.
Print Assumptions C64_forms.

(** Whatever the type, the document has the members of the JSON one, under the same names and in
    the same order, and only hashes may have another form. Writing fails when it fails in JSON. *)
Theorem C64_documents : forall p stack,
  (forall a, SameUpToHashes j_hash b_hash a) /\
  (forall a, SameUpToHashes j_chain_index b_chain_index a) /\
  (forall a, SameUpToHashes j_state_element b_state_element a) /\
  (forall a, SameUpToHashes j_unlock_key b_unlock_key a) /\
  (forall a, SameUpToHashes j_unlock_conditions b_unlock_conditions a) /\
  (forall a, SameUpToHashes j_v1_siacoin_input b_v1_siacoin_input a) /\
  (forall a, SameUpToHashes j_v1_siafund_input b_v1_siafund_input a) /\
  (forall a, SameUpToHashes (j_v1_file_contract p) (b_v1_file_contract p) a) /\
  (forall a, SameUpToHashes (j_v1_file_contract_revision p) (b_v1_file_contract_revision p) a) /\
  (forall a, SameUpToHashes j_v1_storage_proof b_v1_storage_proof a) /\
  (forall a, SameUpToHashes j_transaction_signature b_transaction_signature a) /\
  (forall a, SameUpToHashes (j_v1_transaction p) (b_v1_transaction p) a) /\
  (forall a, SameUpToHashes (j_block p) (b_block p) a) /\
  (forall a, SameUpToHashes (j_policy stack) (b_policy stack) a) /\
  (forall a, SameUpToHashes (j_satisfied_policy stack) (b_satisfied_policy stack) a) /\
  (forall a, SameUpToHashes (j_v2_file_contract p) (b_v2_file_contract p) a) /\
  (forall a, SameUpToHashes (j_siacoin_element p) (b_siacoin_element p) a) /\
  (forall a, SameUpToHashes (j_siafund_element p) (b_siafund_element p) a) /\
  (forall a, SameUpToHashes (j_file_contract_element p) (b_file_contract_element p) a) /\
  (forall a, SameUpToHashes j_chain_index_element b_chain_index_element a) /\
  (forall a, SameUpToHashes (j_v2_siacoin_input p stack) (b_v2_siacoin_input p stack) a) /\
  (forall a, SameUpToHashes (j_v2_siafund_input p stack) (b_v2_siafund_input p stack) a) /\
  (forall a, SameUpToHashes (j_v2_file_contract_revision p) (b_v2_file_contract_revision p) a) /\
  (forall a, SameUpToHashes (j_file_contract_renewal p) (b_file_contract_renewal p) a) /\
  (forall a, SameUpToHashes j_v2_storage_proof b_v2_storage_proof a) /\
  (forall a, SameUpToHashes (j_contract_resolution p) (b_contract_resolution p) a) /\
  (forall a, SameUpToHashes (j_file_contract_resolution p) (b_file_contract_resolution p) a) /\
  (forall a, SameUpToHashes (j_v2_transaction p stack) (b_v2_transaction p stack) a) /\
  (forall a, SameUpToHashes j_element_accumulator b_element_accumulator a) /\
  (forall a, SameUpToHashes j_hardfork_asic b_hardfork_asic a) /\
  (forall a, SameUpToHashes (j_network p) (b_network p) a) /\
  (forall a, SameUpToHashes (j_state p) (b_state p) a) /\
  (forall a, SameUpToHashes (j_chain_state p) (b_chain_state p) a).
Proof. exact documents_same. Qed.
Print Assumptions C64_documents.

Example C64_documents_example : exists j b, c_ser j_chain_index (MkChainIndex (uwrap 64 7) (s_hash 1)) = JOk j /\
  c_ser b_chain_index (MkChainIndex (uwrap 64 7) (s_hash 1)) = JOk b /\ HashForms j b /\ j <> b.
Proof. exact documents_example. Qed.

(** A type that holds no unlock key, or holds them only in policies, is read as from JSON: from
    every document, with the same result. *)
Theorem C64_reading : forall p stack,
  SameReading j_hash b_hash /\
  SameReading j_chain_index b_chain_index /\
  SameReading j_state_element b_state_element /\
  SameReading j_v1_storage_proof b_v1_storage_proof /\
  SameReading j_transaction_signature b_transaction_signature /\
  SameReading (j_v1_file_contract p) (b_v1_file_contract p) /\
  SameReading (j_policy stack) (b_policy stack) /\
  SameReading (j_satisfied_policy stack) (b_satisfied_policy stack) /\
  SameReading (j_v2_file_contract p) (b_v2_file_contract p) /\
  SameReading (j_siacoin_element p) (b_siacoin_element p) /\
  SameReading (j_siafund_element p) (b_siafund_element p) /\
  SameReading (j_file_contract_element p) (b_file_contract_element p) /\
  SameReading j_chain_index_element b_chain_index_element /\
  SameReading (j_v2_siacoin_input p stack) (b_v2_siacoin_input p stack) /\
  SameReading (j_v2_siafund_input p stack) (b_v2_siafund_input p stack) /\
  SameReading (j_v2_file_contract_revision p) (b_v2_file_contract_revision p) /\
  SameReading (j_file_contract_renewal p) (b_file_contract_renewal p) /\
  SameReading j_v2_storage_proof b_v2_storage_proof /\
  SameReading (j_contract_resolution p) (b_contract_resolution p) /\
  SameReading (j_file_contract_resolution p) (b_file_contract_resolution p) /\
  SameReading (j_v2_transaction p stack) (b_v2_transaction p stack) /\
  SameReading j_element_accumulator b_element_accumulator /\
  SameReading j_hardfork_asic b_hardfork_asic /\
  SameReading (j_network p) (b_network p) /\
  SameReading (j_state p) (b_state p) /\
  SameReading (j_chain_state p) (b_chain_state p).
Proof. exact documents_read. Qed.
Print Assumptions C64_reading.

Example C64_reading_example :
  let j := JObj [(ascii "height", JUint (uwrap 64 7)); (ascii "id", JStr (hash_text (s_hash 1)))] in
  (exists v, c_de b_chain_index j = JOk v /\ uval (ci_height v) = 7 /\ aval (ci_id v) = aval (s_hash 1)) /\
  c_de b_chain_index (JArr []) = JErr.
Proof. split; [eexists; split; [vm_compute; reflexivity|split; vm_compute; reflexivity]|reflexivity]. Qed.

(** Values that may hold hashes or keys are kept exactly when they hold none. *)

Theorem C64_proofs_partial : forall a,
  (vlist (se_merkle_proof a) = [] -> Kept b_state_element a) /\
  (vlist (se_merkle_proof a) <> [] -> Lost b_state_element a).
Proof. exact state_element_fate. Qed.
Print Assumptions C64_proofs_partial.

Theorem C64_conditions_partial : forall a, json_conditions a ->
  (vlist (uc_public_keys a) = [] -> Kept b_unlock_conditions a) /\
  (vlist (uc_public_keys a) <> [] -> Lost b_unlock_conditions a).
Proof. exact conditions_fate. Qed.
Print Assumptions C64_conditions_partial.

Theorem C64_v1_transaction_partial : forall p a, json_v1_transaction a ->
  let empty := vlist (v1t_siacoin_inputs a) = [] /\ vlist (v1t_file_contracts a) = [] /\
    vlist (v1t_file_contract_revisions a) = [] /\ vlist (v1t_storage_proofs a) = [] /\
    vlist (v1t_siafund_inputs a) = [] /\ vlist (v1t_signatures a) = [] in
  (empty -> Kept (b_v1_transaction p) a) /\ (~ empty -> Lost (b_v1_transaction p) a).
Proof. exact v1_transaction_fate. Qed.
Print Assumptions C64_v1_transaction_partial.

Theorem C64_v2_transaction_partial : forall p n stack a, (n <= stack)%nat -> json_v2_transaction n a ->
  let empty := vlist (v2t_siacoin_inputs a) = [] /\ vlist (v2t_siafund_inputs a) = [] /\
    vlist (v2t_file_contracts a) = [] /\ vlist (v2t_file_contract_revisions a) = [] /\
    vlist (v2t_file_contract_resolutions a) = [] in
  (empty -> Kept (b_v2_transaction p stack) a) /\ (~ empty -> Lost (b_v2_transaction p stack) a).
Proof. exact v2_transaction_fate. Qed.
Print Assumptions C64_v2_transaction_partial.

(** A policy is lost exactly when it is nothing but a hash: inside a threshold hashes are kept,
    and so are the keys of unlock conditions, because policies are read through JSON. *)
Theorem C64_policy_partial : forall n stack x, (n <= stack)%nat -> json_policy_upto n x ->
  ((forall h, x <> PHash h) -> Kept (b_policy stack) x) /\ (forall h, x = PHash h -> Lost (b_policy stack) x).
Proof. exact policy_fate. Qed.
Print Assumptions C64_policy_partial.

Theorem C64_satisfied_partial : forall n stack a, (n <= stack)%nat -> json_satisfied n a ->
  let plain := (forall h, sp_policy a <> PHash h) /\ vlist (sp_preimages a) = [] in
  (plain -> Kept (b_satisfied_policy stack) a) /\ (~ plain -> Lost (b_satisfied_policy stack) a).
Proof. exact satisfied_fate. Qed.
Print Assumptions C64_satisfied_partial.

Theorem C64_resolution_partial : forall p r,
  (r = ResExpiration -> Kept (b_contract_resolution p) r) /\ (r <> ResExpiration -> Lost (b_contract_resolution p) r).
Proof. exact contract_resolution_fate. Qed.
Print Assumptions C64_resolution_partial.

Theorem C64_accumulator_partial : forall a,
  (uval (ea_num_leaves a) = 0 -> ea_normal a -> Kept b_element_accumulator a) /\
  (uval (ea_num_leaves a) <> 0 -> Lost b_element_accumulator a).
Proof. exact accumulator_fate. Qed.
Print Assumptions C64_accumulator_partial.

(** The types without hashes and keys, whose implementations do not ask for the kind of format. *)
Theorem C64_others_partial : forall p,
  (forall a, Kept j_address a) /\ (forall a, Kept j_public_key a) /\ (forall a, Kept j_signature a) /\
  (forall a, Kept j_leaf a) /\ (forall a, Kept j_work a) /\ (forall a, Kept (j_currency p) a) /\
  (forall a, Kept j_specifier a) /\ (forall a, Kept (j_siacoin_output p) a) /\ (forall a, Kept j_siafund_output a) /\
  (forall a, Kept j_covered_fields a) /\ (forall a, json_attestation a -> Kept j_attestation a) /\
  (forall a, Kept j_hardfork_dev_addr a) /\ (forall a, Kept j_hardfork_tax a) /\
  (forall a, Kept j_hardfork_storage_proof a) /\ (forall a, json_time (hfo_genesis_timestamp a) -> Kept j_hardfork_oak a) /\
  (forall a, Kept j_hardfork_foundation a) /\ (forall a, Kept j_hardfork_v2 a).
Proof. exact others_kept. Qed.
Print Assumptions C64_others_partial.

(** Conditions that are met, and one transaction of each kind. *)
Example C64_example : json_key s_unlock_key /\ json_conditions s_unlock_conditions /\ json_block s_block /\
  json_state s_state_2 /\ json_policy_upto 4 s_policy /\
  Lost (b_v1_transaction Debug) s_v1_transaction /\ Lost (b_v2_transaction Debug 4) s_v2_transaction /\
  Kept (b_v2_transaction Debug 4) s_v2_payment /\ vlist (v2t_siacoin_outputs s_v2_payment) <> [] /\
  Lost (b_policy 4) (PHash (s_hash 1)) /\ Kept (b_policy 4) (PThreshold x01 [PHash (s_hash 1)]).
Proof. exact binary_example. Qed.
