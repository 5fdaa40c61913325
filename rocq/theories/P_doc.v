(** Properties C55 and C56: the JSON documents that are written, and the documents that are read.
    The forms of C55 are defined in SpecDoc.v, without the serialisers; [StructReader] and the
    readers of spend policies and resolutions in SpecAccept.v. *)

From Coq Require Import Permutation.
From Verif Require Import Base Io SpecFormat Model_encoding Model_common Model_currency Model_v1 Model_policy Model_v2
  Model_consensus Model_text Model_json Model_jsontypes SpecJson SpecDoc SpecAccept Samples DocTime DocProofs
  AcceptProofs AcceptMore DocExamples.
Local Open Scope N_scope.

(** ** C55. What a value is serialised to has the form of its type (C49 says which values can be
    serialised, and that they are read back). *)

(** Numbers, texts, amounts, times *)
Theorem C55_leaves :
  (forall x j, c_ser j_bool x = JOk j -> is_bool x j) /\
  (forall x j, c_ser j_u64 x = JOk j -> is_u64 x j) /\
  (forall x j, c_ser j_string x = JOk j -> is_string x j) /\
  (forall x j, c_ser j_hash x = JOk j -> is_hash x j) /\
  (forall x j, c_ser j_address x = JOk j -> is_address x j) /\
  (forall x j, c_ser j_public_key x = JOk j -> is_public_key x j) /\
  (forall x j, c_ser j_signature x = JOk j -> is_signature x j) /\
  (forall x j, c_ser j_leaf x = JOk j -> is_leaf x j) /\
  (forall p x j, c_ser (j_currency p) x = JOk j -> is_currency x j) /\
  (forall x j, c_ser j_work x = JOk j -> is_work x j) /\
  (forall x j, c_ser j_base64 x = JOk j -> is_payload x j) /\
  (forall x j, c_ser j_odt x = JOk j -> is_time x j) /\
  (forall x j, c_ser j_duration x = JOk j -> is_duration x j) /\
  (forall x j, c_ser j_unlock_key x = JOk j -> is_unlock_key x j) /\
  (forall x j, c_ser j_specifier x = JOk j -> is_specifier x j).
Proof. exact (conj doc_bool (conj doc_u64 (conj doc_string (conj doc_hash (conj doc_address (conj doc_public_key (conj doc_signature (conj doc_leaf (conj doc_currency (conj doc_work (conj doc_base64 (conj doc_odt (conj doc_duration (conj doc_unlock_key doc_specifier)))))))))))))). Qed.
Print Assumptions C55_leaves.

(** Common types *)
Theorem C55_common :
  (forall x j, c_ser j_chain_index x = JOk j -> is_chain_index x j) /\
  (forall p x j, c_ser (j_siacoin_output p) x = JOk j -> is_siacoin_output x j) /\
  (forall x j, c_ser j_siafund_output x = JOk j -> is_siafund_output x j) /\
  (forall x j, c_ser j_state_element x = JOk j -> is_state_element x j).
Proof. exact (conj doc_chain_index (conj doc_siacoin_output (conj doc_siafund_output doc_state_element))). Qed.
Print Assumptions C55_common.

(** Version 1 *)
Theorem C55_v1 :
  (forall x j, c_ser j_unlock_conditions x = JOk j -> is_unlock_conditions x j) /\
  (forall x j, c_ser j_v1_siacoin_input x = JOk j -> is_v1_siacoin_input x j) /\
  (forall x j, c_ser j_v1_siafund_input x = JOk j -> is_v1_siafund_input x j) /\
  (forall p x j, c_ser (j_v1_file_contract p) x = JOk j -> is_v1_contract x j) /\
  (forall p x j, c_ser (j_v1_file_contract_revision p) x = JOk j -> is_v1_revision x j) /\
  (forall x j, c_ser j_v1_storage_proof x = JOk j -> is_v1_storage_proof x j) /\
  (forall x j, c_ser j_covered_fields x = JOk j -> is_covered_fields x j) /\
  (forall x j, c_ser j_transaction_signature x = JOk j -> is_v1_signature x j) /\
  (forall p x j, c_ser (j_v1_transaction p) x = JOk j -> is_v1_transaction x j) /\
  (forall p x j, c_ser (j_block p) x = JOk j -> is_block x j).
Proof. exact (conj doc_unlock_conditions (conj doc_v1_siacoin_input (conj doc_v1_siafund_input (conj doc_v1_file_contract (conj doc_v1_file_contract_revision (conj doc_v1_storage_proof (conj doc_covered_fields (conj doc_transaction_signature (conj doc_v1_transaction doc_block))))))))). Qed.
Print Assumptions C55_v1.

(** Spend policies *)
Theorem C55_policy :
  (forall stack x j, c_ser (j_policy stack) x = JOk j -> is_policy x j) /\
  (forall stack x j, c_ser (j_satisfied_policy stack) x = JOk j -> is_satisfied_policy x j).
Proof. exact (conj doc_policy doc_satisfied_policy). Qed.
Print Assumptions C55_policy.

(** Version 2 *)
Theorem C55_v2 :
  (forall x j, c_ser j_attestation x = JOk j -> is_attestation x j) /\
  (forall p x j, c_ser (j_v2_file_contract p) x = JOk j -> is_v2_contract x j) /\
  (forall p x j, c_ser (j_siacoin_element p) x = JOk j -> is_siacoin_element x j) /\
  (forall p x j, c_ser (j_siafund_element p) x = JOk j -> is_siafund_element x j) /\
  (forall p x j, c_ser (j_file_contract_element p) x = JOk j -> is_contract_element x j) /\
  (forall x j, c_ser j_chain_index_element x = JOk j -> is_chain_index_element x j) /\
  (forall p stack x j, c_ser (j_v2_siacoin_input p stack) x = JOk j -> is_v2_siacoin_input x j) /\
  (forall p stack x j, c_ser (j_v2_siafund_input p stack) x = JOk j -> is_v2_siafund_input x j) /\
  (forall p x j, c_ser (j_v2_file_contract_revision p) x = JOk j -> is_v2_revision x j) /\
  (forall p x j, c_ser (j_file_contract_renewal p) x = JOk j -> is_renewal x j) /\
  (forall x j, c_ser j_v2_storage_proof x = JOk j -> is_v2_storage_proof x j) /\
  (forall p x j, c_ser (j_contract_resolution p) x = JOk j -> is_resolution_alone x j) /\
  (forall p x j, c_ser (j_file_contract_resolution p) x = JOk j -> is_resolution x j) /\
  (forall p stack x j, c_ser (j_v2_transaction p stack) x = JOk j -> is_v2_transaction x j).
Proof. exact (conj doc_attestation (conj doc_v2_file_contract (conj doc_siacoin_element (conj doc_siafund_element (conj doc_file_contract_element (conj doc_chain_index_element (conj doc_v2_siacoin_input (conj doc_v2_siafund_input (conj doc_v2_file_contract_revision (conj doc_file_contract_renewal (conj doc_v2_storage_proof (conj doc_contract_resolution (conj doc_file_contract_resolution doc_v2_transaction))))))))))))). Qed.
Print Assumptions C55_v2.

(** Consensus *)
Theorem C55_consensus :
  (forall x j, c_ser j_element_accumulator x = JOk j -> is_accumulator x j) /\
  (forall x j, c_ser j_hardfork_dev_addr x = JOk j -> is_hardfork_dev_addr x j) /\
  (forall x j, c_ser j_hardfork_tax x = JOk j -> is_hardfork_tax x j) /\
  (forall x j, c_ser j_hardfork_storage_proof x = JOk j -> is_hardfork_storage_proof x j) /\
  (forall x j, c_ser j_hardfork_oak x = JOk j -> is_hardfork_oak x j) /\
  (forall x j, c_ser j_hardfork_asic x = JOk j -> is_hardfork_asic x j) /\
  (forall x j, c_ser j_hardfork_foundation x = JOk j -> is_hardfork_foundation x j) /\
  (forall x j, c_ser j_hardfork_v2 x = JOk j -> is_hardfork_v2 x j) /\
  (forall p x j, c_ser (j_network p) x = JOk j -> is_network x j) /\
  (forall p x j, c_ser (j_state p) x = JOk j -> is_state x j) /\
  (forall p x j, c_ser (j_chain_state p) x = JOk j -> is_chain_state x j).
Proof. exact (conj doc_element_accumulator (conj doc_hardfork_dev_addr (conj doc_hardfork_tax (conj doc_hardfork_storage_proof (conj doc_hardfork_oak (conj doc_hardfork_asic (conj doc_hardfork_foundation (conj doc_hardfork_v2 (conj doc_network (conj doc_state doc_chain_state)))))))))). Qed.
Print Assumptions C55_consensus.

(** Every day has one date: what an RFC 3339 text says about its day is unambiguous. *)
Theorem C55_one_day : forall y m d k y' m' d' k', Day y m d k -> Day y' m' d' k' ->
  (k = k' <-> y = y' /\ m = m' /\ d = d').
Proof. exact one_day. Qed.
Print Assumptions C55_one_day.

(** Two different moments never have the same text. *)
Theorem C55_one_time : forall t t' s, Rfc3339 t s -> Rfc3339 t' s -> t = t'.
Proof. exact one_time. Qed.
Print Assumptions C55_one_time.

Example C55_example :
  c_ser (j_siacoin_output Release) (MkSco (uwrap 128 1500) zero_hash) = JOk (JObj
    [(ascii "value", JStr (ascii "1500"));
     (ascii "address", JStr (ascii
        "000000000000000000000000000000000000000000000000000000000000000089eb0d6a8a69"))]) /\
  c_ser j_odt s_time = JOk (JStr (ascii "2023-11-14T22:13:20Z")) /\
  Rfc3339 s_time (ascii "2023-11-14T22:13:20Z").
Proof. exact doc_examples. Qed.

(** ** C56. [StructReader c ws]: a document is read as [a] exactly when it is an object with the
    wanted entries [ws a], or an array of their values. *)

Theorem C56_chain_index : StructReader j_chain_index (fun a => [
    must "height" (reads j_u64 (ci_height a));
    must "id" (reads j_hash (ci_id a))]).
Proof. exact read_chain_index. Qed.
Print Assumptions C56_chain_index.

Theorem C56_siacoin_output : forall p, StructReader (j_siacoin_output p) (fun a => [
    must "value" (reads (j_currency p) (sco_value a));
    must "address" (reads j_address (sco_address a))]).
Proof. exact read_siacoin_output. Qed.
Print Assumptions C56_siacoin_output.

Theorem C56_siafund_output : StructReader j_siafund_output (fun a => [
    must "value" (reads j_u64 (sfo_value a));
    must "address" (reads j_address (sfo_address a))]).
Proof. exact read_siafund_output. Qed.
Print Assumptions C56_siafund_output.

Theorem C56_state_element : StructReader j_state_element (fun a => [
    must "leafIndex" (reads j_u64 (se_leaf_index a));
    must "merkleProof" (reads (j_vec 32 j_hash) (se_merkle_proof a))]).
Proof. exact read_state_element. Qed.
Print Assumptions C56_state_element.

Theorem C56_unlock_conditions : StructReader j_unlock_conditions (fun a => [
    must "timelock" (reads j_u64 (uc_timelock a));
    must "publicKeys" (reads (j_vec 40 j_unlock_key) (uc_public_keys a));
    must "signaturesRequired" (reads j_u64 (uc_signatures_required a))]).
Proof. exact read_unlock_conditions. Qed.
Print Assumptions C56_unlock_conditions.

Theorem C56_v1_siacoin_input : StructReader j_v1_siacoin_input (fun a => [
    must "parentID" (reads j_hash (v1sci_parent_id a));
    must "unlockConditions" (reads j_unlock_conditions (v1sci_unlock_conditions a))]).
Proof. exact read_v1_siacoin_input. Qed.
Print Assumptions C56_v1_siacoin_input.

Theorem C56_v1_siafund_input : StructReader j_v1_siafund_input (fun a => [
    must "parentID" (reads j_hash (v1sfi_parent_id a));
    must "unlockConditions" (reads j_unlock_conditions (v1sfi_unlock_conditions a));
    must "claimAddress" (reads j_address (v1sfi_claim_address a))]).
Proof. exact read_v1_siafund_input. Qed.
Print Assumptions C56_v1_siafund_input.

Theorem C56_v1_file_contract : forall p, StructReader (j_v1_file_contract p) (fun a => [
    must "filesize" (reads j_u64 (v1fc_file_size a));
    must "fileMerkleRoot" (reads j_hash (v1fc_file_merkle_root a));
    must "windowStart" (reads j_u64 (v1fc_window_start a));
    must "windowEnd" (reads j_u64 (v1fc_window_end a));
    must "payout" (reads (j_currency p) (v1fc_payout a));
    must "validProofOutputs" (reads (j_vec 48 (j_siacoin_output p)) (v1fc_valid_proof_outputs a));
    must "missedProofOutputs" (reads (j_vec 48 (j_siacoin_output p)) (v1fc_missed_proof_outputs a));
    must "unlockHash" (reads j_address (v1fc_unlock_hash a));
    must "revisionNumber" (reads j_u64 (v1fc_revision_number a))]).
Proof. exact read_v1_file_contract. Qed.
Print Assumptions C56_v1_file_contract.

Theorem C56_v1_file_contract_revision : forall p, StructReader (j_v1_file_contract_revision p) (fun a => [
    must "parentID" (reads j_hash (v1fcr_parent_id a));
    must "unlockConditions" (reads j_unlock_conditions (v1fcr_unlock_conditions a));
    must "revisionNumber" (reads j_u64 (v1fcr_revision_number a));
    must "filesize" (reads j_u64 (v1fcr_file_size a));
    must "fileMerkleRoot" (reads j_hash (v1fcr_file_merkle_root a));
    must "windowStart" (reads j_u64 (v1fcr_window_start a));
    must "windowEnd" (reads j_u64 (v1fcr_window_end a));
    must "validProofOutputs" (reads (j_vec 48 (j_siacoin_output p)) (v1fcr_valid_proof_outputs a));
    must "missedProofOutputs" (reads (j_vec 48 (j_siacoin_output p)) (v1fcr_missed_proof_outputs a));
    must "unlockHash" (reads j_address (v1fcr_unlock_hash a))]).
Proof. exact read_v1_file_contract_revision. Qed.
Print Assumptions C56_v1_file_contract_revision.

Theorem C56_v1_storage_proof : StructReader j_v1_storage_proof (fun a => [
    must "parentID" (reads j_hash (v1sp_parent_id a));
    must "leaf" (reads j_leaf (v1sp_leaf a));
    must "proof" (reads (j_vec 32 j_hash) (v1sp_proof a))]).
Proof. exact read_v1_storage_proof. Qed.
Print Assumptions C56_v1_storage_proof.

Theorem C56_covered_fields : StructReader j_covered_fields (fun a => [
    must "wholeTransaction" (reads j_bool (cf_whole_transaction a));
    may_list "siacoinInputs" (reads (j_vec 8 j_u64)) (cf_siacoin_inputs a);
    may_list "siacoinOutputs" (reads (j_vec 8 j_u64)) (cf_siacoin_outputs a);
    may_list "fileContracts" (reads (j_vec 8 j_u64)) (cf_file_contracts a);
    may_list "fileContractRevisions" (reads (j_vec 8 j_u64)) (cf_file_contract_revisions a);
    may_list "storageProofs" (reads (j_vec 8 j_u64)) (cf_storage_proofs a);
    may_list "siafundInputs" (reads (j_vec 8 j_u64)) (cf_siafund_inputs a);
    may_list "siafundOutputs" (reads (j_vec 8 j_u64)) (cf_siafund_outputs a);
    may_list "minerFees" (reads (j_vec 8 j_u64)) (cf_miner_fees a);
    may_list "arbitraryData" (reads (j_vec 8 j_u64)) (cf_arbitrary_data a);
    may_list "signatures" (reads (j_vec 8 j_u64)) (cf_signatures a)]).
Proof. exact read_covered_fields. Qed.
Print Assumptions C56_covered_fields.

Theorem C56_transaction_signature : StructReader j_transaction_signature (fun a => [
    must "parentID" (reads j_hash (ts_parent_id a));
    must "publicKeyIndex" (reads j_u64 (ts_public_key_index a));
    must "timelock" (reads j_u64 (ts_timelock a));
    must "coveredFields" (reads j_covered_fields (ts_covered_fields a));
    must "signature" (reads j_base64 (ts_signature a))]).
Proof. exact read_transaction_signature. Qed.
Print Assumptions C56_transaction_signature.

Theorem C56_v1_transaction : forall p, StructReader (j_v1_transaction p) (fun a => [
    may_list "siacoinInputs" (reads (j_vec 72 j_v1_siacoin_input)) (v1t_siacoin_inputs a);
    may_list "siacoinOutputs" (reads (j_vec 48 (j_siacoin_output p))) (v1t_siacoin_outputs a);
    may_list "fileContracts" (reads (j_vec 160 (j_v1_file_contract p))) (v1t_file_contracts a);
    may_list "fileContractRevisions" (reads (j_vec 216 (j_v1_file_contract_revision p))) (v1t_file_contract_revisions a);
    may_list "storageProofs" (reads (j_vec 120 j_v1_storage_proof)) (v1t_storage_proofs a);
    may_list "siafundInputs" (reads (j_vec 104 j_v1_siafund_input)) (v1t_siafund_inputs a);
    may_list "siafundOutputs" (reads (j_vec 40 j_siafund_output)) (v1t_siafund_outputs a);
    may_list "minerFees" (reads (j_vec 16 (j_currency p))) (v1t_miner_fees a);
    may_list "arbitraryData" (reads j_vec_base64) (v1t_arbitrary_data a);
    may_list "signatures" (reads (j_vec 320 j_transaction_signature)) (v1t_signatures a)]).
Proof. exact read_v1_transaction. Qed.
Print Assumptions C56_v1_transaction.

Theorem C56_block : forall p, StructReader (j_block p) (fun a => [
    must "parentID" (reads j_hash (bl_parent_id a));
    must "nonce" (reads j_u64 (bl_nonce a));
    must "timestamp" (reads j_odt (bl_timestamp a));
    must "minerPayouts" (reads (j_vec 48 (j_siacoin_output p)) (bl_miner_payouts a));
    must "transactions" (reads (j_vec 240 (j_v1_transaction p)) (bl_transactions a))]).
Proof. exact read_block. Qed.
Print Assumptions C56_block.

Theorem C56_satisfied_policy : forall stack, StructReader (j_satisfied_policy stack) (fun a => [
    must "policy" (reads (j_policy stack) (sp_policy a));
    may_list "signatures" (reads (j_vec 64 j_signature)) (sp_signatures a);
    may_list "preimages" (reads (j_vec 32 j_hash)) (sp_preimages a)]).
Proof. exact read_satisfied_policy. Qed.
Print Assumptions C56_satisfied_policy.

Theorem C56_attestation : StructReader j_attestation (fun a => [
    must "publicKey" (reads j_public_key (att_public_key a));
    must "key" (reads j_string (att_key a));
    must "value" (reads j_base64 (att_value a));
    must "signature" (reads j_signature (att_signature a))]).
Proof. exact read_attestation. Qed.
Print Assumptions C56_attestation.

Theorem C56_v2_file_contract : forall p, StructReader (j_v2_file_contract p) (fun a => [
    must "capacity" (reads j_u64 (v2fc_capacity a));
    must "filesize" (reads j_u64 (v2fc_filesize a));
    must "fileMerkleRoot" (reads j_hash (v2fc_file_merkle_root a));
    must "proofHeight" (reads j_u64 (v2fc_proof_height a));
    must "expirationHeight" (reads j_u64 (v2fc_expiration_height a));
    must "renterOutput" (reads (j_siacoin_output p) (v2fc_renter_output a));
    must "hostOutput" (reads (j_siacoin_output p) (v2fc_host_output a));
    must "missedHostValue" (reads (j_currency p) (v2fc_missed_host_value a));
    must "totalCollateral" (reads (j_currency p) (v2fc_total_collateral a));
    must "renterPublicKey" (reads j_public_key (v2fc_renter_public_key a));
    must "hostPublicKey" (reads j_public_key (v2fc_host_public_key a));
    must "revisionNumber" (reads j_u64 (v2fc_revision_number a));
    must "renterSignature" (reads j_signature (v2fc_renter_signature a));
    must "hostSignature" (reads j_signature (v2fc_host_signature a))]).
Proof. exact read_v2_file_contract. Qed.
Print Assumptions C56_v2_file_contract.

Theorem C56_siacoin_element : forall p, StructReader (j_siacoin_element p) (fun a => [
    must "stateElement" (reads j_state_element (sce_state_element a));
    must "id" (reads j_hash (sce_id a));
    must "siacoinOutput" (reads (j_siacoin_output p) (sce_siacoin_output a));
    must "maturityHeight" (reads j_u64 (sce_maturity_height a))]).
Proof. exact read_siacoin_element. Qed.
Print Assumptions C56_siacoin_element.

Theorem C56_siafund_element : forall p, StructReader (j_siafund_element p) (fun a => [
    must "stateElement" (reads j_state_element (sfe_state_element a));
    must "id" (reads j_hash (sfe_id a));
    must "siafundOutput" (reads j_siafund_output (sfe_siafund_output a));
    must "claimStart" (reads (j_currency p) (sfe_claim_start a))]).
Proof. exact read_siafund_element. Qed.
Print Assumptions C56_siafund_element.

Theorem C56_file_contract_element : forall p, StructReader (j_file_contract_element p) (fun a => [
    must "stateElement" (reads j_state_element (fce_state_element a));
    must "id" (reads j_hash (fce_id a));
    must "v2FileContract" (reads (j_v2_file_contract p) (fce_v2_file_contract a))]).
Proof. exact read_file_contract_element. Qed.
Print Assumptions C56_file_contract_element.

Theorem C56_chain_index_element : StructReader j_chain_index_element (fun a => [
    must "stateElement" (reads j_state_element (cie_state_element a));
    must "id" (reads j_hash (cie_id a));
    must "chainIndex" (reads j_chain_index (cie_chain_index a))]).
Proof. exact read_chain_index_element. Qed.
Print Assumptions C56_chain_index_element.

Theorem C56_v2_siacoin_input : forall p stack, StructReader (j_v2_siacoin_input p stack) (fun a => [
    must "parent" (reads (j_siacoin_element p) (v2sci_parent a));
    must "satisfiedPolicy" (reads (j_satisfied_policy stack) (v2sci_satisfied_policy a))]).
Proof. exact read_v2_siacoin_input. Qed.
Print Assumptions C56_v2_siacoin_input.

Theorem C56_v2_siafund_input : forall p stack, StructReader (j_v2_siafund_input p stack) (fun a => [
    must "parent" (reads (j_siafund_element p) (v2sfi_parent a));
    must "claimAddress" (reads j_address (v2sfi_claim_address a));
    must "satisfiedPolicy" (reads (j_satisfied_policy stack) (v2sfi_satisfied_policy a))]).
Proof. exact read_v2_siafund_input. Qed.
Print Assumptions C56_v2_siafund_input.

Theorem C56_v2_file_contract_revision : forall p, StructReader (j_v2_file_contract_revision p) (fun a => [
    must "parent" (reads (j_file_contract_element p) (v2fcr_parent a));
    must "revision" (reads (j_v2_file_contract p) (v2fcr_revision a))]).
Proof. exact read_v2_file_contract_revision. Qed.
Print Assumptions C56_v2_file_contract_revision.

Theorem C56_file_contract_renewal : forall p, StructReader (j_file_contract_renewal p) (fun a => [
    must "finalRevision" (reads (j_v2_file_contract p) (ren_final_revision a));
    must "newContract" (reads (j_v2_file_contract p) (ren_new_contract a));
    must "renterRollover" (reads (j_currency p) (ren_renter_rollover a));
    must "hostRollover" (reads (j_currency p) (ren_host_rollover a));
    must "renterSignature" (reads j_signature (ren_renter_signature a));
    must "hostSignature" (reads j_signature (ren_host_signature a))]).
Proof. exact read_file_contract_renewal. Qed.
Print Assumptions C56_file_contract_renewal.

Theorem C56_v2_storage_proof : StructReader j_v2_storage_proof (fun a => [
    must "proofIndex" (reads j_chain_index_element (v2sp_proof_index a));
    must "leaf" (reads j_leaf (v2sp_leaf a));
    must "proof" (reads (j_vec 32 j_hash) (v2sp_proof a))]).
Proof. exact read_v2_storage_proof. Qed.
Print Assumptions C56_v2_storage_proof.

Theorem C56_v2_transaction : forall p stack, StructReader (j_v2_transaction p stack) (fun a => [
    may_list "siacoinInputs" (reads (j_vec 224 (j_v2_siacoin_input p stack))) (v2t_siacoin_inputs a);
    may_list "siacoinOutputs" (reads (j_vec 48 (j_siacoin_output p))) (v2t_siacoin_outputs a);
    may_list "siafundInputs" (reads (j_vec 256 (j_v2_siafund_input p stack))) (v2t_siafund_inputs a);
    may_list "siafundOutputs" (reads (j_vec 40 j_siafund_output)) (v2t_siafund_outputs a);
    may_list "fileContracts" (reads (j_vec 400 (j_v2_file_contract p))) (v2t_file_contracts a);
    may_list "fileContractRevisions" (reads (j_vec 864 (j_v2_file_contract_revision p))) (v2t_file_contract_revisions a);
    may_list "fileContractResolutions" (reads (j_vec 1440 (j_file_contract_resolution p))) (v2t_file_contract_resolutions a);
    may_list "attestations" (reads (j_vec 144 j_attestation)) (v2t_attestations a);
    may_list "arbitraryData" (reads j_base64) (v2t_arbitrary_data a);
    may_option "newFoundationAddress" (reads (j_option j_address)) (v2t_new_foundation_address a);
    must "minerFee" (reads (j_currency p) (v2t_miner_fee a))]).
Proof. exact read_v2_transaction. Qed.
Print Assumptions C56_v2_transaction.

Theorem C56_hardfork_dev_addr : StructReader j_hardfork_dev_addr (fun a => [
    must "height" (reads j_u64 (hfda_height a));
    must "oldAddress" (reads j_address (hfda_old_address a));
    must "newAddress" (reads j_address (hfda_new_address a))]).
Proof. exact read_hardfork_dev_addr. Qed.
Print Assumptions C56_hardfork_dev_addr.

Theorem C56_hardfork_tax : StructReader j_hardfork_tax (fun a => [
    must "height" (reads j_u64 (hft_height a))]).
Proof. exact read_hardfork_tax. Qed.
Print Assumptions C56_hardfork_tax.

Theorem C56_hardfork_storage_proof : StructReader j_hardfork_storage_proof (fun a => [
    must "height" (reads j_u64 (hfsp_height a))]).
Proof. exact read_hardfork_storage_proof. Qed.
Print Assumptions C56_hardfork_storage_proof.

Theorem C56_hardfork_oak : StructReader j_hardfork_oak (fun a => [
    must "height" (reads j_u64 (hfo_height a));
    must "fixHeight" (reads j_u64 (hfo_fix_height a));
    must "genesisTimestamp" (reads j_odt (hfo_genesis_timestamp a))]).
Proof. exact read_hardfork_oak. Qed.
Print Assumptions C56_hardfork_oak.

Theorem C56_hardfork_asic : StructReader j_hardfork_asic (fun a => [
    must "height" (reads j_u64 (hfa_height a));
    must "oakTime" (reads j_duration (hfa_oak_time a));
    must "oakTarget" (reads j_hash (hfa_oak_target a))]).
Proof. exact read_hardfork_asic. Qed.
Print Assumptions C56_hardfork_asic.

Theorem C56_hardfork_foundation : StructReader j_hardfork_foundation (fun a => [
    must "height" (reads j_u64 (hff_height a));
    must "primaryAddress" (reads j_address (hff_primary_address a));
    must "failsafeAddress" (reads j_address (hff_failsafe_address a))]).
Proof. exact read_hardfork_foundation. Qed.
Print Assumptions C56_hardfork_foundation.

Theorem C56_hardfork_v2 : StructReader j_hardfork_v2 (fun a => [
    must "allowHeight" (reads j_u64 (hfv2_allow_height a));
    must "requireHeight" (reads j_u64 (hfv2_require_height a))]).
Proof. exact read_hardfork_v2. Qed.
Print Assumptions C56_hardfork_v2.

Theorem C56_network : forall p, StructReader (j_network p) (fun a => [
    must "name" (reads j_string (net_name a));
    must "initialCoinbase" (reads (j_currency p) (net_initial_coinbase a));
    must "minimumCoinbase" (reads (j_currency p) (net_minimum_coinbase a));
    must "initialTarget" (reads j_hash (net_initial_target a));
    must "blockInterval" (reads j_duration (net_block_interval a));
    must "maturityDelay" (reads j_u64 (net_maturity_delay a));
    must "hardforkDevAddr" (reads j_hardfork_dev_addr (net_hardfork_dev_addr a));
    must "hardforkTax" (reads j_hardfork_tax (net_hardfork_tax a));
    must "hardforkStorageProof" (reads j_hardfork_storage_proof (net_hardfork_storage_proof a));
    must "hardforkOak" (reads j_hardfork_oak (net_hardfork_oak a));
    must "hardforkASIC" (reads j_hardfork_asic (net_hardfork_asic a));
    must "hardforkFoundation" (reads j_hardfork_foundation (net_hardfork_foundation a));
    must "hardforkV2" (reads j_hardfork_v2 (net_hardfork_v2 a))]).
Proof. exact read_network. Qed.
Print Assumptions C56_network.

Theorem C56_state : forall p, StructReader (j_state p) (fun a => [
    must "index" (reads j_chain_index (st_index a));
    must "prevTimestamps" (reads j_timestamps (st_prev_timestamps a));
    must "depth" (reads j_hash (st_depth a));
    must "childTarget" (reads j_hash (st_child_target a));
    must "siafundPool" (reads (j_currency p) (st_siafund_pool a));
    must "oakTime" (reads j_duration (st_oak_time a));
    must "oakTarget" (reads j_hash (st_oak_target a));
    must "foundationPrimaryAddress" (reads j_address (st_foundation_primary_address a));
    must "foundationFailsafeAddress" (reads j_address (st_foundation_failsafe_address a));
    must "totalWork" (reads j_work (st_total_work a));
    must "difficulty" (reads j_work (st_difficulty a));
    must "oakWork" (reads j_work (st_oak_work a));
    must "elements" (reads j_element_accumulator (st_elements a));
    must "attestations" (reads j_u64 (st_attestations a))]).
Proof. exact read_state. Qed.
Print Assumptions C56_state.

Theorem C56_chain_state : forall p, StructReader (j_chain_state p) (fun a => [
    must "network" (reads (j_network p) (cs_network a));
    must "state" (reads (j_state p) (cs_state a))]).
Proof. exact read_chain_state. Qed.
Print Assumptions C56_chain_state.

(** What this means for every struct: the order of the entries does not matter, unknown entries are
    ignored, a repeated or missing entry is never accepted. *)
Theorem C56_order : forall A (c : codec A) ws, StructReader c ws -> forall l l' a, Permutation l l' ->
  c_de c (JObj l) = JOk a -> c_de c (JObj l') = JOk a.
Proof. exact reader_order. Qed.
Print Assumptions C56_order.

Theorem C56_unknown : forall A (c : codec A) ws, StructReader c ws -> forall l1 k v l2 a,
  ~ In k (map (fun w : wanted => ascii (fst w)) (ws a)) ->
  (c_de c (JObj (l1 ++ (k, v) :: l2)) = JOk a <-> c_de c (JObj (l1 ++ l2)) = JOk a).
Proof. exact reader_unknown. Qed.
Print Assumptions C56_unknown.

Theorem C56_repeated : forall A (c : codec A) ws, StructReader c ws -> forall l1 k v l2 w l3 a,
  In k (map (fun x : wanted => ascii (fst x)) (ws a)) ->
  c_de c (JObj (l1 ++ (k, v) :: l2 ++ (k, w) :: l3)) <> JOk a.
Proof. exact reader_repeated. Qed.
Print Assumptions C56_repeated.

Theorem C56_missing : forall A (c : codec A) ws, StructReader c ws -> forall l k f a,
  In (must k f) (ws a) -> ~ In (ascii k) (map fst l) -> c_de c (JObj l) <> JOk a.
Proof. exact reader_missing. Qed.
Print Assumptions C56_missing.

Example C56_hypotheses : exists ws, StructReader j_chain_index ws /\ forall a,
  In (must "height" (reads j_u64 (ci_height a))) (ws a) /\
  In (ascii "id") (map (fun w : wanted => ascii (fst w)) (ws a)) /\
  ~ In (ascii "extra") (map (fun w : wanted => ascii (fst w)) (ws a)).
Proof.
  eexists. split; [exact read_chain_index|]. intros a. split; [left; reflexivity|]. split; [right; left; reflexivity|].
  intros [E|[E|[]]]; discriminate.
Qed.

(** Spend policies and contract resolutions: of a repeated key the last entry counts, unknown keys
    are an error. *)
Theorem C56_policy : forall stack, PolicyReader (j_policy (S stack)) (j_policy stack).
Proof. exact read_policy. Qed.
Print Assumptions C56_policy.

Theorem C56_resolution : forall p, ResolutionReader p (j_file_contract_resolution p).
Proof. exact read_resolution. Qed.
Print Assumptions C56_resolution.

(** Lists, options, numbers; texts are read by the parsers of C14-C19. *)
Theorem C56_lists : forall A sz (c : codec A) j v,
  c_de (j_vec sz c) j = JOk v <-> exists js, j = JArr js /\ Forall2 (reads c) (vlist v) js.
Proof. exact vec_iff. Qed.
Print Assumptions C56_lists.

Theorem C56_options : forall A (c : codec A) j o, c_de (j_option c) j = JOk o <->
  (j = JNull /\ o = None) \/ (exists a, j <> JNull /\ o = Some a /\ reads c a j).
Proof. exact option_iff. Qed.
Print Assumptions C56_options.

Theorem C56_numbers : (forall j n, c_de j_u64 j = JOk n <-> j = JUint n) /\
  (forall j b, c_de j_u8 j = JOk b <-> exists n, j = JUint n /\ uval n = b2n b) /\
  (forall j b, c_de j_bool j = JOk b <-> j = JBool b).
Proof. exact (conj u64_iff (conj u8_iff bool_iff)). Qed.
Print Assumptions C56_numbers.

Theorem C56_texts :
  (forall j s, c_de j_string j = JOk s <-> j = JStr (vlist (sbytes s))) /\
  (forall j h, c_de j_hash j = JOk h <->
     exists s : rstring, j = JStr (vlist (sbytes s)) /\ parse_hash (vlist (sbytes s)) = inl h) /\
  (forall j h, c_de j_address j = JOk h <->
     exists s : rstring, j = JStr (vlist (sbytes s)) /\ parse_address (vlist (sbytes s)) = inl h) /\
  (forall j h, c_de j_signature j = JOk h <->
     exists s : rstring, j = JStr (vlist (sbytes s)) /\ parse_signature (vlist (sbytes s)) = inl h) /\
  (forall j h, c_de j_public_key j = JOk h <->
     exists s : rstring, j = JStr (vlist (sbytes s)) /\ parse_public_key (vlist (sbytes s)) = Some h) /\
  (forall j h, c_de j_work j = JOk h <->
     exists s : rstring, j = JStr (vlist (sbytes s)) /\ parse_work (vlist (sbytes s)) = Some h) /\
  (forall j h, c_de j_unlock_key j = JOk h <->
     exists s : rstring, j = JStr (vlist (sbytes s)) /\ parse_unlock_key s = inl h) /\
  (forall p j c, c_de (j_currency p) j = JOk c <->
     (exists s : rstring, j = JStr (vlist (sbytes s)) /\ parse_currency p (vlist (sbytes s)) = Val (inl c)) \/
     (exists n, j = JUint n /\ uval c = uval n)).
Proof. exact text_readers. Qed.
Print Assumptions C56_texts.

(** An object with an unknown entry and the known ones in another order is read; one with a
    repeated entry is not. *)
Example C56_example :
  c_de j_chain_index (JObj [(ascii "id", JStr (hash_text zero_hash)); (ascii "extra", JNull);
                            (ascii "height", JUint (uwrap 64 7))]) = JOk (MkChainIndex (uwrap 64 7) (arr_of 32 (repeat x00 32))) /\
  c_de j_chain_index (JObj [(ascii "height", JUint (uwrap 64 7)); (ascii "id", JStr (hash_text zero_hash));
                            (ascii "height", JUint (uwrap 64 7))]) = JErr /\
  c_de (j_policy 5) (JObj [(ascii "policy", JUint (uwrap 64 7)); (ascii "type", JStr (ascii "above"))])
    = JOk (PAbove (uwrap 64 7)) /\
  c_de (j_policy 5) (JObj [(ascii "policy", JUint (uwrap 64 7)); (ascii "type", JStr (ascii "above"));
                           (ascii "extra", JNull)]) = JErr.
Proof. exact read_examples. Qed.
