(** Model of the structures of sia/src/types/v1.rs and of [Block] (common.rs), with their
    binary codecs. All are derived ([V1SiaEncode], [V1SiaDecode]); the conventions are those
    of [Model_common.v]. The element sizes given to [vec] and [decode_vec] are Rust's
    [size_of] on a 64-bit target with 16-byte aligned [u128] (rustc 1.77 or later); they
    only determine from which length on [Vec::with_capacity] panics. *)

From Verif Require Import Base Io Model_encoding Model_common.
Local Open Scope N_scope.
Local Open Scope dec_scope.

(** ** UnlockKey — v1.rs:32-36 (v1 and v2 codecs) *)
Record unlock_key : Type := MkUnlockKey { uk_algorithm : specifier; uk_key : vec 1 u8 }.

Definition encode_unlock_key (k : unlock_key) : wprog :=
  encode_specifier (uk_algorithm k) ++ encode_vec encode_u8 (uk_key k).
Definition decode_unlock_key : dec unlock_key :=
  algorithm <- decode_specifier ;; key <- decode_vec 1 decode_u8 ;;
  DRet (MkUnlockKey algorithm key).

(** ** UnlockConditions — v1.rs:94-102 (v1 and v2 codecs) *)
Record unlock_conditions : Type :=
  MkUc { uc_timelock : u64; uc_public_keys : vec 40 unlock_key; uc_signatures_required : u64 }.

Definition encode_unlock_conditions (u : unlock_conditions) : wprog :=
  encode_u64 (uc_timelock u) ++
  encode_vec encode_unlock_key (uc_public_keys u) ++
  encode_u64 (uc_signatures_required u).
Definition decode_unlock_conditions : dec unlock_conditions :=
  timelock <- decode_u64 ;;
  public_keys <- decode_vec 40 decode_unlock_key ;;
  signatures_required <- decode_u64 ;;
  DRet (MkUc timelock public_keys signatures_required).

(** ** SiacoinInput — v1.rs:159-165 *)
Record v1_siacoin_input : Type :=
  MkV1Sci { v1sci_parent_id : hash256; v1sci_unlock_conditions : unlock_conditions }.

Definition encode_v1_siacoin_input (i : v1_siacoin_input) : wprog :=
  encode_hash (v1sci_parent_id i) ++ encode_unlock_conditions (v1sci_unlock_conditions i).
Definition decode_v1_siacoin_input : dec v1_siacoin_input :=
  parent_id <- decode_hash ;; unlock_conditions <- decode_unlock_conditions ;;
  DRet (MkV1Sci parent_id unlock_conditions).

(** ** SiafundInput — v1.rs:167-174 *)
Record v1_siafund_input : Type :=
  MkV1Sfi { v1sfi_parent_id : hash256; v1sfi_unlock_conditions : unlock_conditions;
            v1sfi_claim_address : hash256 }.

Definition encode_v1_siafund_input (i : v1_siafund_input) : wprog :=
  encode_hash (v1sfi_parent_id i) ++ encode_unlock_conditions (v1sfi_unlock_conditions i) ++
  encode_hash (v1sfi_claim_address i).
Definition decode_v1_siafund_input : dec v1_siafund_input :=
  parent_id <- decode_hash ;; unlock_conditions <- decode_unlock_conditions ;;
  claim_address <- decode_hash ;;
  DRet (MkV1Sfi parent_id unlock_conditions claim_address).

(** ** FileContract — v1.rs:176-189 *)
Record v1_file_contract : Type := MkV1Fc {
  v1fc_file_size : u64;
  v1fc_file_merkle_root : hash256;
  v1fc_window_start : u64;
  v1fc_window_end : u64;
  v1fc_payout : currency;
  v1fc_valid_proof_outputs : vec 48 siacoin_output;
  v1fc_missed_proof_outputs : vec 48 siacoin_output;
  v1fc_unlock_hash : hash256;
  v1fc_revision_number : u64 }.

Definition encode_v1_file_contract (c : v1_file_contract) : wprog :=
  encode_u64 (v1fc_file_size c) ++
  encode_hash (v1fc_file_merkle_root c) ++
  encode_u64 (v1fc_window_start c) ++
  encode_u64 (v1fc_window_end c) ++
  encode_v1_currency (v1fc_payout c) ++
  encode_vec encode_v1_siacoin_output (v1fc_valid_proof_outputs c) ++
  encode_vec encode_v1_siacoin_output (v1fc_missed_proof_outputs c) ++
  encode_hash (v1fc_unlock_hash c) ++
  encode_u64 (v1fc_revision_number c).
Definition decode_v1_file_contract : dec v1_file_contract :=
  file_size <- decode_u64 ;;
  file_merkle_root <- decode_hash ;;
  window_start <- decode_u64 ;;
  window_end <- decode_u64 ;;
  payout <- decode_v1_currency ;;
  valid_proof_outputs <- decode_vec 48 decode_v1_siacoin_output ;;
  missed_proof_outputs <- decode_vec 48 decode_v1_siacoin_output ;;
  unlock_hash <- decode_hash ;;
  revision_number <- decode_u64 ;;
  DRet (MkV1Fc file_size file_merkle_root window_start window_end payout
               valid_proof_outputs missed_proof_outputs unlock_hash revision_number).

(** ** FileContractRevision — v1.rs:204-219 *)
Record v1_file_contract_revision : Type := MkV1Fcr {
  v1fcr_parent_id : hash256;
  v1fcr_unlock_conditions : unlock_conditions;
  v1fcr_revision_number : u64;
  v1fcr_file_size : u64;
  v1fcr_file_merkle_root : hash256;
  v1fcr_window_start : u64;
  v1fcr_window_end : u64;
  v1fcr_valid_proof_outputs : vec 48 siacoin_output;
  v1fcr_missed_proof_outputs : vec 48 siacoin_output;
  v1fcr_unlock_hash : hash256 }.

Definition encode_v1_file_contract_revision (c : v1_file_contract_revision) : wprog :=
  encode_hash (v1fcr_parent_id c) ++
  encode_unlock_conditions (v1fcr_unlock_conditions c) ++
  encode_u64 (v1fcr_revision_number c) ++
  encode_u64 (v1fcr_file_size c) ++
  encode_hash (v1fcr_file_merkle_root c) ++
  encode_u64 (v1fcr_window_start c) ++
  encode_u64 (v1fcr_window_end c) ++
  encode_vec encode_v1_siacoin_output (v1fcr_valid_proof_outputs c) ++
  encode_vec encode_v1_siacoin_output (v1fcr_missed_proof_outputs c) ++
  encode_hash (v1fcr_unlock_hash c).
Definition decode_v1_file_contract_revision : dec v1_file_contract_revision :=
  parent_id <- decode_hash ;;
  unlock_conditions <- decode_unlock_conditions ;;
  revision_number <- decode_u64 ;;
  file_size <- decode_u64 ;;
  file_merkle_root <- decode_hash ;;
  window_start <- decode_u64 ;;
  window_end <- decode_u64 ;;
  valid_proof_outputs <- decode_vec 48 decode_v1_siacoin_output ;;
  missed_proof_outputs <- decode_vec 48 decode_v1_siacoin_output ;;
  unlock_hash <- decode_hash ;;
  DRet (MkV1Fcr parent_id unlock_conditions revision_number file_size file_merkle_root
                window_start window_end valid_proof_outputs missed_proof_outputs unlock_hash).

(** ** StorageProof — v1.rs:221-228 *)
Record v1_storage_proof : Type :=
  MkV1Sp { v1sp_parent_id : hash256; v1sp_leaf : leaf; v1sp_proof : vec 32 hash256 }.

Definition encode_v1_storage_proof (p : v1_storage_proof) : wprog :=
  encode_hash (v1sp_parent_id p) ++ encode_leaf (v1sp_leaf p) ++
  encode_vec encode_hash (v1sp_proof p).
Definition decode_v1_storage_proof : dec v1_storage_proof :=
  parent_id <- decode_hash ;; leaf <- decode_leaf ;; proof <- decode_vec 32 decode_hash ;;
  DRet (MkV1Sp parent_id leaf proof).

(** ** CoveredFields — v1.rs:230-254 *)
Record covered_fields : Type := MkCf {
  cf_whole_transaction : bool;
  cf_siacoin_inputs : vec 8 usize;
  cf_siacoin_outputs : vec 8 usize;
  cf_file_contracts : vec 8 usize;
  cf_file_contract_revisions : vec 8 usize;
  cf_storage_proofs : vec 8 usize;
  cf_siafund_inputs : vec 8 usize;
  cf_siafund_outputs : vec 8 usize;
  cf_miner_fees : vec 8 usize;
  cf_arbitrary_data : vec 8 usize;
  cf_signatures : vec 8 usize }.

Definition encode_covered_fields (c : covered_fields) : wprog :=
  encode_bool (cf_whole_transaction c) ++
  encode_vec encode_usize (cf_siacoin_inputs c) ++
  encode_vec encode_usize (cf_siacoin_outputs c) ++
  encode_vec encode_usize (cf_file_contracts c) ++
  encode_vec encode_usize (cf_file_contract_revisions c) ++
  encode_vec encode_usize (cf_storage_proofs c) ++
  encode_vec encode_usize (cf_siafund_inputs c) ++
  encode_vec encode_usize (cf_siafund_outputs c) ++
  encode_vec encode_usize (cf_miner_fees c) ++
  encode_vec encode_usize (cf_arbitrary_data c) ++
  encode_vec encode_usize (cf_signatures c).
Definition decode_covered_fields : dec covered_fields :=
  whole_transaction <- decode_bool ;;
  siacoin_inputs <- decode_vec 8 decode_usize ;;
  siacoin_outputs <- decode_vec 8 decode_usize ;;
  file_contracts <- decode_vec 8 decode_usize ;;
  file_contract_revisions <- decode_vec 8 decode_usize ;;
  storage_proofs <- decode_vec 8 decode_usize ;;
  siafund_inputs <- decode_vec 8 decode_usize ;;
  siafund_outputs <- decode_vec 8 decode_usize ;;
  miner_fees <- decode_vec 8 decode_usize ;;
  arbitrary_data <- decode_vec 8 decode_usize ;;
  signatures <- decode_vec 8 decode_usize ;;
  DRet (MkCf whole_transaction siacoin_inputs siacoin_outputs file_contracts
             file_contract_revisions storage_proofs siafund_inputs siafund_outputs
             miner_fees arbitrary_data signatures).

(** ** TransactionSignature — v1.rs:265-275 *)
Record transaction_signature : Type := MkTs {
  ts_parent_id : hash256;
  ts_public_key_index : u64;
  ts_timelock : u64;
  ts_covered_fields : covered_fields;
  ts_signature : vec 1 u8 }.

Definition encode_transaction_signature (s : transaction_signature) : wprog :=
  encode_hash (ts_parent_id s) ++
  encode_u64 (ts_public_key_index s) ++
  encode_u64 (ts_timelock s) ++
  encode_covered_fields (ts_covered_fields s) ++
  encode_vec encode_u8 (ts_signature s).
Definition decode_transaction_signature : dec transaction_signature :=
  parent_id <- decode_hash ;;
  public_key_index <- decode_u64 ;;
  timelock <- decode_u64 ;;
  covered_fields <- decode_covered_fields ;;
  signature <- decode_vec 1 decode_u8 ;;
  DRet (MkTs parent_id public_key_index timelock covered_fields signature).

(** ** Transaction — v1.rs:277-304 *)
Record v1_transaction : Type := MkV1Txn {
  v1t_siacoin_inputs : vec 72 v1_siacoin_input;
  v1t_siacoin_outputs : vec 48 siacoin_output;
  v1t_file_contracts : vec 160 v1_file_contract;
  v1t_file_contract_revisions : vec 216 v1_file_contract_revision;
  v1t_storage_proofs : vec 120 v1_storage_proof;
  v1t_siafund_inputs : vec 104 v1_siafund_input;
  v1t_siafund_outputs : vec 40 siafund_output;
  v1t_miner_fees : vec 16 currency;
  v1t_arbitrary_data : vec 24 (vec 1 u8);
  v1t_signatures : vec 320 transaction_signature }.

(** v1.rs:307-317 *)
Definition encode_no_sigs (t : v1_transaction) : wprog :=
  encode_vec encode_v1_siacoin_input (v1t_siacoin_inputs t) ++
  encode_vec encode_v1_siacoin_output (v1t_siacoin_outputs t) ++
  encode_vec encode_v1_file_contract (v1t_file_contracts t) ++
  encode_vec encode_v1_file_contract_revision (v1t_file_contract_revisions t) ++
  encode_vec encode_v1_storage_proof (v1t_storage_proofs t) ++
  encode_vec encode_v1_siafund_input (v1t_siafund_inputs t) ++
  encode_vec encode_v1_siafund_output (v1t_siafund_outputs t) ++
  encode_vec encode_v1_currency (v1t_miner_fees t) ++
  encode_vec (encode_vec encode_u8) (v1t_arbitrary_data t).

(** v1.rs:277 (derived) *)
Definition encode_v1_transaction (t : v1_transaction) : wprog :=
  encode_vec encode_v1_siacoin_input (v1t_siacoin_inputs t) ++
  encode_vec encode_v1_siacoin_output (v1t_siacoin_outputs t) ++
  encode_vec encode_v1_file_contract (v1t_file_contracts t) ++
  encode_vec encode_v1_file_contract_revision (v1t_file_contract_revisions t) ++
  encode_vec encode_v1_storage_proof (v1t_storage_proofs t) ++
  encode_vec encode_v1_siafund_input (v1t_siafund_inputs t) ++
  encode_vec encode_v1_siafund_output (v1t_siafund_outputs t) ++
  encode_vec encode_v1_currency (v1t_miner_fees t) ++
  encode_vec (encode_vec encode_u8) (v1t_arbitrary_data t) ++
  encode_vec encode_transaction_signature (v1t_signatures t).

(** v1.rs:277 (derived) *)
Definition decode_v1_transaction : dec v1_transaction :=
  siacoin_inputs <- decode_vec 72 decode_v1_siacoin_input ;;
  siacoin_outputs <- decode_vec 48 decode_v1_siacoin_output ;;
  file_contracts <- decode_vec 160 decode_v1_file_contract ;;
  file_contract_revisions <- decode_vec 216 decode_v1_file_contract_revision ;;
  storage_proofs <- decode_vec 120 decode_v1_storage_proof ;;
  siafund_inputs <- decode_vec 104 decode_v1_siafund_input ;;
  siafund_outputs <- decode_vec 40 decode_v1_siafund_output ;;
  miner_fees <- decode_vec 16 decode_v1_currency ;;
  arbitrary_data <- decode_vec 24 (decode_vec 1 decode_u8) ;;
  signatures <- decode_vec 320 decode_transaction_signature ;;
  DRet (MkV1Txn siacoin_inputs siacoin_outputs file_contracts file_contract_revisions
                storage_proofs siafund_inputs siafund_outputs miner_fees arbitrary_data
                signatures).

(** ** Block — common.rs:168-200 *)
Record block : Type := MkBlock {
  bl_parent_id : hash256;
  bl_nonce : u64;
  bl_timestamp : odt;
  bl_miner_payouts : vec 48 siacoin_output;
  bl_transactions : vec 240 v1_transaction }.

(** common.rs:180-188 *)
Definition encode_block (b : block) : wprog :=
  encode_hash (bl_parent_id b) ++
  encode_u64 (bl_nonce b) ++
  encode_odt (bl_timestamp b) ++
  encode_vec encode_v1_siacoin_output (bl_miner_payouts b) ++
  encode_vec encode_v1_transaction (bl_transactions b).

(** common.rs:190-200 *)
Definition decode_block : dec block :=
  parent_id <- decode_hash ;;
  nonce <- decode_u64 ;;
  timestamp <- decode_odt ;;
  miner_payouts <- decode_vec 48 decode_v1_siacoin_output ;;
  transactions <- decode_vec 240 decode_v1_transaction ;;
  DRet (MkBlock parent_id nonce timestamp miner_payouts transactions).
