(** Specification: the JSON document that stands for a value, type by type. A form is a predicate
    on documents. The forms do not use the serialisers of the model. *)

From Coq Require Import DecimalString.
From Verif Require Import Base Blake2b SpecText SpecBase64 SpecFormat SpecJson Model_encoding Model_common
  Model_v1 Model_policy Model_v2 Model_consensus Model_json.
Local Open Scope N_scope.

Definition form : Type := json -> Prop.

(** ** Texts *)

(** Two lower-case digits per byte. *)
Definition hex (l : bytes) : bytes :=
  flat_map (fun b => [nth (N.to_nat (b2n b / 16)) hex_digits_lower x00;
                      nth (N.to_nat (b2n b mod 16)) hex_digits_lower x00]) l.

(** The standard library's decimal text of a number. *)
Definition decimal (n : N) : bytes := ascii (NilZero.string_of_uint (N.to_uint n)).

(** ** Timestamps (RFC 3339, in UTC) *)

Local Open Scope Z_scope.

Definition is_leap (y : Z) : Prop := y mod 4 = 0 /\ (y mod 100 <> 0 \/ y mod 400 = 0).

(** [DaysIn y m n]: month [m] of year [y] has [n] days. *)
Definition DaysIn (y m n : Z) : Prop :=
  (In m [1; 3; 5; 7; 8; 10; 12] /\ n = 31) \/ (In m [4; 6; 9; 11] /\ n = 30) \/
  (m = 2 /\ is_leap y /\ n = 29) \/ (m = 2 /\ ~ is_leap y /\ n = 28).

(** [Day y m d k]: the date is day [k], where 1970-01-01 is day 0: the days are counted forwards
    and backwards. *)
Inductive Day : Z -> Z -> Z -> Z -> Prop :=
| day_epoch : Day 1970 1 1 0
| day_next : forall y m d k n, Day y m d k -> DaysIn y m n -> d < n -> Day y m (d + 1) (k + 1)
| day_next_month : forall y m d k, Day y m d k -> DaysIn y m d -> m < 12 -> Day y (m + 1) 1 (k + 1)
| day_next_year : forall y k, Day y 12 31 k -> Day (y + 1) 1 1 (k + 1)
| day_back : forall y m d k, Day y m d k -> 1 < d -> Day y m (d - 1) (k - 1)
| day_back_month : forall y m k n, Day y m 1 k -> 1 < m -> DaysIn y (m - 1) n ->
    Day y (m - 1) n (k - 1)
| day_back_year : forall y k, Day y 1 1 k -> Day (y - 1) 12 31 (k - 1).

Local Open Scope N_scope.

(** [k] decimal digits that denote [n] *)
Definition Padded (k : nat) (n : N) (s : bytes) : Prop :=
  length s = k /\ Forall digit s /\ dec_value s = n.

(** the fraction of a second: empty, or a point and at most nine digits, the last of them not zero *)
Definition Fraction (nanos : N) (s : bytes) : Prop :=
  (nanos = 0 /\ s = []) \/
  (exists f, s = "."%byte :: f /\ Forall digit f /\ (1 <= length f <= 9)%nat /\
     dec_value f * 10 ^ N.of_nat (9 - length f) = nanos /\ forall r, f <> r ++ ["0"%byte]).

Definition Rfc3339 (t : odt) (s : bytes) : Prop :=
  exists y m d day h mi sec sy sm sd sh smi ss sf,
    Day (Z.of_N y) (Z.of_N m) (Z.of_N d) day /\ h < 24 /\ mi < 60 /\ sec < 60 /\
    odt_secs t = (86400 * day + Z.of_N (3600 * h + 60 * mi + sec))%Z /\
    Padded 4 y sy /\ Padded 2 m sm /\ Padded 2 d sd /\ Padded 2 h sh /\ Padded 2 mi smi /\
    Padded 2 sec ss /\ Fraction (odt_nanos t) sf /\
    s = sy ++ ascii "-" ++ sm ++ ascii "-" ++ sd ++ ascii "T" ++ sh ++ ascii ":" ++ smi ++
        ascii ":" ++ ss ++ sf ++ ascii "Z".

(** ** Simple forms *)

Definition is_number (n : N) : form := fun j => exists u, j = JUint u /\ uval u = n.
Definition is_bool (b : bool) : form := fun j => j = JBool b.
Definition is_text (s : bytes) : form := fun j => j = JStr s.
Definition is_base64 (l : bytes) : form := fun j => exists s, j = JStr s /\ Base64Text s l.
Definition is_time (t : odt) : form := fun j => exists s, j = JStr s /\ Rfc3339 t s.
(** a signed number, modulo 2^64 *)
Definition is_wrapped (z : Z) : form := fun j => exists u, j = JUint u /\ Z.of_N (uval u) = (z mod 2 ^ 64)%Z.

Definition is_hash (h : hash256) : form := is_text (hex (aval h)).
Definition is_address (a : hash256) : form :=
  is_text (hex (aval a ++ firstn 6 (blake2b_256 (aval a)))).
Definition is_public_key (k : hash256) : form := is_text (ascii "ed25519:" ++ hex (aval k)).
Definition is_signature (s : signature) : form := is_text (hex (aval s)).
Definition is_leaf (l : leaf) : form := is_text (hex (aval l)).
Definition is_currency (c : currency) : form := is_text (decimal (uval c)).
Definition is_work (w : work) : form := is_text (decimal (uval w)).
Definition is_u64 (n : u64) : form := is_number (uval n).
Definition is_string (s : rstring) : form := is_text (vlist (sbytes s)).
Definition is_duration (d : duration) : form := is_wrapped (dur_ns d).

(** the algorithm without its trailing zeros, a colon, the key *)
Definition is_unlock_key (k : unlock_key) : form := fun j => exists t n,
  aval (uk_algorithm k) = t ++ repeat x00 n /\ no_trailing_zero t /\
  j = JStr (t ++ ascii ":" ++ hex (vlist (uk_key k))).

(** ** Lists and objects *)

Definition is_list {A} (f : A -> form) (l : list A) : form := fun j =>
  exists js, j = JArr js /\ Forall2 f l js.
Definition is_vec {sz A} (f : A -> form) (v : vec sz A) : form := is_list f (vlist v).

(** An object with exactly these entries, in this order. *)
Definition entry : Type := string * form.
Definition is_object (es : list entry) : form := fun j =>
  exists l, j = JObj l /\ Forall2 (fun (e : entry) x => fst x = ascii (fst e) /\ snd e (snd x)) es l.

(** An entry; an entry left out when the list is empty; an entry left out when there is no value. *)
Definition req (k : string) (f : form) : list entry := [(k, f)].
Definition some {sz A} (k : string) (f : vec sz A -> form) (v : vec sz A) : list entry :=
  match vlist v with [] => [] | _ => [(k, f v)] end.
Definition maybe {A} (k : string) (f : A -> form) (o : option A) : list entry :=
  match o with None => [] | Some a => [(k, f a)] end.

(** Up to the order of the entries of objects. *)
Definition up_to_order (f : form) : form := fun j => exists j0, f j0 /\ Reordered j0 j.

(** ** Common types *)

Definition is_chain_index (x : chain_index) : form :=
  is_object (req "height" (is_u64 (ci_height x)) ++ req "id" (is_hash (ci_id x))).

Definition is_siacoin_output (x : siacoin_output) : form :=
  is_object (req "value" (is_currency (sco_value x)) ++ req "address" (is_address (sco_address x))).

Definition is_siafund_output (x : siafund_output) : form :=
  is_object (req "value" (is_u64 (sfo_value x)) ++ req "address" (is_address (sfo_address x))).

Definition is_state_element (x : state_element) : form :=
  is_object (req "leafIndex" (is_u64 (se_leaf_index x)) ++
             req "merkleProof" (is_vec is_hash (se_merkle_proof x))).

(** ** Version 1 *)

Definition is_unlock_conditions (x : unlock_conditions) : form :=
  is_object (req "timelock" (is_u64 (uc_timelock x)) ++
             req "publicKeys" (is_vec is_unlock_key (uc_public_keys x)) ++
             req "signaturesRequired" (is_u64 (uc_signatures_required x))).

Definition is_v1_siacoin_input (x : v1_siacoin_input) : form :=
  is_object (req "parentID" (is_hash (v1sci_parent_id x)) ++
             req "unlockConditions" (is_unlock_conditions (v1sci_unlock_conditions x))).

Definition is_v1_siafund_input (x : v1_siafund_input) : form :=
  is_object (req "parentID" (is_hash (v1sfi_parent_id x)) ++
             req "unlockConditions" (is_unlock_conditions (v1sfi_unlock_conditions x)) ++
             req "claimAddress" (is_address (v1sfi_claim_address x))).

Definition is_v1_contract (x : v1_file_contract) : form :=
  is_object (req "filesize" (is_u64 (v1fc_file_size x)) ++
             req "fileMerkleRoot" (is_hash (v1fc_file_merkle_root x)) ++
             req "windowStart" (is_u64 (v1fc_window_start x)) ++
             req "windowEnd" (is_u64 (v1fc_window_end x)) ++
             req "payout" (is_currency (v1fc_payout x)) ++
             req "validProofOutputs" (is_vec is_siacoin_output (v1fc_valid_proof_outputs x)) ++
             req "missedProofOutputs" (is_vec is_siacoin_output (v1fc_missed_proof_outputs x)) ++
             req "unlockHash" (is_address (v1fc_unlock_hash x)) ++
             req "revisionNumber" (is_u64 (v1fc_revision_number x))).

Definition is_v1_revision (x : v1_file_contract_revision) : form :=
  is_object (req "parentID" (is_hash (v1fcr_parent_id x)) ++
             req "unlockConditions" (is_unlock_conditions (v1fcr_unlock_conditions x)) ++
             req "revisionNumber" (is_u64 (v1fcr_revision_number x)) ++
             req "filesize" (is_u64 (v1fcr_file_size x)) ++
             req "fileMerkleRoot" (is_hash (v1fcr_file_merkle_root x)) ++
             req "windowStart" (is_u64 (v1fcr_window_start x)) ++
             req "windowEnd" (is_u64 (v1fcr_window_end x)) ++
             req "validProofOutputs" (is_vec is_siacoin_output (v1fcr_valid_proof_outputs x)) ++
             req "missedProofOutputs" (is_vec is_siacoin_output (v1fcr_missed_proof_outputs x)) ++
             req "unlockHash" (is_address (v1fcr_unlock_hash x))).

Definition is_v1_storage_proof (x : v1_storage_proof) : form :=
  is_object (req "parentID" (is_hash (v1sp_parent_id x)) ++
             req "leaf" (is_leaf (v1sp_leaf x)) ++
             req "proof" (is_vec is_hash (v1sp_proof x))).

Definition is_indices (v : vec 8 usize) : form := is_vec is_u64 v.
Definition is_covered_fields (x : covered_fields) : form :=
  is_object (req "wholeTransaction" (is_bool (cf_whole_transaction x)) ++
             some "siacoinInputs" is_indices (cf_siacoin_inputs x) ++
             some "siacoinOutputs" is_indices (cf_siacoin_outputs x) ++
             some "fileContracts" is_indices (cf_file_contracts x) ++
             some "fileContractRevisions" is_indices (cf_file_contract_revisions x) ++
             some "storageProofs" is_indices (cf_storage_proofs x) ++
             some "siafundInputs" is_indices (cf_siafund_inputs x) ++
             some "siafundOutputs" is_indices (cf_siafund_outputs x) ++
             some "minerFees" is_indices (cf_miner_fees x) ++
             some "arbitraryData" is_indices (cf_arbitrary_data x) ++
             some "signatures" is_indices (cf_signatures x)).

Definition is_payload {sz} (v : vec sz u8) : form := is_base64 (vlist v).

Definition is_v1_signature (x : transaction_signature) : form :=
  is_object (req "parentID" (is_hash (ts_parent_id x)) ++
             req "publicKeyIndex" (is_u64 (ts_public_key_index x)) ++
             req "timelock" (is_u64 (ts_timelock x)) ++
             req "coveredFields" (is_covered_fields (ts_covered_fields x)) ++
             req "signature" (is_payload (ts_signature x))).

Definition is_v1_transaction (x : v1_transaction) : form :=
  is_object (some "siacoinInputs" (is_vec is_v1_siacoin_input) (v1t_siacoin_inputs x) ++
             some "siacoinOutputs" (is_vec is_siacoin_output) (v1t_siacoin_outputs x) ++
             some "fileContracts" (is_vec is_v1_contract) (v1t_file_contracts x) ++
             some "fileContractRevisions" (is_vec is_v1_revision) (v1t_file_contract_revisions x) ++
             some "storageProofs" (is_vec is_v1_storage_proof) (v1t_storage_proofs x) ++
             some "siafundInputs" (is_vec is_v1_siafund_input) (v1t_siafund_inputs x) ++
             some "siafundOutputs" (is_vec is_siafund_output) (v1t_siafund_outputs x) ++
             some "minerFees" (is_vec is_currency) (v1t_miner_fees x) ++
             some "arbitraryData" (is_vec is_payload) (v1t_arbitrary_data x) ++
             some "signatures" (is_vec is_v1_signature) (v1t_signatures x)).

Definition is_block (x : block) : form :=
  is_object (req "parentID" (is_hash (bl_parent_id x)) ++
             req "nonce" (is_u64 (bl_nonce x)) ++
             req "timestamp" (is_time (bl_timestamp x)) ++
             req "minerPayouts" (is_vec is_siacoin_output (bl_miner_payouts x)) ++
             req "transactions" (is_vec is_v1_transaction (bl_transactions x))).

(** ** Spend policies *)

Fixpoint is_policy (x : policy) : form :=
  let tagged t f := is_object (req "type" (is_text (ascii t)) ++ req "policy" f) in
  match x with
  | PAbove height => tagged "above"%string (is_u64 height)
  | PAfter time => tagged "after"%string (is_wrapped (odt_secs time))
  | PPublicKey k => tagged "pk"%string (is_public_key k)
  | PHash h => tagged "h"%string (is_hash h)
  | PThreshold n of =>
    tagged "thresh"%string (up_to_order (is_object (req "n" (is_number (b2n n)) ++ req "of" (fun j =>
      exists js, j = JArr js /\
        (fix all (l : list policy) (m : list json) : Prop :=
           match l, m with
           | [], [] => True
           | x :: l', j :: m' => is_policy x j /\ all l' m'
           | _, _ => False
           end) of js))))
  | POpaque a => tagged "opaque"%string (is_address a)
  | PUnlockConditions u => tagged "uc"%string (is_unlock_conditions u)
  end.

Definition is_satisfied_policy (x : satisfied_policy) : form :=
  is_object (req "policy" (is_policy (sp_policy x)) ++
             some "signatures" (is_vec is_signature) (sp_signatures x) ++
             some "preimages" (is_vec is_hash) (sp_preimages x)).

(** ** Version 2 *)

Definition is_attestation (x : attestation) : form :=
  is_object (req "publicKey" (is_public_key (att_public_key x)) ++
             req "key" (is_string (att_key x)) ++
             req "value" (is_payload (att_value x)) ++
             req "signature" (is_signature (att_signature x))).

Definition is_v2_contract (x : v2_file_contract) : form :=
  is_object (req "capacity" (is_u64 (v2fc_capacity x)) ++
             req "filesize" (is_u64 (v2fc_filesize x)) ++
             req "fileMerkleRoot" (is_hash (v2fc_file_merkle_root x)) ++
             req "proofHeight" (is_u64 (v2fc_proof_height x)) ++
             req "expirationHeight" (is_u64 (v2fc_expiration_height x)) ++
             req "renterOutput" (is_siacoin_output (v2fc_renter_output x)) ++
             req "hostOutput" (is_siacoin_output (v2fc_host_output x)) ++
             req "missedHostValue" (is_currency (v2fc_missed_host_value x)) ++
             req "totalCollateral" (is_currency (v2fc_total_collateral x)) ++
             req "renterPublicKey" (is_public_key (v2fc_renter_public_key x)) ++
             req "hostPublicKey" (is_public_key (v2fc_host_public_key x)) ++
             req "revisionNumber" (is_u64 (v2fc_revision_number x)) ++
             req "renterSignature" (is_signature (v2fc_renter_signature x)) ++
             req "hostSignature" (is_signature (v2fc_host_signature x))).

Definition is_siacoin_element (x : siacoin_element) : form :=
  is_object (req "stateElement" (is_state_element (sce_state_element x)) ++
             req "id" (is_hash (sce_id x)) ++
             req "siacoinOutput" (is_siacoin_output (sce_siacoin_output x)) ++
             req "maturityHeight" (is_u64 (sce_maturity_height x))).

Definition is_siafund_element (x : siafund_element) : form :=
  is_object (req "stateElement" (is_state_element (sfe_state_element x)) ++
             req "id" (is_hash (sfe_id x)) ++
             req "siafundOutput" (is_siafund_output (sfe_siafund_output x)) ++
             req "claimStart" (is_currency (sfe_claim_start x))).

Definition is_contract_element (x : file_contract_element) : form :=
  is_object (req "stateElement" (is_state_element (fce_state_element x)) ++
             req "id" (is_hash (fce_id x)) ++
             req "v2FileContract" (is_v2_contract (fce_v2_file_contract x))).

Definition is_chain_index_element (x : chain_index_element) : form :=
  is_object (req "stateElement" (is_state_element (cie_state_element x)) ++
             req "id" (is_hash (cie_id x)) ++
             req "chainIndex" (is_chain_index (cie_chain_index x))).

Definition is_v2_siacoin_input (x : v2_siacoin_input) : form :=
  is_object (req "parent" (is_siacoin_element (v2sci_parent x)) ++
             req "satisfiedPolicy" (is_satisfied_policy (v2sci_satisfied_policy x))).

Definition is_v2_siafund_input (x : v2_siafund_input) : form :=
  is_object (req "parent" (is_siafund_element (v2sfi_parent x)) ++
             req "claimAddress" (is_address (v2sfi_claim_address x)) ++
             req "satisfiedPolicy" (is_satisfied_policy (v2sfi_satisfied_policy x))).

Definition is_v2_revision (x : v2_file_contract_revision) : form :=
  is_object (req "parent" (is_contract_element (v2fcr_parent x)) ++
             req "revision" (is_v2_contract (v2fcr_revision x))).

Definition is_renewal (x : file_contract_renewal) : form :=
  is_object (req "finalRevision" (is_v2_contract (ren_final_revision x)) ++
             req "newContract" (is_v2_contract (ren_new_contract x)) ++
             req "renterRollover" (is_currency (ren_renter_rollover x)) ++
             req "hostRollover" (is_currency (ren_host_rollover x)) ++
             req "renterSignature" (is_signature (ren_renter_signature x)) ++
             req "hostSignature" (is_signature (ren_host_signature x))).

Definition is_v2_storage_proof (x : v2_storage_proof) : form :=
  is_object (req "proofIndex" (is_chain_index_element (v2sp_proof_index x)) ++
             req "leaf" (is_leaf (v2sp_leaf x)) ++
             req "proof" (is_vec is_hash (v2sp_proof x))).

(** The resolution alone, and with the contract it resolves. *)
Definition is_resolution_alone (x : contract_resolution) : form :=
  match x with
  | ResRenewal r => is_object (req "renewal" (is_renewal r))
  | ResStorageProof r => is_object (req "storageProof" (is_v2_storage_proof r))
  | ResExpiration => is_object (req "expiration" (is_list (fun (_ : unit) _ => True) []))
  end.

Definition is_resolution (x : file_contract_resolution) : form :=
  is_object (req "parent" (is_contract_element (fcres_parent x)) ++
    match fcres_resolution x with
    | ResRenewal r => req "type" (is_text (ascii "renewal")) ++ req "resolution" (up_to_order (is_renewal r))
    | ResStorageProof r =>
      req "type" (is_text (ascii "storageProof")) ++ req "resolution" (up_to_order (is_v2_storage_proof r))
    | ResExpiration => req "type" (is_text (ascii "expiration")) ++ req "resolution" (is_object [])
    end).

Definition is_v2_transaction (x : v2_transaction) : form :=
  is_object (some "siacoinInputs" (is_vec is_v2_siacoin_input) (v2t_siacoin_inputs x) ++
             some "siacoinOutputs" (is_vec is_siacoin_output) (v2t_siacoin_outputs x) ++
             some "siafundInputs" (is_vec is_v2_siafund_input) (v2t_siafund_inputs x) ++
             some "siafundOutputs" (is_vec is_siafund_output) (v2t_siafund_outputs x) ++
             some "fileContracts" (is_vec is_v2_contract) (v2t_file_contracts x) ++
             some "fileContractRevisions" (is_vec is_v2_revision) (v2t_file_contract_revisions x) ++
             some "fileContractResolutions" (is_vec is_resolution) (v2t_file_contract_resolutions x) ++
             some "attestations" (is_vec is_attestation) (v2t_attestations x) ++
             some "arbitraryData" is_payload (v2t_arbitrary_data x) ++
             maybe "newFoundationAddress" is_address (v2t_new_foundation_address x) ++
             req "minerFee" (is_currency (v2t_miner_fee x))).

(** ** Consensus *)

(** The roots at the heights of the set bits of the number of leaves. *)
Definition is_accumulator (x : element_accumulator) : form :=
  is_object (req "numLeaves" (is_u64 (ea_num_leaves x)) ++
             req "trees" (is_list is_hash (present (uval (ea_num_leaves x)) (flist (ea_trees x))))).

Definition is_hardfork_dev_addr (x : hardfork_dev_addr) : form :=
  is_object (req "height" (is_u64 (hfda_height x)) ++
             req "oldAddress" (is_address (hfda_old_address x)) ++
             req "newAddress" (is_address (hfda_new_address x))).

Definition is_hardfork_tax (x : hardfork_tax) : form :=
  is_object (req "height" (is_u64 (hft_height x))).

Definition is_hardfork_storage_proof (x : hardfork_storage_proof) : form :=
  is_object (req "height" (is_u64 (hfsp_height x))).

Definition is_hardfork_oak (x : hardfork_oak) : form :=
  is_object (req "height" (is_u64 (hfo_height x)) ++
             req "fixHeight" (is_u64 (hfo_fix_height x)) ++
             req "genesisTimestamp" (is_time (hfo_genesis_timestamp x))).

Definition is_hardfork_asic (x : hardfork_asic) : form :=
  is_object (req "height" (is_u64 (hfa_height x)) ++
             req "oakTime" (is_duration (hfa_oak_time x)) ++
             req "oakTarget" (is_hash (hfa_oak_target x))).

Definition is_hardfork_foundation (x : hardfork_foundation) : form :=
  is_object (req "height" (is_u64 (hff_height x)) ++
             req "primaryAddress" (is_address (hff_primary_address x)) ++
             req "failsafeAddress" (is_address (hff_failsafe_address x))).

Definition is_hardfork_v2 (x : hardfork_v2) : form :=
  is_object (req "allowHeight" (is_u64 (hfv2_allow_height x)) ++
             req "requireHeight" (is_u64 (hfv2_require_height x))).

Definition is_network (x : network) : form :=
  is_object (req "name" (is_string (net_name x)) ++
             req "initialCoinbase" (is_currency (net_initial_coinbase x)) ++
             req "minimumCoinbase" (is_currency (net_minimum_coinbase x)) ++
             req "initialTarget" (is_hash (net_initial_target x)) ++
             req "blockInterval" (is_duration (net_block_interval x)) ++
             req "maturityDelay" (is_u64 (net_maturity_delay x)) ++
             req "hardforkDevAddr" (is_hardfork_dev_addr (net_hardfork_dev_addr x)) ++
             req "hardforkTax" (is_hardfork_tax (net_hardfork_tax x)) ++
             req "hardforkStorageProof" (is_hardfork_storage_proof (net_hardfork_storage_proof x)) ++
             req "hardforkOak" (is_hardfork_oak (net_hardfork_oak x)) ++
             req "hardforkASIC" (is_hardfork_asic (net_hardfork_asic x)) ++
             req "hardforkFoundation" (is_hardfork_foundation (net_hardfork_foundation x)) ++
             req "hardforkV2" (is_hardfork_v2 (net_hardfork_v2 x))).

Definition is_timestamps (a : farr 11 odt) : form := is_list is_time (flist a).

Definition is_state (x : state) : form :=
  is_object (req "index" (is_chain_index (st_index x)) ++
             req "prevTimestamps" (is_timestamps (st_prev_timestamps x)) ++
             req "depth" (is_hash (st_depth x)) ++
             req "childTarget" (is_hash (st_child_target x)) ++
             req "siafundPool" (is_currency (st_siafund_pool x)) ++
             req "oakTime" (is_duration (st_oak_time x)) ++
             req "oakTarget" (is_hash (st_oak_target x)) ++
             req "foundationPrimaryAddress" (is_address (st_foundation_primary_address x)) ++
             req "foundationFailsafeAddress" (is_address (st_foundation_failsafe_address x)) ++
             req "totalWork" (is_work (st_total_work x)) ++
             req "difficulty" (is_work (st_difficulty x)) ++
             req "oakWork" (is_work (st_oak_work x)) ++
             req "elements" (is_accumulator (st_elements x)) ++
             req "attestations" (is_u64 (st_attestations x))).

Definition is_chain_state (x : chain_state) : form :=
  is_object (req "network" (is_network (cs_network x)) ++ req "state" (is_state (cs_state x))).

(** a specifier alone is the list of its sixteen bytes *)
Definition is_specifier (s : specifier) : form := is_list (fun b => is_number (b2n b)) (aval s).
