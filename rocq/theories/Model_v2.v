(** Model of the structures of sia/src/types/v2.rs with their binary codecs and their
    "semantics" encodings (what identifiers and signature hashes cover). *)

From Verif Require Import Base Io Model_encoding Model_common Model_v1 Model_policy.
Local Open Scope N_scope.
Local Open Scope dec_scope.

(** ** Attestation — v2.rs:28-37 *)
Record attestation : Type := MkAtt {
  att_public_key : hash256;
  att_key : rstring;
  att_value : vec 1 u8;
  att_signature : signature }.

Definition encode_attestation (a : attestation) : wprog :=
  encode_hash (att_public_key a) ++
  encode_string (att_key a) ++
  encode_vec encode_u8 (att_value a) ++
  encode_signature (att_signature a).
Definition decode_attestation : dec attestation :=
  public_key <- decode_hash ;;
  key <- decode_string ;;
  value <- decode_vec 1 decode_u8 ;;
  signature <- decode_signature ;;
  DRet (MkAtt public_key key value signature).

(** [[0u8; 64]] *)
Definition zero_signature : signature := arr_of 64 (repeat x00 64).

(** v2.rs:40-45 *)
Definition att_encode_semantics (a : attestation) : wprog :=
  encode_hash (att_public_key a) ++
  encode_string (att_key a) ++
  encode_vec encode_u8 (att_value a) ++
  encode_signature zero_signature.

(** ** FileContract — v2.rs:60-78 *)
Record v2_file_contract : Type := MkV2Fc {
  v2fc_capacity : u64;
  v2fc_filesize : u64;
  v2fc_file_merkle_root : hash256;
  v2fc_proof_height : u64;
  v2fc_expiration_height : u64;
  v2fc_renter_output : siacoin_output;
  v2fc_host_output : siacoin_output;
  v2fc_missed_host_value : currency;
  v2fc_total_collateral : currency;
  v2fc_renter_public_key : hash256;
  v2fc_host_public_key : hash256;
  v2fc_revision_number : u64;
  v2fc_renter_signature : signature;
  v2fc_host_signature : signature }.

Definition encode_v2_file_contract (c : v2_file_contract) : wprog :=
  encode_u64 (v2fc_capacity c) ++
  encode_u64 (v2fc_filesize c) ++
  encode_hash (v2fc_file_merkle_root c) ++
  encode_u64 (v2fc_proof_height c) ++
  encode_u64 (v2fc_expiration_height c) ++
  encode_siacoin_output (v2fc_renter_output c) ++
  encode_siacoin_output (v2fc_host_output c) ++
  encode_currency (v2fc_missed_host_value c) ++
  encode_currency (v2fc_total_collateral c) ++
  encode_hash (v2fc_renter_public_key c) ++
  encode_hash (v2fc_host_public_key c) ++
  encode_u64 (v2fc_revision_number c) ++
  encode_signature (v2fc_renter_signature c) ++
  encode_signature (v2fc_host_signature c).
Definition decode_v2_file_contract : dec v2_file_contract :=
  capacity <- decode_u64 ;;
  filesize <- decode_u64 ;;
  file_merkle_root <- decode_hash ;;
  proof_height <- decode_u64 ;;
  expiration_height <- decode_u64 ;;
  renter_output <- decode_siacoin_output ;;
  host_output <- decode_siacoin_output ;;
  missed_host_value <- decode_currency ;;
  total_collateral <- decode_currency ;;
  renter_public_key <- decode_hash ;;
  host_public_key <- decode_hash ;;
  revision_number <- decode_u64 ;;
  renter_signature <- decode_signature ;;
  host_signature <- decode_signature ;;
  DRet (MkV2Fc capacity filesize file_merkle_root proof_height expiration_height
               renter_output host_output missed_host_value total_collateral
               renter_public_key host_public_key revision_number
               renter_signature host_signature).

(** v2.rs:86-102 *)
Definition fc_encode_semantics (c : v2_file_contract) : wprog :=
  encode_u64 (v2fc_capacity c) ++
  encode_u64 (v2fc_filesize c) ++
  encode_hash (v2fc_file_merkle_root c) ++
  encode_u64 (v2fc_proof_height c) ++
  encode_u64 (v2fc_expiration_height c) ++
  encode_siacoin_output (v2fc_renter_output c) ++
  encode_siacoin_output (v2fc_host_output c) ++
  encode_currency (v2fc_missed_host_value c) ++
  encode_currency (v2fc_total_collateral c) ++
  encode_hash (v2fc_renter_public_key c) ++
  encode_hash (v2fc_host_public_key c) ++
  encode_u64 (v2fc_revision_number c) ++
  encode_signature zero_signature ++
  encode_signature zero_signature.

(** ** SiacoinElement — v2.rs:114-121 *)
Record siacoin_element : Type := MkSce {
  sce_state_element : state_element;
  sce_id : hash256;
  sce_siacoin_output : siacoin_output;
  sce_maturity_height : u64 }.

Definition encode_siacoin_element (e : siacoin_element) : wprog :=
  encode_state_element (sce_state_element e) ++ encode_hash (sce_id e) ++
  encode_siacoin_output (sce_siacoin_output e) ++ encode_u64 (sce_maturity_height e).
Definition decode_siacoin_element : dec siacoin_element :=
  state_element <- decode_state_element ;; id <- decode_hash ;;
  siacoin_output <- decode_siacoin_output ;; maturity_height <- decode_u64 ;;
  DRet (MkSce state_element id siacoin_output maturity_height).

(** ** SiafundElement — v2.rs:124-131 *)
Record siafund_element : Type := MkSfe {
  sfe_state_element : state_element;
  sfe_id : hash256;
  sfe_siafund_output : siafund_output;
  sfe_claim_start : currency }.

Definition encode_siafund_element (e : siafund_element) : wprog :=
  encode_state_element (sfe_state_element e) ++ encode_hash (sfe_id e) ++
  encode_siafund_output (sfe_siafund_output e) ++ encode_currency (sfe_claim_start e).
Definition decode_siafund_element : dec siafund_element :=
  state_element <- decode_state_element ;; id <- decode_hash ;;
  siafund_output <- decode_siafund_output ;; claim_start <- decode_currency ;;
  DRet (MkSfe state_element id siafund_output claim_start).

(** ** FileContractElement — v2.rs:135-141 *)
Record file_contract_element : Type := MkFce {
  fce_state_element : state_element;
  fce_id : hash256;
  fce_v2_file_contract : v2_file_contract }.

Definition encode_file_contract_element (e : file_contract_element) : wprog :=
  encode_state_element (fce_state_element e) ++ encode_hash (fce_id e) ++
  encode_v2_file_contract (fce_v2_file_contract e).
Definition decode_file_contract_element : dec file_contract_element :=
  state_element <- decode_state_element ;; id <- decode_hash ;;
  v2_file_contract <- decode_v2_file_contract ;;
  DRet (MkFce state_element id v2_file_contract).

(** ** ChainIndexElement — v2.rs:144-150 *)
Record chain_index_element : Type := MkCie {
  cie_state_element : state_element;
  cie_id : hash256;
  cie_chain_index : chain_index }.

Definition encode_chain_index_element (e : chain_index_element) : wprog :=
  encode_state_element (cie_state_element e) ++ encode_hash (cie_id e) ++
  encode_chain_index (cie_chain_index e).
Definition decode_chain_index_element : dec chain_index_element :=
  state_element <- decode_state_element ;; id <- decode_hash ;;
  chain_index <- decode_chain_index ;;
  DRet (MkCie state_element id chain_index).

(** v2.rs:152-160 *)
Definition cie_encode_semantics (e : chain_index_element) : wprog :=
  encode_u64 (se_leaf_index (cie_state_element e)) ++
  encode_slice encode_hash [] ++
  encode_hash (cie_id e) ++
  encode_chain_index (cie_chain_index e).

(** ** SiacoinInput — v2.rs:172-177 *)
Record v2_siacoin_input : Type := MkV2Sci {
  v2sci_parent : siacoin_element;
  v2sci_satisfied_policy : satisfied_policy }.

Definition encode_v2_siacoin_input (i : v2_siacoin_input) : wprog :=
  encode_siacoin_element (v2sci_parent i) ++
  encode_satisfied_policy (v2sci_satisfied_policy i).
Definition decode_v2_siacoin_input (stack : nat) : dec v2_siacoin_input :=
  parent <- decode_siacoin_element ;;
  satisfied_policy <- decode_satisfied_policy stack ;;
  DRet (MkV2Sci parent satisfied_policy).

(** ** SiafundInput — v2.rs:181-187 *)
Record v2_siafund_input : Type := MkV2Sfi {
  v2sfi_parent : siafund_element;
  v2sfi_claim_address : hash256;
  v2sfi_satisfied_policy : satisfied_policy }.

Definition encode_v2_siafund_input (i : v2_siafund_input) : wprog :=
  encode_siafund_element (v2sfi_parent i) ++
  encode_hash (v2sfi_claim_address i) ++
  encode_satisfied_policy (v2sfi_satisfied_policy i).
Definition decode_v2_siafund_input (stack : nat) : dec v2_siafund_input :=
  parent <- decode_siafund_element ;;
  claim_address <- decode_hash ;;
  satisfied_policy <- decode_satisfied_policy stack ;;
  DRet (MkV2Sfi parent claim_address satisfied_policy).

(** ** FileContractRevision — v2.rs:190-195 *)
Record v2_file_contract_revision : Type := MkV2Fcr {
  v2fcr_parent : file_contract_element;
  v2fcr_revision : v2_file_contract }.

Definition encode_v2_file_contract_revision (r : v2_file_contract_revision) : wprog :=
  encode_file_contract_element (v2fcr_parent r) ++ encode_v2_file_contract (v2fcr_revision r).
Definition decode_v2_file_contract_revision : dec v2_file_contract_revision :=
  parent <- decode_file_contract_element ;;
  revision <- decode_v2_file_contract ;;
  DRet (MkV2Fcr parent revision).

(** v2.rs:197-203 *)
Definition fcr_encode_semantics (r : v2_file_contract_revision) : wprog :=
  encode_hash (fce_id (v2fcr_parent r)) ++ fc_encode_semantics (v2fcr_revision r).

(** ** FileContractRenewal — v2.rs:207-218 *)
Record file_contract_renewal : Type := MkRen {
  ren_final_revision : v2_file_contract;
  ren_new_contract : v2_file_contract;
  ren_renter_rollover : currency;
  ren_host_rollover : currency;
  ren_renter_signature : signature;
  ren_host_signature : signature }.

Definition encode_file_contract_renewal (r : file_contract_renewal) : wprog :=
  encode_v2_file_contract (ren_final_revision r) ++
  encode_v2_file_contract (ren_new_contract r) ++
  encode_currency (ren_renter_rollover r) ++
  encode_currency (ren_host_rollover r) ++
  encode_signature (ren_renter_signature r) ++
  encode_signature (ren_host_signature r).
Definition decode_file_contract_renewal : dec file_contract_renewal :=
  final_revision <- decode_v2_file_contract ;;
  new_contract <- decode_v2_file_contract ;;
  renter_rollover <- decode_currency ;;
  host_rollover <- decode_currency ;;
  renter_signature <- decode_signature ;;
  host_signature <- decode_signature ;;
  DRet (MkRen final_revision new_contract renter_rollover host_rollover
              renter_signature host_signature).

(** v2.rs:220-229 *)
Definition ren_encode_semantics (r : file_contract_renewal) : wprog :=
  fc_encode_semantics (ren_final_revision r) ++
  fc_encode_semantics (ren_new_contract r) ++
  encode_currency (ren_renter_rollover r) ++
  encode_currency (ren_host_rollover r) ++
  encode_signature zero_signature ++
  encode_signature zero_signature.

(** ** StorageProof — v2.rs:242-257 *)
Record v2_storage_proof : Type := MkV2Sp {
  v2sp_proof_index : chain_index_element;
  v2sp_leaf : leaf;
  v2sp_proof : vec 32 hash256 }.

Definition encode_v2_storage_proof (p : v2_storage_proof) : wprog :=
  encode_chain_index_element (v2sp_proof_index p) ++ encode_leaf (v2sp_leaf p) ++
  encode_vec encode_hash (v2sp_proof p).
Definition decode_v2_storage_proof : dec v2_storage_proof :=
  proof_index <- decode_chain_index_element ;;
  leaf <- decode_leaf ;;
  proof <- decode_vec 32 decode_hash ;;
  DRet (MkV2Sp proof_index leaf proof).

(** v2.rs:259-266 *)
Definition sp_encode_semantics (p : v2_storage_proof) : wprog :=
  cie_encode_semantics (v2sp_proof_index p) ++ encode_leaf (v2sp_leaf p) ++
  encode_vec encode_hash (v2sp_proof p).

(** ** ContractResolution and FileContractResolution — v2.rs:297-311 *)
Inductive contract_resolution : Type :=
| ResRenewal (r : file_contract_renewal)
| ResStorageProof (p : v2_storage_proof)
| ResExpiration.

Record file_contract_resolution : Type := MkFcres {
  fcres_parent : file_contract_element;
  fcres_resolution : contract_resolution }.

(** v2.rs:313-323 *)
Definition fcres_encode_semantics (r : file_contract_resolution) : wprog :=
  encode_hash (fce_id (fcres_parent r)) ++
  match fcres_resolution r with
  | ResRenewal renewal => ren_encode_semantics renewal
  | ResStorageProof proof => sp_encode_semantics proof
  | ResExpiration => []
  end.

(** v2.rs:325-340 *)
Definition encode_file_contract_resolution (r : file_contract_resolution) : wprog :=
  encode_file_contract_element (fcres_parent r) ++
  match fcres_resolution r with
  | ResRenewal renewal => encode_u8 x00 ++ encode_file_contract_renewal renewal
  | ResStorageProof proof => encode_u8 x01 ++ encode_v2_storage_proof proof
  | ResExpiration => encode_u8 x02
  end.

(** v2.rs:342-357 *)
Definition decode_file_contract_resolution : dec file_contract_resolution :=
  parent <- decode_file_contract_element ;;
  tag <- decode_u8 ;;
  resolution <-
    match tag with
    | x00 => r <- decode_file_contract_renewal ;; DRet (ResRenewal r)
    | x01 => p <- decode_v2_storage_proof ;; DRet (ResStorageProof p)
    | x02 => DRet ResExpiration
    | _ => DErr (ECustom "invalid contract resolution type")
    end ;;
  DRet (MkFcres parent resolution).

(** ** Transaction — v2.rs:453-481 *)
Record v2_transaction : Type := MkV2Txn {
  v2t_siacoin_inputs : vec 224 v2_siacoin_input;
  v2t_siacoin_outputs : vec 48 siacoin_output;
  v2t_siafund_inputs : vec 256 v2_siafund_input;
  v2t_siafund_outputs : vec 40 siafund_output;
  v2t_file_contracts : vec 400 v2_file_contract;
  v2t_file_contract_revisions : vec 864 v2_file_contract_revision;
  v2t_file_contract_resolutions : vec 1440 file_contract_resolution;
  v2t_attestations : vec 144 attestation;
  v2t_arbitrary_data : vec 1 u8;
  v2t_new_foundation_address : option hash256;
  v2t_miner_fee : currency }.

(** [x.len().encode(w)] followed by a loop over the items, v2.rs:485-488 and following. *)
Definition encode_each {sz A} (enc : A -> wprog) (v : vec sz A) : wprog :=
  encode_usize (uwrap 64 (N.of_nat (length (vlist v)))) ++ concat (map enc (vlist v)).

(** v2.rs:484-512 *)
Definition txn_encode_semantics (t : v2_transaction) : wprog :=
  encode_each (fun i => encode_hash (sce_id (v2sci_parent i))) (v2t_siacoin_inputs t) ++
  encode_vec encode_siacoin_output (v2t_siacoin_outputs t) ++
  encode_each (fun i => encode_hash (sfe_id (v2sfi_parent i))) (v2t_siafund_inputs t) ++
  encode_vec encode_siafund_output (v2t_siafund_outputs t) ++
  encode_each fc_encode_semantics (v2t_file_contracts t) ++
  encode_each fcr_encode_semantics (v2t_file_contract_revisions t) ++
  encode_each fcres_encode_semantics (v2t_file_contract_resolutions t) ++
  encode_vec encode_attestation (v2t_attestations t) ++
  encode_vec encode_u8 (v2t_arbitrary_data t) ++
  encode_option encode_hash (v2t_new_foundation_address t) ++
  encode_currency (v2t_miner_fee t).

Definition is_empty {sz A} (v : vec sz A) : bool :=
  match vlist v with [] => true | _ => false end.
Definition is_some {A} (o : option A) : bool := match o with Some _ => true | None => false end.
Definition is_zero (c : currency) : bool := uval c =? 0.

(** v2.rs:548-552: the sum of [1 << i] over the positions that hold. *)
Fixpoint sum_bits (i : N) (l : list bool) : N :=
  match l with
  | [] => 0
  | b :: r => (if b then N.shiftl 1 i else 0) + sum_bits (i + 1) r
  end.

(** v2.rs:535-547 *)
Definition txn_conditions (t : v2_transaction) : list bool :=
  [ negb (is_empty (v2t_siacoin_inputs t));
    negb (is_empty (v2t_siacoin_outputs t));
    negb (is_empty (v2t_siafund_inputs t));
    negb (is_empty (v2t_siafund_outputs t));
    negb (is_empty (v2t_file_contracts t));
    negb (is_empty (v2t_file_contract_revisions t));
    negb (is_empty (v2t_file_contract_resolutions t));
    negb (is_empty (v2t_attestations t));
    negb (is_empty (v2t_arbitrary_data t));
    is_some (v2t_new_foundation_address t);
    negb (is_zero (v2t_miner_fee t)) ].

(** [if cond { x.encode(w)?; }] *)
Definition encode_when (b : bool) (p : wprog) : wprog := if b then p else [].

(** v2.rs:531-590 *)
Definition encode_v2_transaction (t : v2_transaction) : wprog :=
  encode_u8 x02 ++
  encode_u64 (uwrap 64 (sum_bits 0 (txn_conditions t))) ++
  encode_when (negb (is_empty (v2t_siacoin_inputs t)))
    (encode_vec encode_v2_siacoin_input (v2t_siacoin_inputs t)) ++
  encode_when (negb (is_empty (v2t_siacoin_outputs t)))
    (encode_vec encode_siacoin_output (v2t_siacoin_outputs t)) ++
  encode_when (negb (is_empty (v2t_siafund_inputs t)))
    (encode_vec encode_v2_siafund_input (v2t_siafund_inputs t)) ++
  encode_when (negb (is_empty (v2t_siafund_outputs t)))
    (encode_vec encode_siafund_output (v2t_siafund_outputs t)) ++
  encode_when (negb (is_empty (v2t_file_contracts t)))
    (encode_vec encode_v2_file_contract (v2t_file_contracts t)) ++
  encode_when (negb (is_empty (v2t_file_contract_revisions t)))
    (encode_vec encode_v2_file_contract_revision (v2t_file_contract_revisions t)) ++
  encode_when (negb (is_empty (v2t_file_contract_resolutions t)))
    (encode_vec encode_file_contract_resolution (v2t_file_contract_resolutions t)) ++
  encode_when (negb (is_empty (v2t_attestations t)))
    (encode_vec encode_attestation (v2t_attestations t)) ++
  encode_when (negb (is_empty (v2t_arbitrary_data t)))
    (encode_vec encode_u8 (v2t_arbitrary_data t)) ++
  match v2t_new_foundation_address t with Some addr => encode_hash addr | None => [] end ++
  encode_when (negb (is_zero (v2t_miner_fee t))) (encode_currency (v2t_miner_fee t)).

(** [if fields & mask != 0 { x = decode(r)?; }] with the initial value [default]. *)
Definition decode_when {A} (fields mask : N) (default : A) (d : dec A) : dec A :=
  if N.land fields mask =? 0 then DRet default else d.

(** v2.rs:592-651 *)
Definition decode_v2_transaction (stack : nat) : dec v2_transaction :=
  version <- decode_u8 ;;
  match version with
  | x02 =>
    fields <- decode_u64 ;;
    let fields := uval fields in
    siacoin_inputs <- decode_when fields 1 vec_nil (decode_vec 224 (decode_v2_siacoin_input stack)) ;;
    siacoin_outputs <- decode_when fields 2 vec_nil (decode_vec 48 decode_siacoin_output) ;;
    siafund_inputs <- decode_when fields 4 vec_nil (decode_vec 256 (decode_v2_siafund_input stack)) ;;
    siafund_outputs <- decode_when fields 8 vec_nil (decode_vec 40 decode_siafund_output) ;;
    file_contracts <- decode_when fields 16 vec_nil (decode_vec 400 decode_v2_file_contract) ;;
    file_contract_revisions <-
      decode_when fields 32 vec_nil (decode_vec 864 decode_v2_file_contract_revision) ;;
    file_contract_resolutions <-
      decode_when fields 64 vec_nil (decode_vec 1440 decode_file_contract_resolution) ;;
    attestations <- decode_when fields 128 vec_nil (decode_vec 144 decode_attestation) ;;
    arbitrary_data <- decode_when fields 256 vec_nil (decode_vec 1 decode_u8) ;;
    new_foundation_address <-
      decode_when fields 512 None (addr <- decode_hash ;; DRet (Some addr)) ;;
    miner_fee <- decode_when fields 1024 (uwrap 128 0) decode_currency ;;
    DRet (MkV2Txn siacoin_inputs siacoin_outputs siafund_inputs siafund_outputs
                  file_contracts file_contract_revisions file_contract_resolutions
                  attestations arbitrary_data new_foundation_address miner_fee)
  | _ => DErr (ECustom "unsupported transaction version")
  end.
