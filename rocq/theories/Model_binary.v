(** Model of the serde implementations with a binary format: a self-describing format whose
    [is_human_readable] is false (CBOR or MessagePack with field names). Such a format hands the
    deserialiser the values the serialiser gave it, so a document is again a tree: [json], of which
    a struct is a [JObj], a tuple, an array or a vector a [JArr], an integer a [JUint] and text a [JStr].

    Only two implementations ask the format whether it is human readable: the serialiser of the
    hash types (macros.rs:19) and the deserialiser of [UnlockKey] (v1.rs:49). All others do what they
    do with JSON, and the definitions of Model_jsontypes.v stand for them. The types below contain a hash or an
    [UnlockKey]; each has the fields of its JSON form. *)

From Verif Require Import Base Blake2b Io Model_encoding Model_currency Model_common Model_v1
  Model_policy Model_v2 Model_consensus Model_text Model_json Model_jsontypes.
Local Open Scope N_scope.
Local Open Scope jres_scope.

(** macros.rs:17-35: written as an array of 32 bytes, read as text *)
Definition b_hash : codec hash256 :=
  MkCodec (fun h => ser_list ser_u8 (aval h)) (de_text (fun s => jsum (parse_hash s))).

(** v1.rs:38-57: written as text, read as a pair of a specifier and a vector of bytes *)
Definition b_unlock_key : codec unlock_key :=
  MkCodec (fun k => t <- joutcome (unlock_key_text k) ;; ser_text t)
          (fun j =>
             match j with
             | JArr [a; k] =>
               algorithm <- c_de j_specifier a ;; key <- de_vec 1 de_u8 k ;; JOk (MkUnlockKey algorithm key)
             | _ => JErr
             end).

Section Codecs.

(** As in Model_jsontypes.v. *)
Variable p : profile.
Variable stack : nat.

(** common.rs:149-153 *)
Definition b_chain_index_fields : fields (u64 * (hash256 * unit)) :=
  plain "height" j_u64 #:
  plain "id" b_hash #:
  FNil.
Definition b_chain_index : codec chain_index :=
  struct_codec b_chain_index_fields chain_index_tuple
    (fun '(v0, (v1, _)) => MkChainIndex v0 v1).

(** common.rs:390-395 *)
Definition b_state_element_fields : fields (u64 * ((vec 32 hash256) * unit)) :=
  plain "leafIndex" j_u64 #:
  plain "merkleProof" (j_vec 32 b_hash) #:
  FNil.
Definition b_state_element : codec state_element :=
  struct_codec b_state_element_fields state_element_tuple
    (fun '(v0, (v1, _)) => MkSe v0 v1).

(** v1.rs:94-102 *)
Definition b_unlock_conditions_fields : fields (u64 * ((vec 40 unlock_key) * (u64 * unit))) :=
  plain "timelock" j_u64 #:
  plain "publicKeys" (j_vec 40 b_unlock_key) #:
  plain "signaturesRequired" j_u64 #:
  FNil.
Definition b_unlock_conditions : codec unlock_conditions :=
  struct_codec b_unlock_conditions_fields unlock_conditions_tuple
    (fun '(v0, (v1, (v2, _))) => MkUc v0 v1 v2).

(** v1.rs:159-165 *)
Definition b_v1_siacoin_input_fields : fields (hash256 * (unlock_conditions * unit)) :=
  plain "parentID" b_hash #:
  plain "unlockConditions" b_unlock_conditions #:
  FNil.
Definition b_v1_siacoin_input : codec v1_siacoin_input :=
  struct_codec b_v1_siacoin_input_fields v1_siacoin_input_tuple
    (fun '(v0, (v1, _)) => MkV1Sci v0 v1).

(** v1.rs:167-174 *)
Definition b_v1_siafund_input_fields : fields (hash256 * (unlock_conditions * (hash256 * unit))) :=
  plain "parentID" b_hash #:
  plain "unlockConditions" b_unlock_conditions #:
  plain "claimAddress" j_address #:
  FNil.
Definition b_v1_siafund_input : codec v1_siafund_input :=
  struct_codec b_v1_siafund_input_fields v1_siafund_input_tuple
    (fun '(v0, (v1, (v2, _))) => MkV1Sfi v0 v1 v2).

(** v1.rs:176-189 *)
Definition b_v1_file_contract_fields : fields (u64 * (hash256 * (u64 * (u64 * (currency * ((vec 48 siacoin_output) * ((vec 48 siacoin_output) * (hash256 * (u64 * unit))))))))) :=
  plain "filesize" j_u64 #:
  plain "fileMerkleRoot" b_hash #:
  plain "windowStart" j_u64 #:
  plain "windowEnd" j_u64 #:
  plain "payout" (j_currency p) #:
  plain "validProofOutputs" (j_vec 48 (j_siacoin_output p)) #:
  plain "missedProofOutputs" (j_vec 48 (j_siacoin_output p)) #:
  plain "unlockHash" j_address #:
  plain "revisionNumber" j_u64 #:
  FNil.
Definition b_v1_file_contract : codec v1_file_contract :=
  struct_codec b_v1_file_contract_fields v1_file_contract_tuple
    (fun '(v0, (v1, (v2, (v3, (v4, (v5, (v6, (v7, (v8, _))))))))) => MkV1Fc v0 v1 v2 v3 v4 v5 v6 v7 v8).

(** v1.rs:205-220 *)
Definition b_v1_file_contract_revision_fields : fields (hash256 * (unlock_conditions * (u64 * (u64 * (hash256 * (u64 * (u64 * ((vec 48 siacoin_output) * ((vec 48 siacoin_output) * (hash256 * unit)))))))))) :=
  plain "parentID" b_hash #:
  plain "unlockConditions" b_unlock_conditions #:
  plain "revisionNumber" j_u64 #:
  plain "filesize" j_u64 #:
  plain "fileMerkleRoot" b_hash #:
  plain "windowStart" j_u64 #:
  plain "windowEnd" j_u64 #:
  plain "validProofOutputs" (j_vec 48 (j_siacoin_output p)) #:
  plain "missedProofOutputs" (j_vec 48 (j_siacoin_output p)) #:
  plain "unlockHash" j_address #:
  FNil.
Definition b_v1_file_contract_revision : codec v1_file_contract_revision :=
  struct_codec b_v1_file_contract_revision_fields v1_file_contract_revision_tuple
    (fun '(v0, (v1, (v2, (v3, (v4, (v5, (v6, (v7, (v8, (v9, _)))))))))) => MkV1Fcr v0 v1 v2 v3 v4 v5 v6 v7 v8 v9).

(** v1.rs:222-229 *)
Definition b_v1_storage_proof_fields : fields (hash256 * (leaf * ((vec 32 hash256) * unit))) :=
  plain "parentID" b_hash #:
  plain "leaf" j_leaf #:
  plain "proof" (j_vec 32 b_hash) #:
  FNil.
Definition b_v1_storage_proof : codec v1_storage_proof :=
  struct_codec b_v1_storage_proof_fields v1_storage_proof_tuple
    (fun '(v0, (v1, (v2, _))) => MkV1Sp v0 v1 v2).

(** v1.rs:266-276 *)
Definition b_transaction_signature_fields : fields (hash256 * (u64 * (u64 * (covered_fields * ((vec 1 u8) * unit))))) :=
  plain "parentID" b_hash #:
  plain "publicKeyIndex" j_u64 #:
  plain "timelock" j_u64 #:
  plain "coveredFields" j_covered_fields #:
  plain "signature" j_base64 #:
  FNil.
Definition b_transaction_signature : codec transaction_signature :=
  struct_codec b_transaction_signature_fields transaction_signature_tuple
    (fun '(v0, (v1, (v2, (v3, (v4, _))))) => MkTs v0 v1 v2 v3 v4).

(** v1.rs:278-305 *)
Definition b_v1_transaction_fields : fields ((vec 72 v1_siacoin_input) * ((vec 48 siacoin_output) * ((vec 160 v1_file_contract) * ((vec 216 v1_file_contract_revision) * ((vec 120 v1_storage_proof) * ((vec 104 v1_siafund_input) * ((vec 40 siafund_output) * ((vec 16 currency) * ((vec 24 (vec 1 u8)) * ((vec 320 transaction_signature) * unit)))))))))) :=
  opt_vec "siacoinInputs" (j_vec 72 b_v1_siacoin_input) #:
  opt_vec "siacoinOutputs" (j_vec 48 (j_siacoin_output p)) #:
  opt_vec "fileContracts" (j_vec 160 b_v1_file_contract) #:
  opt_vec "fileContractRevisions" (j_vec 216 b_v1_file_contract_revision) #:
  opt_vec "storageProofs" (j_vec 120 b_v1_storage_proof) #:
  opt_vec "siafundInputs" (j_vec 104 b_v1_siafund_input) #:
  opt_vec "siafundOutputs" (j_vec 40 j_siafund_output) #:
  opt_vec "minerFees" (j_vec 16 (j_currency p)) #:
  opt_vec "arbitraryData" j_vec_base64 #:
  opt_vec "signatures" (j_vec 320 b_transaction_signature) #:
  FNil.
Definition b_v1_transaction : codec v1_transaction :=
  struct_codec b_v1_transaction_fields v1_transaction_tuple
    (fun '(v0, (v1, (v2, (v3, (v4, (v5, (v6, (v7, (v8, (v9, _)))))))))) => MkV1Txn v0 v1 v2 v3 v4 v5 v6 v7 v8 v9).

(** common.rs:168-178 *)
Definition b_block_fields : fields (hash256 * (u64 * (odt * ((vec 48 siacoin_output) * ((vec 240 v1_transaction) * unit))))) :=
  plain "parentID" b_hash #:
  plain "nonce" j_u64 #:
  plain "timestamp" j_odt #:
  plain "minerPayouts" (j_vec 48 (j_siacoin_output p)) #:
  plain "transactions" (j_vec 240 b_v1_transaction) #:
  FNil.
Definition b_block : codec block :=
  struct_codec b_block_fields block_tuple
    (fun '(v0, (v1, (v2, (v3, (v4, _))))) => MkBlock v0 v1 v2 v3 v4).

(** spendpolicy.rs:276-313: only a hash that is the whole policy is written in the format's
    own form. The parts of a threshold go through [json!], which is human readable, and a condition
    holds no hash. *)
Definition b_ser_policy (x : policy) : jres json :=
  match x with
  | PHash h =>
    v <- c_ser b_hash h ;; JOk (JObj [(ascii "type", JStr (type_str x)); (ascii "policy", v)])
  | PUnlockConditions u =>
    v <- c_ser b_unlock_conditions u ;; JOk (JObj [(ascii "type", JStr (type_str x)); (ascii "policy", v)])
  | _ => ser_policy x
  end.

(** spendpolicy.rs:171-274: the policy is read as a [serde_json::Value], and that by
    [serde_json::from_value], which is human readable. *)
Definition b_policy : codec policy := MkCodec b_ser_policy (de_policy stack).

(** spendpolicy.rs:390-398 *)
Definition b_satisfied_policy_fields : fields (policy * ((vec 64 signature) * ((vec 32 hash256) * unit))) :=
  plain "policy" b_policy #:
  opt_vec "signatures" (j_vec 64 j_signature) #:
  opt_vec "preimages" (j_vec 32 b_hash) #:
  FNil.
Definition b_satisfied_policy : codec satisfied_policy :=
  struct_codec b_satisfied_policy_fields satisfied_policy_tuple
    (fun '(v0, (v1, (v2, _))) => MkSatisfied v0 v1 v2).

(** v2.rs:60-79 *)
Definition b_v2_file_contract_fields : fields (u64 * (u64 * (hash256 * (u64 * (u64 * (siacoin_output * (siacoin_output * (currency * (currency * (hash256 * (hash256 * (u64 * (signature * (signature * unit)))))))))))))) :=
  plain "capacity" j_u64 #:
  plain "filesize" j_u64 #:
  plain "fileMerkleRoot" b_hash #:
  plain "proofHeight" j_u64 #:
  plain "expirationHeight" j_u64 #:
  plain "renterOutput" (j_siacoin_output p) #:
  plain "hostOutput" (j_siacoin_output p) #:
  plain "missedHostValue" (j_currency p) #:
  plain "totalCollateral" (j_currency p) #:
  plain "renterPublicKey" j_public_key #:
  plain "hostPublicKey" j_public_key #:
  plain "revisionNumber" j_u64 #:
  plain "renterSignature" j_signature #:
  plain "hostSignature" j_signature #:
  FNil.
Definition b_v2_file_contract : codec v2_file_contract :=
  struct_codec b_v2_file_contract_fields v2_file_contract_tuple
    (fun '(v0, (v1, (v2, (v3, (v4, (v5, (v6, (v7, (v8, (v9, (v10, (v11, (v12, (v13, _)))))))))))))) => MkV2Fc v0 v1 v2 v3 v4 v5 v6 v7 v8 v9 v10 v11 v12 v13).

(** v2.rs:114-121 *)
Definition b_siacoin_element_fields : fields (state_element * (hash256 * (siacoin_output * (u64 * unit)))) :=
  plain "stateElement" b_state_element #:
  plain "id" b_hash #:
  plain "siacoinOutput" (j_siacoin_output p) #:
  plain "maturityHeight" j_u64 #:
  FNil.
Definition b_siacoin_element : codec siacoin_element :=
  struct_codec b_siacoin_element_fields siacoin_element_tuple
    (fun '(v0, (v1, (v2, (v3, _)))) => MkSce v0 v1 v2 v3).

(** v2.rs:124-131 *)
Definition b_siafund_element_fields : fields (state_element * (hash256 * (siafund_output * (currency * unit)))) :=
  plain "stateElement" b_state_element #:
  plain "id" b_hash #:
  plain "siafundOutput" j_siafund_output #:
  plain "claimStart" (j_currency p) #:
  FNil.
Definition b_siafund_element : codec siafund_element :=
  struct_codec b_siafund_element_fields siafund_element_tuple
    (fun '(v0, (v1, (v2, (v3, _)))) => MkSfe v0 v1 v2 v3).

(** v2.rs:135-141 *)
Definition b_file_contract_element_fields : fields (state_element * (hash256 * (v2_file_contract * unit))) :=
  plain "stateElement" b_state_element #:
  plain "id" b_hash #:
  plain "v2FileContract" b_v2_file_contract #:
  FNil.
Definition b_file_contract_element : codec file_contract_element :=
  struct_codec b_file_contract_element_fields file_contract_element_tuple
    (fun '(v0, (v1, (v2, _))) => MkFce v0 v1 v2).

(** v2.rs:144-150 *)
Definition b_chain_index_element_fields : fields (state_element * (hash256 * (chain_index * unit))) :=
  plain "stateElement" b_state_element #:
  plain "id" b_hash #:
  plain "chainIndex" b_chain_index #:
  FNil.
Definition b_chain_index_element : codec chain_index_element :=
  struct_codec b_chain_index_element_fields chain_index_element_tuple
    (fun '(v0, (v1, (v2, _))) => MkCie v0 v1 v2).

(** v2.rs:172-177 *)
Definition b_v2_siacoin_input_fields : fields (siacoin_element * (satisfied_policy * unit)) :=
  plain "parent" b_siacoin_element #:
  plain "satisfiedPolicy" b_satisfied_policy #:
  FNil.
Definition b_v2_siacoin_input : codec v2_siacoin_input :=
  struct_codec b_v2_siacoin_input_fields v2_siacoin_input_tuple
    (fun '(v0, (v1, _)) => MkV2Sci v0 v1).

(** v2.rs:181-187 *)
Definition b_v2_siafund_input_fields : fields (siafund_element * (hash256 * (satisfied_policy * unit))) :=
  plain "parent" b_siafund_element #:
  plain "claimAddress" j_address #:
  plain "satisfiedPolicy" b_satisfied_policy #:
  FNil.
Definition b_v2_siafund_input : codec v2_siafund_input :=
  struct_codec b_v2_siafund_input_fields v2_siafund_input_tuple
    (fun '(v0, (v1, (v2, _))) => MkV2Sfi v0 v1 v2).

(** v2.rs:190-195 *)
Definition b_v2_file_contract_revision_fields : fields (file_contract_element * (v2_file_contract * unit)) :=
  plain "parent" b_file_contract_element #:
  plain "revision" b_v2_file_contract #:
  FNil.
Definition b_v2_file_contract_revision : codec v2_file_contract_revision :=
  struct_codec b_v2_file_contract_revision_fields v2_file_contract_revision_tuple
    (fun '(v0, (v1, _)) => MkV2Fcr v0 v1).

(** v2.rs:207-218 *)
Definition b_file_contract_renewal_fields : fields (v2_file_contract * (v2_file_contract * (currency * (currency * (signature * (signature * unit)))))) :=
  plain "finalRevision" b_v2_file_contract #:
  plain "newContract" b_v2_file_contract #:
  plain "renterRollover" (j_currency p) #:
  plain "hostRollover" (j_currency p) #:
  plain "renterSignature" j_signature #:
  plain "hostSignature" j_signature #:
  FNil.
Definition b_file_contract_renewal : codec file_contract_renewal :=
  struct_codec b_file_contract_renewal_fields file_contract_renewal_tuple
    (fun '(v0, (v1, (v2, (v3, (v4, (v5, _)))))) => MkRen v0 v1 v2 v3 v4 v5).

(** v2.rs:242-257 *)
Definition b_v2_storage_proof_fields : fields (chain_index_element * (leaf * ((vec 32 hash256) * unit))) :=
  plain "proofIndex" b_chain_index_element #:
  plain "leaf" j_leaf #:
  plain "proof" (j_vec 32 b_hash) #:
  FNil.
Definition b_v2_storage_proof : codec v2_storage_proof :=
  struct_codec b_v2_storage_proof_fields v2_storage_proof_tuple
    (fun '(v0, (v1, (v2, _))) => MkV2Sp v0 v1 v2).

(** v2.rs:297-304 *)
Definition b_contract_resolution : codec contract_resolution :=
  MkCodec
    (fun r =>
       match r with
       | ResRenewal x => v <- c_ser b_file_contract_renewal x ;; JOk (JObj [(ascii "renewal", v)])
       | ResStorageProof x => v <- c_ser b_v2_storage_proof x ;; JOk (JObj [(ascii "storageProof", v)])
       | ResExpiration => JOk (JObj [(ascii "expiration", JArr [])])
       end)
    (fun j =>
       match j with
       | JObj [(k, v)] =>
         if bytes_eqb k (ascii "renewal") then x <- c_de b_file_contract_renewal v ;; JOk (ResRenewal x)
         else if bytes_eqb k (ascii "storageProof") then x <- c_de b_v2_storage_proof v ;; JOk (ResStorageProof x)
         else if bytes_eqb k (ascii "expiration") then
           match v with JArr [] => JOk ResExpiration | _ => JErr end
         else JErr
       | _ => JErr
       end).

(** v2.rs:359-388: the resolution goes through [serde_json::to_value], which is human
    readable. *)
Definition b_ser_file_contract_resolution (r : file_contract_resolution) : jres json :=
  parent <- c_ser b_file_contract_element (fcres_parent r) ;;
  resolution <- (match fcres_resolution r with
                 | ResRenewal x => v <- c_ser (j_file_contract_renewal p) x ;; JOk (value_of v)
                 | ResStorageProof x => v <- c_ser j_v2_storage_proof x ;; JOk (value_of v)
                 | ResExpiration => JOk (JObj [])
                 end) ;;
  JOk (JObj [(ascii "parent", parent);
             (ascii "type", JStr (match fcres_resolution r with
                                  | ResRenewal _ => ascii "renewal"
                                  | ResStorageProof _ => ascii "storageProof"
                                  | ResExpiration => ascii "expiration"
                                  end));
             (ascii "resolution", resolution)]).

(** v2.rs:409-425 *)
Fixpoint b_visit_resolution (parent : option file_contract_element) (t : option bytes) (v : option json)
  (l : list (bytes * json)) : jres (option file_contract_element * (option bytes * option json)) :=
  match l with
  | [] => JOk (parent, (t, v))
  | (k, j) :: r =>
    if bytes_eqb k (ascii "parent") then
      x <- c_de b_file_contract_element j ;; b_visit_resolution (Some x) t v r
    else if bytes_eqb k (ascii "type") then
      s <- de_string j ;; b_visit_resolution parent (Some (vlist (sbytes s))) v r
    else if bytes_eqb k (ascii "resolution") then b_visit_resolution parent t (Some (value_of j)) r
    else JErr
  end.

(** v2.rs:390-450: the resolution is read by [serde_json::from_value]. *)
Definition b_de_file_contract_resolution (j : json) : jres file_contract_resolution :=
  match j with
  | JObj l =>
    x <- b_visit_resolution None None None l ;;
    parent <- jopt (fst x) ;;
    t <- jopt (fst (snd x)) ;;
    v <- jopt (snd (snd x)) ;;
    if bytes_eqb t (ascii "renewal") then
      r <- c_de (j_file_contract_renewal p) v ;; JOk (MkFcres parent (ResRenewal r))
    else if bytes_eqb t (ascii "storageProof") then
      r <- c_de j_v2_storage_proof v ;; JOk (MkFcres parent (ResStorageProof r))
    else if bytes_eqb t (ascii "expiration") then JOk (MkFcres parent ResExpiration)
    else JErr
  | _ => JErr
  end.
Definition b_file_contract_resolution : codec file_contract_resolution :=
  MkCodec b_ser_file_contract_resolution b_de_file_contract_resolution.

(** v2.rs:453-481 *)
Definition b_v2_transaction_fields : fields ((vec 224 v2_siacoin_input) * ((vec 48 siacoin_output) * ((vec 256 v2_siafund_input) * ((vec 40 siafund_output) * ((vec 400 v2_file_contract) * ((vec 864 v2_file_contract_revision) * ((vec 1440 file_contract_resolution) * ((vec 144 attestation) * ((vec 1 u8) * ((option hash256) * (currency * unit))))))))))) :=
  opt_vec "siacoinInputs" (j_vec 224 b_v2_siacoin_input) #:
  opt_vec "siacoinOutputs" (j_vec 48 (j_siacoin_output p)) #:
  opt_vec "siafundInputs" (j_vec 256 b_v2_siafund_input) #:
  opt_vec "siafundOutputs" (j_vec 40 j_siafund_output) #:
  opt_vec "fileContracts" (j_vec 400 b_v2_file_contract) #:
  opt_vec "fileContractRevisions" (j_vec 864 b_v2_file_contract_revision) #:
  opt_vec "fileContractResolutions" (j_vec 1440 b_file_contract_resolution) #:
  opt_vec "attestations" (j_vec 144 j_attestation) #:
  opt_vec "arbitraryData" j_base64 #:
  opt_option "newFoundationAddress" (j_option j_address) #:
  plain "minerFee" (j_currency p) #:
  FNil.
Definition b_v2_transaction : codec v2_transaction :=
  struct_codec b_v2_transaction_fields v2_transaction_tuple
    (fun '(v0, (v1, (v2, (v3, (v4, (v5, (v6, (v7, (v8, (v9, (v10, _))))))))))) => MkV2Txn v0 v1 v2 v3 v4 v5 v6 v7 v8 v9 v10).

(** consensus.rs:296-310 *)
Definition b_ser_element_accumulator (a : element_accumulator) : jres json :=
  n <- c_ser j_u64 (ea_num_leaves a) ;;
  trees <- c_ser (j_list b_hash) (present_trees (ea_num_leaves a) 0 (flist (ea_trees a))) ;;
  JOk (JObj [(ascii "numLeaves", n); (ascii "trees", trees)]).

(** consensus.rs:317-322 *)
Definition b_inter_fields : fields (u64 * (vec 32 hash256 * unit)) :=
  plain "numLeaves" j_u64 #: plain "trees" (j_vec 32 b_hash) #: FNil.

(** consensus.rs:312-346 *)
Definition b_de_element_accumulator (j : json) : jres element_accumulator :=
  inter <- de_struct b_inter_fields j ;;
  let num_leaves := fst inter in
  let trees := vlist (fst (snd inter)) in
  if negb (N.of_nat (length trees) =? count_ones num_leaves) then JErr
  else
    t <- jopt (place_trees num_leaves 64 0 trees) ;;
    f <- jopt (farr_of 64 t) ;;
    JOk (MkEa num_leaves f).
Definition b_element_accumulator : codec element_accumulator :=
  MkCodec b_ser_element_accumulator b_de_element_accumulator.

(** consensus.rs:48-55 *)
Definition b_hardfork_asic_fields : fields (u64 * (duration * (hash256 * unit))) :=
  plain "height" j_u64 #:
  plain "oakTime" j_duration #:
  plain "oakTarget" b_hash #:
  FNil.
Definition b_hardfork_asic : codec hardfork_asic :=
  struct_codec b_hardfork_asic_fields hardfork_asic_tuple
    (fun '(v0, (v1, (v2, _))) => MkHfAsic v0 v1 v2).

(** consensus.rs:76-96 *)
Definition b_network_fields : fields (rstring * (currency * (currency * (hash256 * (duration * (u64 * (hardfork_dev_addr * (hardfork_tax * (hardfork_storage_proof * (hardfork_oak * (hardfork_asic * (hardfork_foundation * (hardfork_v2 * unit))))))))))))) :=
  plain "name" j_string #:
  plain "initialCoinbase" (j_currency p) #:
  plain "minimumCoinbase" (j_currency p) #:
  plain "initialTarget" b_hash #:
  plain "blockInterval" j_duration #:
  plain "maturityDelay" j_u64 #:
  plain "hardforkDevAddr" j_hardfork_dev_addr #:
  plain "hardforkTax" j_hardfork_tax #:
  plain "hardforkStorageProof" j_hardfork_storage_proof #:
  plain "hardforkOak" j_hardfork_oak #:
  plain "hardforkASIC" b_hardfork_asic #:
  plain "hardforkFoundation" j_hardfork_foundation #:
  plain "hardforkV2" j_hardfork_v2 #:
  FNil.
Definition b_network : codec network :=
  struct_codec b_network_fields network_tuple
    (fun '(v0, (v1, (v2, (v3, (v4, (v5, (v6, (v7, (v8, (v9, (v10, (v11, (v12, _))))))))))))) => MkNetwork v0 v1 v2 v3 v4 v5 v6 v7 v8 v9 v10 v11 v12).

(** consensus.rs:349-373 *)
Definition b_state_fields : fields (chain_index * ((farr 11 odt) * (hash256 * (hash256 * (currency * (duration * (hash256 * (hash256 * (hash256 * (work * (work * (work * (element_accumulator * (u64 * unit)))))))))))))) :=
  plain "index" b_chain_index #:
  plain "prevTimestamps" j_timestamps #:
  plain "depth" b_hash #:
  plain "childTarget" b_hash #:
  plain "siafundPool" (j_currency p) #:
  plain "oakTime" j_duration #:
  plain "oakTarget" b_hash #:
  plain "foundationPrimaryAddress" j_address #:
  plain "foundationFailsafeAddress" j_address #:
  plain "totalWork" j_work #:
  plain "difficulty" j_work #:
  plain "oakWork" j_work #:
  plain "elements" b_element_accumulator #:
  plain "attestations" j_u64 #:
  FNil.
Definition b_state : codec state :=
  struct_codec b_state_fields state_tuple
    (fun '(v0, (v1, (v2, (v3, (v4, (v5, (v6, (v7, (v8, (v9, (v10, (v11, (v12, (v13, _)))))))))))))) => MkState v0 v1 v2 v3 v4 v5 v6 v7 v8 v9 v10 v11 v12 v13).

(** consensus.rs:439-443 *)
Definition b_chain_state_fields : fields (network * (state * unit)) :=
  plain "network" b_network #:
  plain "state" b_state #:
  FNil.
Definition b_chain_state : codec chain_state :=
  struct_codec b_chain_state_fields chain_state_tuple
    (fun '(v0, (v1, _)) => MkChainState v0 v1).

End Codecs.
