(** Model of the JSON forms of the library's types. *)

From Verif Require Import Base Blake2b Io Model_encoding Model_currency Model_common Model_v1
  Model_policy Model_v2 Model_consensus Model_text Model_json.
Local Open Scope N_scope.
Local Open Scope jres_scope.

(** A serialiser and the deserialiser of the same type. *)
Record codec (A : Type) : Type := MkCodec { c_ser : jser A; c_de : jde A }.
Arguments MkCodec {A}.
Arguments c_ser {A}.
Arguments c_de {A}.

(** ** Basic types *)

Definition j_bool : codec bool := MkCodec ser_bool de_bool.
Definition j_u8 : codec u8 := MkCodec ser_u8 de_u8.
(** also [usize] *)
Definition j_u64 : codec u64 := MkCodec ser_u64 de_u64.
Definition j_string : codec rstring := MkCodec ser_string de_string.
Definition j_list {A} (c : codec A) : codec (list A) := MkCodec (ser_list (c_ser c)) (de_list (c_de c)).
Definition j_vec {A} sz (c : codec A) : codec (vec sz A) := MkCodec (ser_vec (c_ser c)) (de_vec sz (c_de c)).
Definition j_option {A} (c : codec A) : codec (option A) := MkCodec (ser_option (c_ser c)) (de_option (c_de c)).
Definition j_base64 : codec (vec 1 u8) := MkCodec ser_base64 de_base64.
Definition j_vec_base64 : codec (vec 24 (vec 1 u8)) := MkCodec ser_vec_base64 de_vec_base64.
Definition j_odt : codec odt := MkCodec ser_odt de_odt.
Definition j_timestamps : codec (farr 11 odt) := MkCodec ser_timestamps de_timestamps.
Definition j_duration : codec duration := MkCodec ser_duration de_duration.

(** macros.rs:17-35: hashes and identifiers *)
Definition j_hash : codec hash256 :=
  MkCodec (fun h => JOk (JStr (hash_text h))) (de_text (fun s => jsum (parse_hash s))).

(** common.rs:217-234 *)
Definition j_address : codec hash256 :=
  MkCodec (fun a => JOk (JStr (address_text a))) (de_text (fun s => jsum (parse_address s))).

(** common.rs:369-387 *)
Definition j_leaf : codec leaf :=
  MkCodec (fun l => JOk (JStr (leaf_text l)))
          (de_text (fun s =>
             match hex_decode s with
             | inr _ => JErr
             | inl data => if Nat.eqb (length data) 64 then JOk (arr_of 64 data) else JErr
             end)).

(** signing.rs:17-37 *)
Definition j_public_key : codec hash256 :=
  MkCodec (fun k => JOk (JStr (public_key_text k))) (de_text (fun s => jopt (parse_public_key s))).

(** signing.rs:116-134 *)
Definition j_signature : codec signature :=
  MkCodec (fun s => JOk (JStr (signature_text s))) (de_text (fun s => jsum (parse_signature s))).

(** work.rs:43-59 *)
Definition j_work : codec work :=
  MkCodec (fun w => JOk (JStr (work_text w))) (de_text (fun s => jopt (parse_work s))).

(** specifier.rs:10-22: a newtype of an array of 16 bytes *)
Definition j_specifier : codec specifier :=
  MkCodec (fun s => ser_list ser_u8 (aval s))
          (fun j => l <- de_list de_u8 j ;; if Nat.eqb (length l) 16 then JOk (arr_of 16 l) else JErr).

(** v1.rs:38-57 *)
Definition j_unlock_key : codec unlock_key :=
  MkCodec (fun k => t <- joutcome (unlock_key_text k) ;; ser_text t)
          (fun j => s <- de_string j ;; jsum (parse_unlock_key s)).

(** ** Derived structs *)

Definition plain {A} (name : string) (c : codec A) : field A :=
  MkField (ascii name) (c_ser c) (fun _ => false) (c_de c) None.

(** [#[serde(default, skip_serializing_if = "Vec::is_empty")]] *)
Definition vec_is_empty {sz A} (v : vec sz A) : bool := match vlist v with [] => true | _ => false end.
Definition opt_vec {sz A} (name : string) (c : codec (vec sz A)) : field (vec sz A) :=
  MkField (ascii name) (c_ser c) vec_is_empty (c_de c) (Some vec_nil).

(** [#[serde(default, skip_serializing_if = "Option::is_none")]] *)
Definition opt_option {A} (name : string) (c : codec (option A)) : field (option A) :=
  MkField (ascii name) (c_ser c) (fun o => match o with Some _ => false | None => true end) (c_de c) (Some None).

Definition struct_codec {T A} (fs : fields T) (tuple : A -> T) (make : T -> A) : codec A :=
  MkCodec (fun a => ser_struct fs (tuple a)) (fun j => t <- de_struct fs j ;; JOk (make t)).

Section Codecs.

(** The build profile decides how reading an amount fails, the stack how deeply nested a spend
    policy can be read. *)
Variable p : profile.
Variable stack : nat.

(** currency.rs:18-75 *)
Definition j_currency : codec currency :=
  MkCodec (fun c => JOk (JStr (currency_text c)))
          (fun j =>
             match j with
             | JStr _ =>
               s <- de_string j ;;
               match parse_currency p (vlist (sbytes s)) with
               | Val (inl c) => JOk c
               | Val (inr _) => JErr
               | Panic q => JPanic q
               end
             | JUint n => JOk (uwrap 128 (uval n))
             | _ => JErr
             end).

(** common.rs:149-153 *)
Definition chain_index_fields : fields (u64 * (hash256 * unit)) :=
  plain "height" j_u64 #:
  plain "id" j_hash #:
  FNil.
Definition chain_index_tuple (a : chain_index) := (ci_height a, (ci_id a, tt)).
Definition j_chain_index : codec chain_index :=
  struct_codec chain_index_fields chain_index_tuple
    (fun '(v0, (v1, _)) => MkChainIndex v0 v1).

(** common.rs:304-309 *)
Definition siacoin_output_fields : fields (currency * (hash256 * unit)) :=
  plain "value" j_currency #:
  plain "address" j_address #:
  FNil.
Definition siacoin_output_tuple (a : siacoin_output) := (sco_value a, (sco_address a, tt)).
Definition j_siacoin_output : codec siacoin_output :=
  struct_codec siacoin_output_fields siacoin_output_tuple
    (fun '(v0, (v1, _)) => MkSco v0 v1).

(** common.rs:313-318 *)
Definition siafund_output_fields : fields (u64 * (hash256 * unit)) :=
  plain "value" j_u64 #:
  plain "address" j_address #:
  FNil.
Definition siafund_output_tuple (a : siafund_output) := (sfo_value a, (sfo_address a, tt)).
Definition j_siafund_output : codec siafund_output :=
  struct_codec siafund_output_fields siafund_output_tuple
    (fun '(v0, (v1, _)) => MkSfo v0 v1).

(** common.rs:390-395 *)
Definition state_element_fields : fields (u64 * ((vec 32 hash256) * unit)) :=
  plain "leafIndex" j_u64 #:
  plain "merkleProof" (j_vec 32 j_hash) #:
  FNil.
Definition state_element_tuple (a : state_element) := (se_leaf_index a, (se_merkle_proof a, tt)).
Definition j_state_element : codec state_element :=
  struct_codec state_element_fields state_element_tuple
    (fun '(v0, (v1, _)) => MkSe v0 v1).

(** v1.rs:94-102 *)
Definition unlock_conditions_fields : fields (u64 * ((vec 40 unlock_key) * (u64 * unit))) :=
  plain "timelock" j_u64 #:
  plain "publicKeys" (j_vec 40 j_unlock_key) #:
  plain "signaturesRequired" j_u64 #:
  FNil.
Definition unlock_conditions_tuple (a : unlock_conditions) := (uc_timelock a, (uc_public_keys a, (uc_signatures_required a, tt))).
Definition j_unlock_conditions : codec unlock_conditions :=
  struct_codec unlock_conditions_fields unlock_conditions_tuple
    (fun '(v0, (v1, (v2, _))) => MkUc v0 v1 v2).

(** v1.rs:159-165 *)
Definition v1_siacoin_input_fields : fields (hash256 * (unlock_conditions * unit)) :=
  plain "parentID" j_hash #:
  plain "unlockConditions" j_unlock_conditions #:
  FNil.
Definition v1_siacoin_input_tuple (a : v1_siacoin_input) := (v1sci_parent_id a, (v1sci_unlock_conditions a, tt)).
Definition j_v1_siacoin_input : codec v1_siacoin_input :=
  struct_codec v1_siacoin_input_fields v1_siacoin_input_tuple
    (fun '(v0, (v1, _)) => MkV1Sci v0 v1).

(** v1.rs:167-174 *)
Definition v1_siafund_input_fields : fields (hash256 * (unlock_conditions * (hash256 * unit))) :=
  plain "parentID" j_hash #:
  plain "unlockConditions" j_unlock_conditions #:
  plain "claimAddress" j_address #:
  FNil.
Definition v1_siafund_input_tuple (a : v1_siafund_input) := (v1sfi_parent_id a, (v1sfi_unlock_conditions a, (v1sfi_claim_address a, tt))).
Definition j_v1_siafund_input : codec v1_siafund_input :=
  struct_codec v1_siafund_input_fields v1_siafund_input_tuple
    (fun '(v0, (v1, (v2, _))) => MkV1Sfi v0 v1 v2).

(** v1.rs:176-189 *)
Definition v1_file_contract_fields : fields (u64 * (hash256 * (u64 * (u64 * (currency * ((vec 48 siacoin_output) * ((vec 48 siacoin_output) * (hash256 * (u64 * unit))))))))) :=
  plain "filesize" j_u64 #:
  plain "fileMerkleRoot" j_hash #:
  plain "windowStart" j_u64 #:
  plain "windowEnd" j_u64 #:
  plain "payout" j_currency #:
  plain "validProofOutputs" (j_vec 48 j_siacoin_output) #:
  plain "missedProofOutputs" (j_vec 48 j_siacoin_output) #:
  plain "unlockHash" j_address #:
  plain "revisionNumber" j_u64 #:
  FNil.
Definition v1_file_contract_tuple (a : v1_file_contract) := (v1fc_file_size a, (v1fc_file_merkle_root a, (v1fc_window_start a, (v1fc_window_end a, (v1fc_payout a, (v1fc_valid_proof_outputs a, (v1fc_missed_proof_outputs a, (v1fc_unlock_hash a, (v1fc_revision_number a, tt))))))))).
Definition j_v1_file_contract : codec v1_file_contract :=
  struct_codec v1_file_contract_fields v1_file_contract_tuple
    (fun '(v0, (v1, (v2, (v3, (v4, (v5, (v6, (v7, (v8, _))))))))) => MkV1Fc v0 v1 v2 v3 v4 v5 v6 v7 v8).

(** v1.rs:205-220 *)
Definition v1_file_contract_revision_fields : fields (hash256 * (unlock_conditions * (u64 * (u64 * (hash256 * (u64 * (u64 * ((vec 48 siacoin_output) * ((vec 48 siacoin_output) * (hash256 * unit)))))))))) :=
  plain "parentID" j_hash #:
  plain "unlockConditions" j_unlock_conditions #:
  plain "revisionNumber" j_u64 #:
  plain "filesize" j_u64 #:
  plain "fileMerkleRoot" j_hash #:
  plain "windowStart" j_u64 #:
  plain "windowEnd" j_u64 #:
  plain "validProofOutputs" (j_vec 48 j_siacoin_output) #:
  plain "missedProofOutputs" (j_vec 48 j_siacoin_output) #:
  plain "unlockHash" j_address #:
  FNil.
Definition v1_file_contract_revision_tuple (a : v1_file_contract_revision) := (v1fcr_parent_id a, (v1fcr_unlock_conditions a, (v1fcr_revision_number a, (v1fcr_file_size a, (v1fcr_file_merkle_root a, (v1fcr_window_start a, (v1fcr_window_end a, (v1fcr_valid_proof_outputs a, (v1fcr_missed_proof_outputs a, (v1fcr_unlock_hash a, tt)))))))))).
Definition j_v1_file_contract_revision : codec v1_file_contract_revision :=
  struct_codec v1_file_contract_revision_fields v1_file_contract_revision_tuple
    (fun '(v0, (v1, (v2, (v3, (v4, (v5, (v6, (v7, (v8, (v9, _)))))))))) => MkV1Fcr v0 v1 v2 v3 v4 v5 v6 v7 v8 v9).

(** v1.rs:222-229 *)
Definition v1_storage_proof_fields : fields (hash256 * (leaf * ((vec 32 hash256) * unit))) :=
  plain "parentID" j_hash #:
  plain "leaf" j_leaf #:
  plain "proof" (j_vec 32 j_hash) #:
  FNil.
Definition v1_storage_proof_tuple (a : v1_storage_proof) := (v1sp_parent_id a, (v1sp_leaf a, (v1sp_proof a, tt))).
Definition j_v1_storage_proof : codec v1_storage_proof :=
  struct_codec v1_storage_proof_fields v1_storage_proof_tuple
    (fun '(v0, (v1, (v2, _))) => MkV1Sp v0 v1 v2).

(** v1.rs:231-255 *)
Definition covered_fields_fields : fields (bool * ((vec 8 usize) * ((vec 8 usize) * ((vec 8 usize) * ((vec 8 usize) * ((vec 8 usize) * ((vec 8 usize) * ((vec 8 usize) * ((vec 8 usize) * ((vec 8 usize) * ((vec 8 usize) * unit))))))))))) :=
  plain "wholeTransaction" j_bool #:
  opt_vec "siacoinInputs" (j_vec 8 j_u64) #:
  opt_vec "siacoinOutputs" (j_vec 8 j_u64) #:
  opt_vec "fileContracts" (j_vec 8 j_u64) #:
  opt_vec "fileContractRevisions" (j_vec 8 j_u64) #:
  opt_vec "storageProofs" (j_vec 8 j_u64) #:
  opt_vec "siafundInputs" (j_vec 8 j_u64) #:
  opt_vec "siafundOutputs" (j_vec 8 j_u64) #:
  opt_vec "minerFees" (j_vec 8 j_u64) #:
  opt_vec "arbitraryData" (j_vec 8 j_u64) #:
  opt_vec "signatures" (j_vec 8 j_u64) #:
  FNil.
Definition covered_fields_tuple (a : covered_fields) := (cf_whole_transaction a, (cf_siacoin_inputs a, (cf_siacoin_outputs a, (cf_file_contracts a, (cf_file_contract_revisions a, (cf_storage_proofs a, (cf_siafund_inputs a, (cf_siafund_outputs a, (cf_miner_fees a, (cf_arbitrary_data a, (cf_signatures a, tt))))))))))).
Definition j_covered_fields : codec covered_fields :=
  struct_codec covered_fields_fields covered_fields_tuple
    (fun '(v0, (v1, (v2, (v3, (v4, (v5, (v6, (v7, (v8, (v9, (v10, _))))))))))) => MkCf v0 v1 v2 v3 v4 v5 v6 v7 v8 v9 v10).

(** v1.rs:266-276 *)
Definition transaction_signature_fields : fields (hash256 * (u64 * (u64 * (covered_fields * ((vec 1 u8) * unit))))) :=
  plain "parentID" j_hash #:
  plain "publicKeyIndex" j_u64 #:
  plain "timelock" j_u64 #:
  plain "coveredFields" j_covered_fields #:
  plain "signature" j_base64 #:
  FNil.
Definition transaction_signature_tuple (a : transaction_signature) := (ts_parent_id a, (ts_public_key_index a, (ts_timelock a, (ts_covered_fields a, (ts_signature a, tt))))).
Definition j_transaction_signature : codec transaction_signature :=
  struct_codec transaction_signature_fields transaction_signature_tuple
    (fun '(v0, (v1, (v2, (v3, (v4, _))))) => MkTs v0 v1 v2 v3 v4).

(** v1.rs:278-305 *)
Definition v1_transaction_fields : fields ((vec 72 v1_siacoin_input) * ((vec 48 siacoin_output) * ((vec 160 v1_file_contract) * ((vec 216 v1_file_contract_revision) * ((vec 120 v1_storage_proof) * ((vec 104 v1_siafund_input) * ((vec 40 siafund_output) * ((vec 16 currency) * ((vec 24 (vec 1 u8)) * ((vec 320 transaction_signature) * unit)))))))))) :=
  opt_vec "siacoinInputs" (j_vec 72 j_v1_siacoin_input) #:
  opt_vec "siacoinOutputs" (j_vec 48 j_siacoin_output) #:
  opt_vec "fileContracts" (j_vec 160 j_v1_file_contract) #:
  opt_vec "fileContractRevisions" (j_vec 216 j_v1_file_contract_revision) #:
  opt_vec "storageProofs" (j_vec 120 j_v1_storage_proof) #:
  opt_vec "siafundInputs" (j_vec 104 j_v1_siafund_input) #:
  opt_vec "siafundOutputs" (j_vec 40 j_siafund_output) #:
  opt_vec "minerFees" (j_vec 16 j_currency) #:
  opt_vec "arbitraryData" j_vec_base64 #:
  opt_vec "signatures" (j_vec 320 j_transaction_signature) #:
  FNil.
Definition v1_transaction_tuple (a : v1_transaction) := (v1t_siacoin_inputs a, (v1t_siacoin_outputs a, (v1t_file_contracts a, (v1t_file_contract_revisions a, (v1t_storage_proofs a, (v1t_siafund_inputs a, (v1t_siafund_outputs a, (v1t_miner_fees a, (v1t_arbitrary_data a, (v1t_signatures a, tt)))))))))).
Definition j_v1_transaction : codec v1_transaction :=
  struct_codec v1_transaction_fields v1_transaction_tuple
    (fun '(v0, (v1, (v2, (v3, (v4, (v5, (v6, (v7, (v8, (v9, _)))))))))) => MkV1Txn v0 v1 v2 v3 v4 v5 v6 v7 v8 v9).

(** common.rs:168-178 *)
Definition block_fields : fields (hash256 * (u64 * (odt * ((vec 48 siacoin_output) * ((vec 240 v1_transaction) * unit))))) :=
  plain "parentID" j_hash #:
  plain "nonce" j_u64 #:
  plain "timestamp" j_odt #:
  plain "minerPayouts" (j_vec 48 j_siacoin_output) #:
  plain "transactions" (j_vec 240 j_v1_transaction) #:
  FNil.
Definition block_tuple (a : block) := (bl_parent_id a, (bl_nonce a, (bl_timestamp a, (bl_miner_payouts a, (bl_transactions a, tt))))).
Definition j_block : codec block :=
  struct_codec block_fields block_tuple
    (fun '(v0, (v1, (v2, (v3, (v4, _))))) => MkBlock v0 v1 v2 v3 v4).

(** ** Spend policies *)

(** spendpolicy.rs:24-31, 91-102 *)
Definition type_str (x : policy) : bytes :=
  match x with
  | PAbove _ => ascii "above"
  | PAfter _ => ascii "after"
  | PPublicKey _ => ascii "pk"
  | PHash _ => ascii "h"
  | PThreshold _ _ => ascii "thresh"
  | POpaque _ => ascii "opaque"
  | PUnlockConditions _ => ascii "uc"
  end.

(** [json!] unwraps what its parts serialise to. *)
Definition junwrap {A} (r : jres A) : jres A := match r with JErr => JPanic UnwrapNone | _ => r end.

(** spendpolicy.rs:276-313 *)
Fixpoint ser_policy (x : policy) : jres json :=
  v <- (match x with
        | PAbove height => c_ser j_u64 height
        | PAfter time => c_ser j_u64 (s_as_u64 (unix_timestamp time))
        | PPublicKey pk => c_ser j_public_key pk
        | PHash h => c_ser j_hash h
        | PThreshold n of =>
          vn <- junwrap (c_ser j_u8 n) ;;
          l <- junwrap (jmap ser_policy of) ;;
          JOk (value_of (JObj [(ascii "n", vn); (ascii "of", JArr l)]))
        | POpaque a => c_ser j_address a
        | PUnlockConditions u => c_ser j_unlock_conditions u
        end) ;;
  JOk (JObj [(ascii "type", JStr (type_str x)); (ascii "policy", v)]).

(** spendpolicy.rs:190-203: of a repeated key the last value stays. *)
Fixpoint visit_policy (t : option bytes) (v : option json) (l : list (bytes * json)) :
  jres (option bytes * option json) :=
  match l with
  | [] => JOk (t, v)
  | (k, j) :: r =>
    if bytes_eqb k (ascii "type") then
      s <- de_string j ;; visit_policy (Some (vlist (sbytes s))) v r
    else if bytes_eqb k (ascii "policy") then visit_policy t (Some (value_of j)) r
    else JErr
  end.

(** spendpolicy.rs:233-237 *)
Definition thresh_fields (c : codec policy) : fields (u8 * (list policy * unit)) :=
  plain "n" j_u8 #: plain "of" (j_list c) #: FNil.

(** spendpolicy.rs:171-274 *)
Fixpoint de_policy (stack : nat) (j : json) : jres policy :=
  match stack with
  | O => JPanic StackOverflow
  | S stack' =>
    match j with
    | JObj l =>
      tv <- visit_policy None None l ;;
      t <- jopt (fst tv) ;;
      v <- jopt (snd tv) ;;
      if bytes_eqb t (ascii "above") then height <- c_de j_u64 v ;; JOk (PAbove height)
      else if bytes_eqb t (ascii "after") then
        unix_seconds <- c_de j_u64 v ;;
        timestamp <- jopt (from_unix_timestamp (swrap 64 w64_nz (Z.of_N (uval unix_seconds)))) ;;
        JOk (PAfter timestamp)
      else if bytes_eqb t (ascii "pk") then pk <- c_de j_public_key v ;; JOk (PPublicKey pk)
      else if bytes_eqb t (ascii "h") then h <- c_de j_hash v ;; JOk (PHash h)
      else if bytes_eqb t (ascii "thresh") then
        thresh <- de_struct (thresh_fields (MkCodec ser_policy (de_policy stack'))) v ;;
        JOk (PThreshold (fst thresh) (fst (snd thresh)))
      else if bytes_eqb t (ascii "opaque") then a <- c_de j_address v ;; JOk (POpaque a)
      else if bytes_eqb t (ascii "uc") then u <- c_de j_unlock_conditions v ;; JOk (PUnlockConditions u)
      else JErr
    | _ => JErr
    end
  end.
Definition j_policy : codec policy := MkCodec ser_policy (de_policy stack).

(** ** Version 2 types *)

(** spendpolicy.rs:390-398 *)
Definition satisfied_policy_fields : fields (policy * ((vec 64 signature) * ((vec 32 hash256) * unit))) :=
  plain "policy" j_policy #:
  opt_vec "signatures" (j_vec 64 j_signature) #:
  opt_vec "preimages" (j_vec 32 j_hash) #:
  FNil.
Definition satisfied_policy_tuple (a : satisfied_policy) := (sp_policy a, (sp_signatures a, (sp_preimages a, tt))).
Definition j_satisfied_policy : codec satisfied_policy :=
  struct_codec satisfied_policy_fields satisfied_policy_tuple
    (fun '(v0, (v1, (v2, _))) => MkSatisfied v0 v1 v2).

(** v2.rs:28-37 *)
Definition attestation_fields : fields (hash256 * (rstring * ((vec 1 u8) * (signature * unit)))) :=
  plain "publicKey" j_public_key #:
  plain "key" j_string #:
  plain "value" j_base64 #:
  plain "signature" j_signature #:
  FNil.
Definition attestation_tuple (a : attestation) := (att_public_key a, (att_key a, (att_value a, (att_signature a, tt)))).
Definition j_attestation : codec attestation :=
  struct_codec attestation_fields attestation_tuple
    (fun '(v0, (v1, (v2, (v3, _)))) => MkAtt v0 v1 v2 v3).

(** v2.rs:60-79 *)
Definition v2_file_contract_fields : fields (u64 * (u64 * (hash256 * (u64 * (u64 * (siacoin_output * (siacoin_output * (currency * (currency * (hash256 * (hash256 * (u64 * (signature * (signature * unit)))))))))))))) :=
  plain "capacity" j_u64 #:
  plain "filesize" j_u64 #:
  plain "fileMerkleRoot" j_hash #:
  plain "proofHeight" j_u64 #:
  plain "expirationHeight" j_u64 #:
  plain "renterOutput" j_siacoin_output #:
  plain "hostOutput" j_siacoin_output #:
  plain "missedHostValue" j_currency #:
  plain "totalCollateral" j_currency #:
  plain "renterPublicKey" j_public_key #:
  plain "hostPublicKey" j_public_key #:
  plain "revisionNumber" j_u64 #:
  plain "renterSignature" j_signature #:
  plain "hostSignature" j_signature #:
  FNil.
Definition v2_file_contract_tuple (a : v2_file_contract) := (v2fc_capacity a, (v2fc_filesize a, (v2fc_file_merkle_root a, (v2fc_proof_height a, (v2fc_expiration_height a, (v2fc_renter_output a, (v2fc_host_output a, (v2fc_missed_host_value a, (v2fc_total_collateral a, (v2fc_renter_public_key a, (v2fc_host_public_key a, (v2fc_revision_number a, (v2fc_renter_signature a, (v2fc_host_signature a, tt)))))))))))))).
Definition j_v2_file_contract : codec v2_file_contract :=
  struct_codec v2_file_contract_fields v2_file_contract_tuple
    (fun '(v0, (v1, (v2, (v3, (v4, (v5, (v6, (v7, (v8, (v9, (v10, (v11, (v12, (v13, _)))))))))))))) => MkV2Fc v0 v1 v2 v3 v4 v5 v6 v7 v8 v9 v10 v11 v12 v13).

(** v2.rs:114-121 *)
Definition siacoin_element_fields : fields (state_element * (hash256 * (siacoin_output * (u64 * unit)))) :=
  plain "stateElement" j_state_element #:
  plain "id" j_hash #:
  plain "siacoinOutput" j_siacoin_output #:
  plain "maturityHeight" j_u64 #:
  FNil.
Definition siacoin_element_tuple (a : siacoin_element) := (sce_state_element a, (sce_id a, (sce_siacoin_output a, (sce_maturity_height a, tt)))).
Definition j_siacoin_element : codec siacoin_element :=
  struct_codec siacoin_element_fields siacoin_element_tuple
    (fun '(v0, (v1, (v2, (v3, _)))) => MkSce v0 v1 v2 v3).

(** v2.rs:124-131 *)
Definition siafund_element_fields : fields (state_element * (hash256 * (siafund_output * (currency * unit)))) :=
  plain "stateElement" j_state_element #:
  plain "id" j_hash #:
  plain "siafundOutput" j_siafund_output #:
  plain "claimStart" j_currency #:
  FNil.
Definition siafund_element_tuple (a : siafund_element) := (sfe_state_element a, (sfe_id a, (sfe_siafund_output a, (sfe_claim_start a, tt)))).
Definition j_siafund_element : codec siafund_element :=
  struct_codec siafund_element_fields siafund_element_tuple
    (fun '(v0, (v1, (v2, (v3, _)))) => MkSfe v0 v1 v2 v3).

(** v2.rs:135-141 *)
Definition file_contract_element_fields : fields (state_element * (hash256 * (v2_file_contract * unit))) :=
  plain "stateElement" j_state_element #:
  plain "id" j_hash #:
  plain "v2FileContract" j_v2_file_contract #:
  FNil.
Definition file_contract_element_tuple (a : file_contract_element) := (fce_state_element a, (fce_id a, (fce_v2_file_contract a, tt))).
Definition j_file_contract_element : codec file_contract_element :=
  struct_codec file_contract_element_fields file_contract_element_tuple
    (fun '(v0, (v1, (v2, _))) => MkFce v0 v1 v2).

(** v2.rs:144-150 *)
Definition chain_index_element_fields : fields (state_element * (hash256 * (chain_index * unit))) :=
  plain "stateElement" j_state_element #:
  plain "id" j_hash #:
  plain "chainIndex" j_chain_index #:
  FNil.
Definition chain_index_element_tuple (a : chain_index_element) := (cie_state_element a, (cie_id a, (cie_chain_index a, tt))).
Definition j_chain_index_element : codec chain_index_element :=
  struct_codec chain_index_element_fields chain_index_element_tuple
    (fun '(v0, (v1, (v2, _))) => MkCie v0 v1 v2).

(** v2.rs:172-177 *)
Definition v2_siacoin_input_fields : fields (siacoin_element * (satisfied_policy * unit)) :=
  plain "parent" j_siacoin_element #:
  plain "satisfiedPolicy" j_satisfied_policy #:
  FNil.
Definition v2_siacoin_input_tuple (a : v2_siacoin_input) := (v2sci_parent a, (v2sci_satisfied_policy a, tt)).
Definition j_v2_siacoin_input : codec v2_siacoin_input :=
  struct_codec v2_siacoin_input_fields v2_siacoin_input_tuple
    (fun '(v0, (v1, _)) => MkV2Sci v0 v1).

(** v2.rs:181-187 *)
Definition v2_siafund_input_fields : fields (siafund_element * (hash256 * (satisfied_policy * unit))) :=
  plain "parent" j_siafund_element #:
  plain "claimAddress" j_address #:
  plain "satisfiedPolicy" j_satisfied_policy #:
  FNil.
Definition v2_siafund_input_tuple (a : v2_siafund_input) := (v2sfi_parent a, (v2sfi_claim_address a, (v2sfi_satisfied_policy a, tt))).
Definition j_v2_siafund_input : codec v2_siafund_input :=
  struct_codec v2_siafund_input_fields v2_siafund_input_tuple
    (fun '(v0, (v1, (v2, _))) => MkV2Sfi v0 v1 v2).

(** v2.rs:190-195 *)
Definition v2_file_contract_revision_fields : fields (file_contract_element * (v2_file_contract * unit)) :=
  plain "parent" j_file_contract_element #:
  plain "revision" j_v2_file_contract #:
  FNil.
Definition v2_file_contract_revision_tuple (a : v2_file_contract_revision) := (v2fcr_parent a, (v2fcr_revision a, tt)).
Definition j_v2_file_contract_revision : codec v2_file_contract_revision :=
  struct_codec v2_file_contract_revision_fields v2_file_contract_revision_tuple
    (fun '(v0, (v1, _)) => MkV2Fcr v0 v1).

(** v2.rs:207-218 *)
Definition file_contract_renewal_fields : fields (v2_file_contract * (v2_file_contract * (currency * (currency * (signature * (signature * unit)))))) :=
  plain "finalRevision" j_v2_file_contract #:
  plain "newContract" j_v2_file_contract #:
  plain "renterRollover" j_currency #:
  plain "hostRollover" j_currency #:
  plain "renterSignature" j_signature #:
  plain "hostSignature" j_signature #:
  FNil.
Definition file_contract_renewal_tuple (a : file_contract_renewal) := (ren_final_revision a, (ren_new_contract a, (ren_renter_rollover a, (ren_host_rollover a, (ren_renter_signature a, (ren_host_signature a, tt)))))).
Definition j_file_contract_renewal : codec file_contract_renewal :=
  struct_codec file_contract_renewal_fields file_contract_renewal_tuple
    (fun '(v0, (v1, (v2, (v3, (v4, (v5, _)))))) => MkRen v0 v1 v2 v3 v4 v5).

(** v2.rs:242-257 *)
Definition v2_storage_proof_fields : fields (chain_index_element * (leaf * ((vec 32 hash256) * unit))) :=
  plain "proofIndex" j_chain_index_element #:
  plain "leaf" j_leaf #:
  plain "proof" (j_vec 32 j_hash) #:
  FNil.
Definition v2_storage_proof_tuple (a : v2_storage_proof) := (v2sp_proof_index a, (v2sp_leaf a, (v2sp_proof a, tt))).
Definition j_v2_storage_proof : codec v2_storage_proof :=
  struct_codec v2_storage_proof_fields v2_storage_proof_tuple
    (fun '(v0, (v1, (v2, _))) => MkV2Sp v0 v1 v2).

(** v2.rs:297-304: the derived form of [ContractResolution], as read from a text *)
Definition j_contract_resolution : codec contract_resolution :=
  MkCodec
    (fun r =>
       match r with
       | ResRenewal x => v <- c_ser j_file_contract_renewal x ;; JOk (JObj [(ascii "renewal", v)])
       | ResStorageProof x => v <- c_ser j_v2_storage_proof x ;; JOk (JObj [(ascii "storageProof", v)])
       | ResExpiration => JOk (JObj [(ascii "expiration", JArr [])])
       end)
    (fun j =>
       match j with
       | JObj [(k, v)] =>
         if bytes_eqb k (ascii "renewal") then x <- c_de j_file_contract_renewal v ;; JOk (ResRenewal x)
         else if bytes_eqb k (ascii "storageProof") then x <- c_de j_v2_storage_proof v ;; JOk (ResStorageProof x)
         else if bytes_eqb k (ascii "expiration") then
           match v with JArr [] => JOk ResExpiration | _ => JErr end
         else JErr
       | _ => JErr
       end).

(** v2.rs:359-388 *)
Definition ser_file_contract_resolution (r : file_contract_resolution) : jres json :=
  parent <- c_ser j_file_contract_element (fcres_parent r) ;;
  resolution <- (match fcres_resolution r with
                 | ResRenewal x => v <- c_ser j_file_contract_renewal x ;; JOk (value_of v)
                 | ResStorageProof x => v <- c_ser j_v2_storage_proof x ;; JOk (value_of v)
                 | ResExpiration => JOk (JObj [])
                 end) ;;
  JOk (JObj [(ascii "parent", parent);
             (ascii "type", JStr (match fcres_resolution r with
                                  | ResRenewal _ => ascii "renewal"
                                  | ResStorageProof _ => ascii "storageProof"
                                  | ResExpiration => ascii "expiration"
                                  end));
             (ascii "resolution", resolution)]).

(** v2.rs:409-425 *)
Fixpoint visit_resolution (parent : option file_contract_element) (t : option bytes) (v : option json)
  (l : list (bytes * json)) : jres (option file_contract_element * (option bytes * option json)) :=
  match l with
  | [] => JOk (parent, (t, v))
  | (k, j) :: r =>
    if bytes_eqb k (ascii "parent") then
      x <- c_de j_file_contract_element j ;; visit_resolution (Some x) t v r
    else if bytes_eqb k (ascii "type") then
      s <- de_string j ;; visit_resolution parent (Some (vlist (sbytes s))) v r
    else if bytes_eqb k (ascii "resolution") then visit_resolution parent t (Some (value_of j)) r
    else JErr
  end.

(** v2.rs:390-450 *)
Definition de_file_contract_resolution (j : json) : jres file_contract_resolution :=
  match j with
  | JObj l =>
    x <- visit_resolution None None None l ;;
    parent <- jopt (fst x) ;;
    t <- jopt (fst (snd x)) ;;
    v <- jopt (snd (snd x)) ;;
    if bytes_eqb t (ascii "renewal") then
      r <- c_de j_file_contract_renewal v ;; JOk (MkFcres parent (ResRenewal r))
    else if bytes_eqb t (ascii "storageProof") then
      r <- c_de j_v2_storage_proof v ;; JOk (MkFcres parent (ResStorageProof r))
    else if bytes_eqb t (ascii "expiration") then JOk (MkFcres parent ResExpiration)
    else JErr
  | _ => JErr
  end.
Definition j_file_contract_resolution : codec file_contract_resolution :=
  MkCodec ser_file_contract_resolution de_file_contract_resolution.

(** v2.rs:453-481 *)
Definition v2_transaction_fields : fields ((vec 224 v2_siacoin_input) * ((vec 48 siacoin_output) * ((vec 256 v2_siafund_input) * ((vec 40 siafund_output) * ((vec 400 v2_file_contract) * ((vec 864 v2_file_contract_revision) * ((vec 1440 file_contract_resolution) * ((vec 144 attestation) * ((vec 1 u8) * ((option hash256) * (currency * unit))))))))))) :=
  opt_vec "siacoinInputs" (j_vec 224 j_v2_siacoin_input) #:
  opt_vec "siacoinOutputs" (j_vec 48 j_siacoin_output) #:
  opt_vec "siafundInputs" (j_vec 256 j_v2_siafund_input) #:
  opt_vec "siafundOutputs" (j_vec 40 j_siafund_output) #:
  opt_vec "fileContracts" (j_vec 400 j_v2_file_contract) #:
  opt_vec "fileContractRevisions" (j_vec 864 j_v2_file_contract_revision) #:
  opt_vec "fileContractResolutions" (j_vec 1440 j_file_contract_resolution) #:
  opt_vec "attestations" (j_vec 144 j_attestation) #:
  opt_vec "arbitraryData" j_base64 #:
  opt_option "newFoundationAddress" (j_option j_address) #:
  plain "minerFee" j_currency #:
  FNil.
Definition v2_transaction_tuple (a : v2_transaction) := (v2t_siacoin_inputs a, (v2t_siacoin_outputs a, (v2t_siafund_inputs a, (v2t_siafund_outputs a, (v2t_file_contracts a, (v2t_file_contract_revisions a, (v2t_file_contract_resolutions a, (v2t_attestations a, (v2t_arbitrary_data a, (v2t_new_foundation_address a, (v2t_miner_fee a, tt))))))))))).
Definition j_v2_transaction : codec v2_transaction :=
  struct_codec v2_transaction_fields v2_transaction_tuple
    (fun '(v0, (v1, (v2, (v3, (v4, (v5, (v6, (v7, (v8, (v9, (v10, _))))))))))) => MkV2Txn v0 v1 v2 v3 v4 v5 v6 v7 v8 v9 v10).

(** ** Consensus types *)

(** consensus.rs:300-306: the roots of the trees that exist *)
Fixpoint present_trees (num_leaves : u64) (i : N) (l : list hash256) : list hash256 :=
  match l with
  | [] => []
  | root :: r =>
    (if has_tree_at_height num_leaves i then [root] else []) ++ present_trees num_leaves (i + 1) r
  end.

(** consensus.rs:296-310 *)
Definition ser_element_accumulator (a : element_accumulator) : jres json :=
  n <- c_ser j_u64 (ea_num_leaves a) ;;
  trees <- c_ser (j_list j_hash) (present_trees (ea_num_leaves a) 0 (flist (ea_trees a))) ;;
  JOk (JObj [(ascii "numLeaves", n); (ascii "trees", trees)]).

(** consensus.rs:317-322 *)
Definition inter_fields : fields (u64 * (vec 32 hash256 * unit)) :=
  plain "numLeaves" j_u64 #: plain "trees" (j_vec 32 j_hash) #: FNil.

(** [u64::count_ones] *)
Fixpoint ones (x : positive) : N :=
  match x with xH => 1 | xO r => ones r | xI r => 1 + ones r end.
Definition count_ones (n : u64) : N := match uval n with N0 => 0 | Npos x => ones x end.

(** consensus.rs:335-343: [k] trees from height [i] on *)
Fixpoint place_trees (num_leaves : u64) (k : nat) (i : N) (l : list hash256) : option (list hash256) :=
  match k with
  | O => Some []
  | S k' =>
    if has_tree_at_height num_leaves i then
      match l with
      | root :: r => match place_trees num_leaves k' (i + 1) r with Some t => Some (root :: t) | None => None end
      | [] => None
      end
    else match place_trees num_leaves k' (i + 1) l with Some t => Some (zero_hash :: t) | None => None end
  end.

(** consensus.rs:312-346 *)
Definition de_element_accumulator (j : json) : jres element_accumulator :=
  inter <- de_struct inter_fields j ;;
  let num_leaves := fst inter in
  let trees := vlist (fst (snd inter)) in
  if negb (N.of_nat (length trees) =? count_ones num_leaves) then JErr
  else
    t <- jopt (place_trees num_leaves 64 0 trees) ;;
    f <- jopt (farr_of 64 t) ;;
    JOk (MkEa num_leaves f).
Definition j_element_accumulator : codec element_accumulator :=
  MkCodec ser_element_accumulator de_element_accumulator.

(** consensus.rs:11-17 *)
Definition hardfork_dev_addr_fields : fields (u64 * (hash256 * (hash256 * unit))) :=
  plain "height" j_u64 #:
  plain "oldAddress" j_address #:
  plain "newAddress" j_address #:
  FNil.
Definition hardfork_dev_addr_tuple (a : hardfork_dev_addr) := (hfda_height a, (hfda_old_address a, (hfda_new_address a, tt))).
Definition j_hardfork_dev_addr : codec hardfork_dev_addr :=
  struct_codec hardfork_dev_addr_fields hardfork_dev_addr_tuple
    (fun '(v0, (v1, (v2, _))) => MkHfDevAddr v0 v1 v2).

(** consensus.rs:21-25 *)
Definition hardfork_tax_fields : fields (u64 * unit) :=
  plain "height" j_u64 #:
  FNil.
Definition hardfork_tax_tuple (a : hardfork_tax) := (hft_height a, tt).
Definition j_hardfork_tax : codec hardfork_tax :=
  struct_codec hardfork_tax_fields hardfork_tax_tuple
    (fun '(v0, _) => MkHfTax v0).

(** consensus.rs:29-33 *)
Definition hardfork_storage_proof_fields : fields (u64 * unit) :=
  plain "height" j_u64 #:
  FNil.
Definition hardfork_storage_proof_tuple (a : hardfork_storage_proof) := (hfsp_height a, tt).
Definition j_hardfork_storage_proof : codec hardfork_storage_proof :=
  struct_codec hardfork_storage_proof_fields hardfork_storage_proof_tuple
    (fun '(v0, _) => MkHfSp v0).

(** consensus.rs:37-44 *)
Definition hardfork_oak_fields : fields (u64 * (u64 * (odt * unit))) :=
  plain "height" j_u64 #:
  plain "fixHeight" j_u64 #:
  plain "genesisTimestamp" j_odt #:
  FNil.
Definition hardfork_oak_tuple (a : hardfork_oak) := (hfo_height a, (hfo_fix_height a, (hfo_genesis_timestamp a, tt))).
Definition j_hardfork_oak : codec hardfork_oak :=
  struct_codec hardfork_oak_fields hardfork_oak_tuple
    (fun '(v0, (v1, (v2, _))) => MkHfOak v0 v1 v2).

(** consensus.rs:48-55 *)
Definition hardfork_asic_fields : fields (u64 * (duration * (hash256 * unit))) :=
  plain "height" j_u64 #:
  plain "oakTime" j_duration #:
  plain "oakTarget" j_hash #:
  FNil.
Definition hardfork_asic_tuple (a : hardfork_asic) := (hfa_height a, (hfa_oak_time a, (hfa_oak_target a, tt))).
Definition j_hardfork_asic : codec hardfork_asic :=
  struct_codec hardfork_asic_fields hardfork_asic_tuple
    (fun '(v0, (v1, (v2, _))) => MkHfAsic v0 v1 v2).

(** consensus.rs:59-65 *)
Definition hardfork_foundation_fields : fields (u64 * (hash256 * (hash256 * unit))) :=
  plain "height" j_u64 #:
  plain "primaryAddress" j_address #:
  plain "failsafeAddress" j_address #:
  FNil.
Definition hardfork_foundation_tuple (a : hardfork_foundation) := (hff_height a, (hff_primary_address a, (hff_failsafe_address a, tt))).
Definition j_hardfork_foundation : codec hardfork_foundation :=
  struct_codec hardfork_foundation_fields hardfork_foundation_tuple
    (fun '(v0, (v1, (v2, _))) => MkHfFoundation v0 v1 v2).

(** consensus.rs:68-73 *)
Definition hardfork_v2_fields : fields (u64 * (u64 * unit)) :=
  plain "allowHeight" j_u64 #:
  plain "requireHeight" j_u64 #:
  FNil.
Definition hardfork_v2_tuple (a : hardfork_v2) := (hfv2_allow_height a, (hfv2_require_height a, tt)).
Definition j_hardfork_v2 : codec hardfork_v2 :=
  struct_codec hardfork_v2_fields hardfork_v2_tuple
    (fun '(v0, (v1, _)) => MkHfV2 v0 v1).

(** consensus.rs:76-96 *)
Definition network_fields : fields (rstring * (currency * (currency * (hash256 * (duration * (u64 * (hardfork_dev_addr * (hardfork_tax * (hardfork_storage_proof * (hardfork_oak * (hardfork_asic * (hardfork_foundation * (hardfork_v2 * unit))))))))))))) :=
  plain "name" j_string #:
  plain "initialCoinbase" j_currency #:
  plain "minimumCoinbase" j_currency #:
  plain "initialTarget" j_hash #:
  plain "blockInterval" j_duration #:
  plain "maturityDelay" j_u64 #:
  plain "hardforkDevAddr" j_hardfork_dev_addr #:
  plain "hardforkTax" j_hardfork_tax #:
  plain "hardforkStorageProof" j_hardfork_storage_proof #:
  plain "hardforkOak" j_hardfork_oak #:
  plain "hardforkASIC" j_hardfork_asic #:
  plain "hardforkFoundation" j_hardfork_foundation #:
  plain "hardforkV2" j_hardfork_v2 #:
  FNil.
Definition network_tuple (a : network) := (net_name a, (net_initial_coinbase a, (net_minimum_coinbase a, (net_initial_target a, (net_block_interval a, (net_maturity_delay a, (net_hardfork_dev_addr a, (net_hardfork_tax a, (net_hardfork_storage_proof a, (net_hardfork_oak a, (net_hardfork_asic a, (net_hardfork_foundation a, (net_hardfork_v2 a, tt))))))))))))).
Definition j_network : codec network :=
  struct_codec network_fields network_tuple
    (fun '(v0, (v1, (v2, (v3, (v4, (v5, (v6, (v7, (v8, (v9, (v10, (v11, (v12, _))))))))))))) => MkNetwork v0 v1 v2 v3 v4 v5 v6 v7 v8 v9 v10 v11 v12).

(** consensus.rs:349-373 *)
Definition state_fields : fields (chain_index * ((farr 11 odt) * (hash256 * (hash256 * (currency * (duration * (hash256 * (hash256 * (hash256 * (work * (work * (work * (element_accumulator * (u64 * unit)))))))))))))) :=
  plain "index" j_chain_index #:
  plain "prevTimestamps" j_timestamps #:
  plain "depth" j_hash #:
  plain "childTarget" j_hash #:
  plain "siafundPool" j_currency #:
  plain "oakTime" j_duration #:
  plain "oakTarget" j_hash #:
  plain "foundationPrimaryAddress" j_address #:
  plain "foundationFailsafeAddress" j_address #:
  plain "totalWork" j_work #:
  plain "difficulty" j_work #:
  plain "oakWork" j_work #:
  plain "elements" j_element_accumulator #:
  plain "attestations" j_u64 #:
  FNil.
Definition state_tuple (a : state) := (st_index a, (st_prev_timestamps a, (st_depth a, (st_child_target a, (st_siafund_pool a, (st_oak_time a, (st_oak_target a, (st_foundation_primary_address a, (st_foundation_failsafe_address a, (st_total_work a, (st_difficulty a, (st_oak_work a, (st_elements a, (st_attestations a, tt)))))))))))))).
Definition j_state : codec state :=
  struct_codec state_fields state_tuple
    (fun '(v0, (v1, (v2, (v3, (v4, (v5, (v6, (v7, (v8, (v9, (v10, (v11, (v12, (v13, _)))))))))))))) => MkState v0 v1 v2 v3 v4 v5 v6 v7 v8 v9 v10 v11 v12 v13).

(** consensus.rs:439-443 *)
Definition chain_state_fields : fields (network * (state * unit)) :=
  plain "network" j_network #:
  plain "state" j_state #:
  FNil.
Definition chain_state_tuple (a : chain_state) := (cs_network a, (cs_state a, tt)).
Definition j_chain_state : codec chain_state :=
  struct_codec chain_state_fields chain_state_tuple
    (fun '(v0, (v1, _)) => MkChainState v0 v1).

End Codecs.
