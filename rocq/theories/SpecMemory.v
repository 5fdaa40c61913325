(** Specification: the memory a decoder asks for. *)

From Verif Require Import Base Io Model_encoding Model_common Model_v1 Model_policy Model_v2 Model_consensus.
Local Open Scope N_scope.

(** All that is requested while decoding [bs], and the number of bytes of a string. *)
Definition requested {A} (d : dec A) (bs : bytes) : N := fold_right N.add 0 (requests d bs).
Definition size (bs : bytes) : N := N.of_nat (length bs).

(** The decoders of the library. *)
Inductive Decoder (stack : nat) : forall A : Type, dec A -> Prop :=
| D_u8 : Decoder stack u8 decode_u8
| D_bool : Decoder stack bool decode_bool
| D_u64 : Decoder stack u64 decode_u64
| D_i64 : Decoder stack i64 decode_i64
| D_array : forall n, Decoder stack (arr n) (decode_arr n)
| D_bytes : Decoder stack (vec 1 u8) (decode_vec 1 decode_u8)
| D_string : Decoder stack rstring decode_string
| D_timestamp : Decoder stack odt decode_odt
| D_duration : Decoder stack duration decode_duration
| D_currency : Decoder stack currency decode_currency
| D_v1_currency : Decoder stack currency decode_v1_currency
| D_work : Decoder stack work decode_work
| D_v1_work : Decoder stack work decode_v1_work
| D_chain_index : Decoder stack chain_index decode_chain_index
| D_siacoin_output : Decoder stack siacoin_output decode_siacoin_output
| D_siafund_output : Decoder stack siafund_output decode_siafund_output
| D_v1_siacoin_output : Decoder stack siacoin_output decode_v1_siacoin_output
| D_v1_siafund_output : Decoder stack siafund_output decode_v1_siafund_output
| D_state_element : Decoder stack state_element decode_state_element
| D_unlock_key : Decoder stack unlock_key decode_unlock_key
| D_unlock_conditions : Decoder stack unlock_conditions decode_unlock_conditions
| D_v1_siacoin_input : Decoder stack v1_siacoin_input decode_v1_siacoin_input
| D_v1_siafund_input : Decoder stack v1_siafund_input decode_v1_siafund_input
| D_v1_file_contract : Decoder stack v1_file_contract decode_v1_file_contract
| D_v1_file_contract_revision : Decoder stack v1_file_contract_revision decode_v1_file_contract_revision
| D_v1_storage_proof : Decoder stack v1_storage_proof decode_v1_storage_proof
| D_covered_fields : Decoder stack covered_fields decode_covered_fields
| D_transaction_signature : Decoder stack transaction_signature decode_transaction_signature
| D_v1_transaction : Decoder stack v1_transaction decode_v1_transaction
| D_block : Decoder stack block decode_block
| D_policy : Decoder stack policy (decode_policy stack)
| D_satisfied_policy : Decoder stack satisfied_policy (decode_satisfied_policy stack)
| D_attestation : Decoder stack attestation decode_attestation
| D_v2_file_contract : Decoder stack v2_file_contract decode_v2_file_contract
| D_siacoin_element : Decoder stack siacoin_element decode_siacoin_element
| D_siafund_element : Decoder stack siafund_element decode_siafund_element
| D_file_contract_element : Decoder stack file_contract_element decode_file_contract_element
| D_chain_index_element : Decoder stack chain_index_element decode_chain_index_element
| D_v2_siacoin_input : Decoder stack v2_siacoin_input (decode_v2_siacoin_input stack)
| D_v2_siafund_input : Decoder stack v2_siafund_input (decode_v2_siafund_input stack)
| D_v2_file_contract_revision : Decoder stack v2_file_contract_revision decode_v2_file_contract_revision
| D_file_contract_renewal : Decoder stack file_contract_renewal decode_file_contract_renewal
| D_v2_storage_proof : Decoder stack v2_storage_proof decode_v2_storage_proof
| D_file_contract_resolution : Decoder stack file_contract_resolution decode_file_contract_resolution
| D_v2_transaction : Decoder stack v2_transaction (decode_v2_transaction stack)
| D_element_accumulator : Decoder stack element_accumulator decode_element_accumulator
| D_state : forall p, Decoder stack state (decode_state p).

(** The types that hold no vector. *)
Inductive Fixed : forall A : Type, dec A -> Prop :=
| F_u64 : Fixed u64 decode_u64
| F_bool : Fixed bool decode_bool
| F_array : forall n, Fixed (arr n) (decode_arr n)
| F_timestamp : Fixed odt decode_odt
| F_duration : Fixed duration decode_duration
| F_currency : Fixed currency decode_currency
| F_v1_currency : Fixed currency decode_v1_currency
| F_work : Fixed work decode_work
| F_v1_work : Fixed work decode_v1_work
| F_chain_index : Fixed chain_index decode_chain_index
| F_siacoin_output : Fixed siacoin_output decode_siacoin_output
| F_siafund_output : Fixed siafund_output decode_siafund_output
| F_v1_siacoin_output : Fixed siacoin_output decode_v1_siacoin_output
| F_v1_siafund_output : Fixed siafund_output decode_v1_siafund_output
| F_v2_file_contract : Fixed v2_file_contract decode_v2_file_contract
| F_file_contract_renewal : Fixed file_contract_renewal decode_file_contract_renewal
| F_element_accumulator : Fixed element_accumulator decode_element_accumulator
| F_state : forall p, Fixed state (decode_state p).
