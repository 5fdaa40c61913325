(** The structs of the library that use the derive macros, as the macros see them, and the
    implementations the compiler finds for the types of their fields. *)

From Verif Require Import Base Io Model_encoding Model_common Model_v1 Model_policy Model_v2 Model_derive.
Local Open Scope N_scope.

(** The types of the fields: [R_array n] is [[u8; n]], [R_vec t] is [Vec<t>]. Structs of the same
    name are told apart by their module. *)
Inductive rust_type : Type :=
| R_array (n : nat)
| R_vec (t : rust_type)
| R_bool
| R_u8
| R_u64
| R_usize
| R_string
| R_currency
| R_hash256
| R_block_id
| R_siacoin_output_id
| R_siafund_output_id
| R_file_contract_id
| R_chain_index
| R_address
| R_siacoin_output
| R_siafund_output
| R_leaf
| R_state_element
| R_unlock_key
| R_unlock_conditions
| R_v1_siacoin_input
| R_v1_siafund_input
| R_v1_file_contract
| R_v1_file_contract_revision
| R_v1_storage_proof
| R_covered_fields
| R_transaction_signature
| R_transaction
| R_attestation
| R_v2_file_contract
| R_siacoin_element
| R_siafund_element
| R_file_contract_element
| R_chain_index_element
| R_v2_siacoin_input
| R_v2_siafund_input
| R_v2_file_contract_revision
| R_file_contract_renewal
| R_v2_storage_proof
| R_satisfied_policy
| R_public_key
| R_signature
| R_specifier
| R_spend_policy.

Definition rust_type_eq_dec : forall a b : rust_type, {a = b} + {a <> b}.
Proof. decide equality; apply Nat.eq_dec. Defined.

(** [size_of], as in Model_v1.v. *)
Definition size_of (t : rust_type) : N :=
  match t with
  | R_array n => N.of_nat n
  | R_vec _ => 24
  | R_bool => 1
  | R_u8 => 1
  | R_u64 => 8
  | R_usize => 8
  | R_string => 24
  | R_currency => 16
  | R_hash256 => 32
  | R_block_id => 32
  | R_siacoin_output_id => 32
  | R_siafund_output_id => 32
  | R_file_contract_id => 32
  | R_chain_index => 40
  | R_address => 32
  | R_siacoin_output => 48
  | R_siafund_output => 40
  | R_leaf => 64
  | R_state_element => 32
  | R_unlock_key => 40
  | R_unlock_conditions => 40
  | R_v1_siacoin_input => 72
  | R_v1_siafund_input => 104
  | R_v1_file_contract => 160
  | R_v1_file_contract_revision => 216
  | R_v1_storage_proof => 120
  | R_covered_fields => 248
  | R_transaction_signature => 320
  | R_transaction => 240
  | R_attestation => 144
  | R_v2_file_contract => 400
  | R_siacoin_element => 128
  | R_siafund_element => 128
  | R_file_contract_element => 464
  | R_chain_index_element => 104
  | R_v2_siacoin_input => 224
  | R_v2_siafund_input => 256
  | R_v2_file_contract_revision => 864
  | R_file_contract_renewal => 960
  | R_v2_storage_proof => 192
  | R_satisfied_policy => 96
  | R_public_key => 32
  | R_signature => 64
  | R_specifier => 16
  | R_spend_policy => 48
  end.

(** The values of a type. *)
Fixpoint values (t : rust_type) : Type :=
  match t with
  | R_array n => arr n
  | R_vec t => vec (size_of t) (values t)
  | R_bool => bool
  | R_u8 => u8
  | R_u64 => u64
  | R_usize => usize
  | R_string => rstring
  | R_currency => currency
  | R_hash256 => hash256
  | R_block_id => hash256
  | R_siacoin_output_id => hash256
  | R_siafund_output_id => hash256
  | R_file_contract_id => hash256
  | R_chain_index => chain_index
  | R_address => hash256
  | R_siacoin_output => siacoin_output
  | R_siafund_output => siafund_output
  | R_leaf => leaf
  | R_state_element => state_element
  | R_unlock_key => unlock_key
  | R_unlock_conditions => unlock_conditions
  | R_v1_siacoin_input => v1_siacoin_input
  | R_v1_siafund_input => v1_siafund_input
  | R_v1_file_contract => v1_file_contract
  | R_v1_file_contract_revision => v1_file_contract_revision
  | R_v1_storage_proof => v1_storage_proof
  | R_covered_fields => covered_fields
  | R_transaction_signature => transaction_signature
  | R_transaction => v1_transaction
  | R_attestation => attestation
  | R_v2_file_contract => v2_file_contract
  | R_siacoin_element => siacoin_element
  | R_siafund_element => siafund_element
  | R_file_contract_element => file_contract_element
  | R_chain_index_element => chain_index_element
  | R_v2_siacoin_input => v2_siacoin_input
  | R_v2_siafund_input => v2_siafund_input
  | R_v2_file_contract_revision => v2_file_contract_revision
  | R_file_contract_renewal => file_contract_renewal
  | R_v2_storage_proof => v2_storage_proof
  | R_satisfied_policy => satisfied_policy
  | R_public_key => hash256
  | R_signature => signature
  | R_specifier => specifier
  | R_spend_policy => policy
  end.

(** The implementations of [V1SiaEncodable]: encoding/v1.rs and the types of the model. *)
Fixpoint v1_encoder (t : rust_type) : option (values t -> wprog) :=
  match t return option (values t -> wprog) with
  | R_array n => Some (encode_arr)
  | R_vec t => match v1_encoder t with Some e => Some (encode_vec e) | None => None end
  | R_bool => Some encode_bool
  | R_u8 => Some encode_u8
  | R_u64 => Some encode_u64
  | R_usize => Some encode_usize
  | R_string => Some encode_string
  | R_currency => Some encode_v1_currency
  | R_hash256 => Some encode_hash
  | R_block_id => Some encode_hash
  | R_siacoin_output_id => Some encode_hash
  | R_siafund_output_id => Some encode_hash
  | R_file_contract_id => Some encode_hash
  | R_chain_index => None
  | R_address => Some encode_hash
  | R_siacoin_output => Some encode_v1_siacoin_output
  | R_siafund_output => Some encode_v1_siafund_output
  | R_leaf => Some encode_leaf
  | R_state_element => None
  | R_unlock_key => Some encode_unlock_key
  | R_unlock_conditions => Some encode_unlock_conditions
  | R_v1_siacoin_input => Some encode_v1_siacoin_input
  | R_v1_siafund_input => Some encode_v1_siafund_input
  | R_v1_file_contract => Some encode_v1_file_contract
  | R_v1_file_contract_revision => Some encode_v1_file_contract_revision
  | R_v1_storage_proof => Some encode_v1_storage_proof
  | R_covered_fields => Some encode_covered_fields
  | R_transaction_signature => Some encode_transaction_signature
  | R_transaction => Some encode_v1_transaction
  | R_attestation => None
  | R_v2_file_contract => None
  | R_siacoin_element => None
  | R_siafund_element => None
  | R_file_contract_element => None
  | R_chain_index_element => None
  | R_v2_siacoin_input => None
  | R_v2_siafund_input => None
  | R_v2_file_contract_revision => None
  | R_file_contract_renewal => None
  | R_v2_storage_proof => None
  | R_satisfied_policy => None
  | R_public_key => None
  | R_signature => None
  | R_specifier => Some encode_specifier
  | R_spend_policy => None
  end.

(** The implementations of [V1SiaDecodable]. *)
Fixpoint v1_decoder (t : rust_type) : option (dec (values t)) :=
  match t return option (dec (values t)) with
  | R_array n => Some (decode_arr n)
  | R_vec t => match v1_decoder t with Some e => Some (decode_vec (size_of t) e) | None => None end
  | R_bool => Some decode_bool
  | R_u8 => Some decode_u8
  | R_u64 => Some decode_u64
  | R_usize => Some decode_usize
  | R_string => Some decode_string
  | R_currency => Some decode_v1_currency
  | R_hash256 => Some decode_hash
  | R_block_id => Some decode_hash
  | R_siacoin_output_id => Some decode_hash
  | R_siafund_output_id => Some decode_hash
  | R_file_contract_id => Some decode_hash
  | R_chain_index => None
  | R_address => Some decode_hash
  | R_siacoin_output => Some decode_v1_siacoin_output
  | R_siafund_output => Some decode_v1_siafund_output
  | R_leaf => Some decode_leaf
  | R_state_element => None
  | R_unlock_key => Some decode_unlock_key
  | R_unlock_conditions => Some decode_unlock_conditions
  | R_v1_siacoin_input => Some decode_v1_siacoin_input
  | R_v1_siafund_input => Some decode_v1_siafund_input
  | R_v1_file_contract => Some decode_v1_file_contract
  | R_v1_file_contract_revision => Some decode_v1_file_contract_revision
  | R_v1_storage_proof => Some decode_v1_storage_proof
  | R_covered_fields => Some decode_covered_fields
  | R_transaction_signature => Some decode_transaction_signature
  | R_transaction => Some decode_v1_transaction
  | R_attestation => None
  | R_v2_file_contract => None
  | R_siacoin_element => None
  | R_siafund_element => None
  | R_file_contract_element => None
  | R_chain_index_element => None
  | R_v2_siacoin_input => None
  | R_v2_siafund_input => None
  | R_v2_file_contract_revision => None
  | R_file_contract_renewal => None
  | R_v2_storage_proof => None
  | R_satisfied_policy => None
  | R_public_key => None
  | R_signature => None
  | R_specifier => Some decode_specifier
  | R_spend_policy => None
  end.

(** The implementations of [SiaEncodable]. *)
Fixpoint v2_encoder (t : rust_type) : option (values t -> wprog) :=
  match t return option (values t -> wprog) with
  | R_array n => Some (encode_arr)
  | R_vec t => match v2_encoder t with Some e => Some (encode_vec e) | None => None end
  | R_bool => Some encode_bool
  | R_u8 => Some encode_u8
  | R_u64 => Some encode_u64
  | R_usize => Some encode_usize
  | R_string => Some encode_string
  | R_currency => Some encode_currency
  | R_hash256 => Some encode_hash
  | R_block_id => Some encode_hash
  | R_siacoin_output_id => Some encode_hash
  | R_siafund_output_id => Some encode_hash
  | R_file_contract_id => Some encode_hash
  | R_chain_index => Some encode_chain_index
  | R_address => Some encode_hash
  | R_siacoin_output => Some encode_siacoin_output
  | R_siafund_output => Some encode_siafund_output
  | R_leaf => Some encode_leaf
  | R_state_element => Some encode_state_element
  | R_unlock_key => Some encode_unlock_key
  | R_unlock_conditions => Some encode_unlock_conditions
  | R_v1_siacoin_input => None
  | R_v1_siafund_input => None
  | R_v1_file_contract => None
  | R_v1_file_contract_revision => None
  | R_v1_storage_proof => None
  | R_covered_fields => None
  | R_transaction_signature => None
  | R_transaction => None
  | R_attestation => Some encode_attestation
  | R_v2_file_contract => Some encode_v2_file_contract
  | R_siacoin_element => Some encode_siacoin_element
  | R_siafund_element => Some encode_siafund_element
  | R_file_contract_element => Some encode_file_contract_element
  | R_chain_index_element => Some encode_chain_index_element
  | R_v2_siacoin_input => Some encode_v2_siacoin_input
  | R_v2_siafund_input => Some encode_v2_siafund_input
  | R_v2_file_contract_revision => Some encode_v2_file_contract_revision
  | R_file_contract_renewal => Some encode_file_contract_renewal
  | R_v2_storage_proof => Some encode_v2_storage_proof
  | R_satisfied_policy => Some encode_satisfied_policy
  | R_public_key => Some encode_hash
  | R_signature => Some encode_signature
  | R_specifier => Some encode_specifier
  | R_spend_policy => Some encode_policy
  end.

(** The implementations of [SiaDecodable]; [stack] is the stack for spend policies. *)
Fixpoint v2_decoder (stack : nat) (t : rust_type) : option (dec (values t)) :=
  match t return option (dec (values t)) with
  | R_array n => Some (decode_arr n)
  | R_vec t => match v2_decoder stack t with Some e => Some (decode_vec (size_of t) e) | None => None end
  | R_bool => Some decode_bool
  | R_u8 => Some decode_u8
  | R_u64 => Some decode_u64
  | R_usize => Some decode_usize
  | R_string => Some decode_string
  | R_currency => Some decode_currency
  | R_hash256 => Some decode_hash
  | R_block_id => Some decode_hash
  | R_siacoin_output_id => Some decode_hash
  | R_siafund_output_id => Some decode_hash
  | R_file_contract_id => Some decode_hash
  | R_chain_index => Some decode_chain_index
  | R_address => Some decode_hash
  | R_siacoin_output => Some decode_siacoin_output
  | R_siafund_output => Some decode_siafund_output
  | R_leaf => Some decode_leaf
  | R_state_element => Some decode_state_element
  | R_unlock_key => Some decode_unlock_key
  | R_unlock_conditions => Some decode_unlock_conditions
  | R_v1_siacoin_input => None
  | R_v1_siafund_input => None
  | R_v1_file_contract => None
  | R_v1_file_contract_revision => None
  | R_v1_storage_proof => None
  | R_covered_fields => None
  | R_transaction_signature => None
  | R_transaction => None
  | R_attestation => Some decode_attestation
  | R_v2_file_contract => Some decode_v2_file_contract
  | R_siacoin_element => Some decode_siacoin_element
  | R_siafund_element => Some decode_siafund_element
  | R_file_contract_element => Some decode_file_contract_element
  | R_chain_index_element => Some decode_chain_index_element
  | R_v2_siacoin_input => Some (decode_v2_siacoin_input stack)
  | R_v2_siafund_input => Some (decode_v2_siafund_input stack)
  | R_v2_file_contract_revision => Some decode_v2_file_contract_revision
  | R_file_contract_renewal => Some decode_file_contract_renewal
  | R_v2_storage_proof => Some decode_v2_storage_proof
  | R_satisfied_policy => Some (decode_satisfied_policy stack)
  | R_public_key => Some decode_hash
  | R_signature => Some decode_signature
  | R_specifier => Some decode_specifier
  | R_spend_policy => Some (decode_policy stack)
  end.

(** ** Declarations *)

(** common.rs:149-153 *)
Definition decl_chain_index : fields rust_type :=
  FNamed [
  ("height"%string, VisPublic, R_u64);
  ("id"%string, VisPublic, R_block_id)].

(** common.rs:214-215 *)
Definition decl_address : fields rust_type :=
  FUnnamed [(VisInherited, (R_array 32))].

(** common.rs:302-307 *)
Definition decl_siacoin_output : fields rust_type :=
  FNamed [
  ("value"%string, VisPublic, R_currency);
  ("address"%string, VisPublic, R_address)].

(** common.rs:313-318 *)
Definition decl_siafund_output : fields rust_type :=
  FNamed [
  ("value"%string, VisPublic, R_u64);
  ("address"%string, VisPublic, R_address)].

(** common.rs:342-343 *)
Definition decl_leaf : fields rust_type :=
  FUnnamed [(VisInherited, (R_array 64))].

(** common.rs:390-395 *)
Definition decl_state_element : fields rust_type :=
  FNamed [
  ("leaf_index"%string, VisPublic, R_u64);
  ("merkle_proof"%string, VisPublic, (R_vec R_hash256))].

(** v1.rs:32-36 *)
Definition decl_unlock_key : fields rust_type :=
  FNamed [
  ("algorithm"%string, VisPublic, R_specifier);
  ("key"%string, VisPublic, (R_vec R_u8))].

(** v1.rs:94-100 *)
Definition decl_unlock_conditions : fields rust_type :=
  FNamed [
  ("timelock"%string, VisPublic, R_u64);
  ("public_keys"%string, VisPublic, (R_vec R_unlock_key));
  ("signatures_required"%string, VisPublic, R_u64)].

(** v1.rs:159-165 *)
Definition decl_v1_siacoin_input : fields rust_type :=
  FNamed [
  ("parent_id"%string, VisPublic, R_siacoin_output_id);
  ("unlock_conditions"%string, VisPublic, R_unlock_conditions)].

(** v1.rs:167-174 *)
Definition decl_v1_siafund_input : fields rust_type :=
  FNamed [
  ("parent_id"%string, VisPublic, R_siafund_output_id);
  ("unlock_conditions"%string, VisPublic, R_unlock_conditions);
  ("claim_address"%string, VisPublic, R_address)].

(** v1.rs:176-189 *)
Definition decl_v1_file_contract : fields rust_type :=
  FNamed [
  ("file_size"%string, VisPublic, R_u64);
  ("file_merkle_root"%string, VisPublic, R_hash256);
  ("window_start"%string, VisPublic, R_u64);
  ("window_end"%string, VisPublic, R_u64);
  ("payout"%string, VisPublic, R_currency);
  ("valid_proof_outputs"%string, VisPublic, (R_vec R_siacoin_output));
  ("missed_proof_outputs"%string, VisPublic, (R_vec R_siacoin_output));
  ("unlock_hash"%string, VisPublic, R_address);
  ("revision_number"%string, VisPublic, R_u64)].

(** v1.rs:204-219 *)
Definition decl_v1_file_contract_revision : fields rust_type :=
  FNamed [
  ("parent_id"%string, VisPublic, R_file_contract_id);
  ("unlock_conditions"%string, VisPublic, R_unlock_conditions);
  ("revision_number"%string, VisPublic, R_u64);
  ("file_size"%string, VisPublic, R_u64);
  ("file_merkle_root"%string, VisPublic, R_hash256);
  ("window_start"%string, VisPublic, R_u64);
  ("window_end"%string, VisPublic, R_u64);
  ("valid_proof_outputs"%string, VisPublic, (R_vec R_siacoin_output));
  ("missed_proof_outputs"%string, VisPublic, (R_vec R_siacoin_output));
  ("unlock_hash"%string, VisPublic, R_address)].

(** v1.rs:221-228 *)
Definition decl_v1_storage_proof : fields rust_type :=
  FNamed [
  ("parent_id"%string, VisPublic, R_file_contract_id);
  ("leaf"%string, VisPublic, R_leaf);
  ("proof"%string, VisPublic, (R_vec R_hash256))].

(** v1.rs:230-254 *)
Definition decl_covered_fields : fields rust_type :=
  FNamed [
  ("whole_transaction"%string, VisPublic, R_bool);
  ("siacoin_inputs"%string, VisPublic, (R_vec R_usize));
  ("siacoin_outputs"%string, VisPublic, (R_vec R_usize));
  ("file_contracts"%string, VisPublic, (R_vec R_usize));
  ("file_contract_revisions"%string, VisPublic, (R_vec R_usize));
  ("storage_proofs"%string, VisPublic, (R_vec R_usize));
  ("siafund_inputs"%string, VisPublic, (R_vec R_usize));
  ("siafund_outputs"%string, VisPublic, (R_vec R_usize));
  ("miner_fees"%string, VisPublic, (R_vec R_usize));
  ("arbitrary_data"%string, VisPublic, (R_vec R_usize));
  ("signatures"%string, VisPublic, (R_vec R_usize))].

(** v1.rs:265-275 *)
Definition decl_transaction_signature : fields rust_type :=
  FNamed [
  ("parent_id"%string, VisPublic, R_hash256);
  ("public_key_index"%string, VisPublic, R_u64);
  ("timelock"%string, VisPublic, R_u64);
  ("covered_fields"%string, VisPublic, R_covered_fields);
  ("signature"%string, VisPublic, (R_vec R_u8))].

(** v1.rs:277-304 *)
Definition decl_transaction : fields rust_type :=
  FNamed [
  ("siacoin_inputs"%string, VisPublic, (R_vec R_v1_siacoin_input));
  ("siacoin_outputs"%string, VisPublic, (R_vec R_siacoin_output));
  ("file_contracts"%string, VisPublic, (R_vec R_v1_file_contract));
  ("file_contract_revisions"%string, VisPublic, (R_vec R_v1_file_contract_revision));
  ("storage_proofs"%string, VisPublic, (R_vec R_v1_storage_proof));
  ("siafund_inputs"%string, VisPublic, (R_vec R_v1_siafund_input));
  ("siafund_outputs"%string, VisPublic, (R_vec R_siafund_output));
  ("miner_fees"%string, VisPublic, (R_vec R_currency));
  ("arbitrary_data"%string, VisPublic, (R_vec (R_vec R_u8)));
  ("signatures"%string, VisPublic, (R_vec R_transaction_signature))].

(** v2.rs:28-37 *)
Definition decl_attestation : fields rust_type :=
  FNamed [
  ("public_key"%string, VisPublic, R_public_key);
  ("key"%string, VisPublic, R_string);
  ("value"%string, VisPublic, (R_vec R_u8));
  ("signature"%string, VisPublic, R_signature)].

(** v2.rs:60-78 *)
Definition decl_v2_file_contract : fields rust_type :=
  FNamed [
  ("capacity"%string, VisPublic, R_u64);
  ("filesize"%string, VisPublic, R_u64);
  ("file_merkle_root"%string, VisPublic, R_hash256);
  ("proof_height"%string, VisPublic, R_u64);
  ("expiration_height"%string, VisPublic, R_u64);
  ("renter_output"%string, VisPublic, R_siacoin_output);
  ("host_output"%string, VisPublic, R_siacoin_output);
  ("missed_host_value"%string, VisPublic, R_currency);
  ("total_collateral"%string, VisPublic, R_currency);
  ("renter_public_key"%string, VisPublic, R_public_key);
  ("host_public_key"%string, VisPublic, R_public_key);
  ("revision_number"%string, VisPublic, R_u64);
  ("renter_signature"%string, VisPublic, R_signature);
  ("host_signature"%string, VisPublic, R_signature)].

(** v2.rs:114-121 *)
Definition decl_siacoin_element : fields rust_type :=
  FNamed [
  ("state_element"%string, VisPublic, R_state_element);
  ("id"%string, VisPublic, R_siacoin_output_id);
  ("siacoin_output"%string, VisPublic, R_siacoin_output);
  ("maturity_height"%string, VisPublic, R_u64)].

(** v2.rs:124-131 *)
Definition decl_siafund_element : fields rust_type :=
  FNamed [
  ("state_element"%string, VisPublic, R_state_element);
  ("id"%string, VisPublic, R_siafund_output_id);
  ("siafund_output"%string, VisPublic, R_siafund_output);
  ("claim_start"%string, VisPublic, R_currency)].

(** v2.rs:135-141 *)
Definition decl_file_contract_element : fields rust_type :=
  FNamed [
  ("state_element"%string, VisPublic, R_state_element);
  ("id"%string, VisPublic, R_file_contract_id);
  ("v2_file_contract"%string, VisPublic, R_v2_file_contract)].

(** v2.rs:144-150 *)
Definition decl_chain_index_element : fields rust_type :=
  FNamed [
  ("state_element"%string, VisPublic, R_state_element);
  ("id"%string, VisPublic, R_block_id);
  ("chain_index"%string, VisPublic, R_chain_index)].

(** v2.rs:172-177 *)
Definition decl_v2_siacoin_input : fields rust_type :=
  FNamed [
  ("parent"%string, VisPublic, R_siacoin_element);
  ("satisfied_policy"%string, VisPublic, R_satisfied_policy)].

(** v2.rs:181-187 *)
Definition decl_v2_siafund_input : fields rust_type :=
  FNamed [
  ("parent"%string, VisPublic, R_siafund_element);
  ("claim_address"%string, VisPublic, R_address);
  ("satisfied_policy"%string, VisPublic, R_satisfied_policy)].

(** v2.rs:190-195 *)
Definition decl_v2_file_contract_revision : fields rust_type :=
  FNamed [
  ("parent"%string, VisPublic, R_file_contract_element);
  ("revision"%string, VisPublic, R_v2_file_contract)].

(** v2.rs:207-218 *)
Definition decl_file_contract_renewal : fields rust_type :=
  FNamed [
  ("final_revision"%string, VisPublic, R_v2_file_contract);
  ("new_contract"%string, VisPublic, R_v2_file_contract);
  ("renter_rollover"%string, VisPublic, R_currency);
  ("host_rollover"%string, VisPublic, R_currency);
  ("renter_signature"%string, VisPublic, R_signature);
  ("host_signature"%string, VisPublic, R_signature)].

(** v2.rs:242-257 *)
Definition decl_v2_storage_proof : fields rust_type :=
  FNamed [
  ("proof_index"%string, VisPublic, R_chain_index_element);
  ("leaf"%string, VisPublic, R_leaf);
  ("proof"%string, VisPublic, (R_vec R_hash256))].

(** spendpolicy.rs:390-398 *)
Definition decl_satisfied_policy : fields rust_type :=
  FNamed [
  ("policy"%string, VisPublic, R_spend_policy);
  ("signatures"%string, VisPublic, (R_vec R_signature));
  ("preimages"%string, VisPublic, (R_vec R_hash256))].

(** signing.rs:10-11 *)
Definition decl_public_key : fields rust_type :=
  FUnnamed [(VisInherited, (R_array 32))].

(** signing.rs:113-114 *)
Definition decl_signature : fields rust_type :=
  FUnnamed [(VisInherited, (R_array 64))].

(** specifier.rs:10-11 *)
Definition decl_specifier : fields rust_type :=
  FUnnamed [(VisInherited, (R_array 16))].

(** macros.rs:5-15, [impl_hash_id!]: Hash256, BlockID and the other identifiers *)
Definition decl_hash_id : fields rust_type := FUnnamed [(VisInherited, (R_array 32))].
