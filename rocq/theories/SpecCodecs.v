(** Specification: the types with a binary encoding.

    [V2Codec stack A P enc dec]: [A] is a type with the v2 ("Sia") encoding [enc] and the
    decoder [dec], and [P] holds of the values the format can represent (SpecWire.v). [stack]
    is the number of nested calls the decoder of spend policies may use. [V1Codec] is the
    same for the v1 encoding. Both are closed under vectors and options
    (elements of size [sz] > 0, as every wire type but the zero-length array has). The row [hash]
    stands for every type that wraps 32 bytes: Hash256, Address, PublicKey and the
    identifiers. [V2Wire] adds the chain state, whose encoder behaves differently from all
    others on a failing writer. *)

From Verif Require Import Base Io SpecWire Model_encoding Model_common Model_v1 Model_policy Model_v2
  Model_consensus.
Local Open Scope N_scope.

Definition Any {A : Type} (a : A) : Prop := True.

Section Table.
Variable stack : nat.

Inductive V2Codec : forall A : Type, (A -> Prop) -> (A -> wprog) -> dec A -> Prop :=
| V2_u8 : V2Codec u8 Any encode_u8 decode_u8
| V2_bool : V2Codec bool Any encode_bool decode_bool
| V2_u16 : V2Codec u16 Any encode_u16 decode_u16
| V2_u32 : V2Codec u32 Any encode_u32 decode_u32
| V2_u64 : V2Codec u64 Any encode_u64 decode_u64
| V2_usize : V2Codec usize Any encode_usize decode_usize
| V2_i16 : V2Codec i16 Any encode_i16 decode_i16
| V2_i32 : V2Codec i32 Any encode_i32 decode_i32
| V2_i64 : V2Codec i64 Any encode_i64 decode_i64
| V2_string : V2Codec rstring Any encode_string decode_string
| V2_currency : V2Codec currency Any encode_currency decode_currency
| V2_specifier : V2Codec specifier Any encode_specifier decode_specifier
| V2_hash : V2Codec hash256 Any encode_hash decode_hash
| V2_signature : V2Codec signature Any encode_signature decode_signature
| V2_leaf : V2Codec leaf Any encode_leaf decode_leaf
| V2_work : V2Codec work Any encode_work decode_work
| V2_array : forall n, V2Codec (arr n) Any encode_arr (decode_arr n)
| V2_vec : forall sz A P e d, 1 <= sz -> V2Codec A P e d -> V2Codec (vec sz A) (VecAll P) (encode_vec e) (decode_vec sz d)
| V2_option : forall A P e d, V2Codec A P e d -> V2Codec (option A) (OptAll P) (encode_option e) (decode_option d)
| V2_timestamp : V2Codec odt whole_seconds encode_odt decode_odt
| V2_duration : V2Codec duration duration_encodable encode_duration decode_duration
| V2_chain_index : V2Codec chain_index Any encode_chain_index decode_chain_index
| V2_siacoin_output : V2Codec siacoin_output Any encode_siacoin_output decode_siacoin_output
| V2_siafund_output : V2Codec siafund_output Any encode_siafund_output decode_siafund_output
| V2_state_element : V2Codec state_element Any encode_state_element decode_state_element
| V2_unlock_key : V2Codec unlock_key Any encode_unlock_key decode_unlock_key
| V2_unlock_conditions : V2Codec unlock_conditions Any encode_unlock_conditions decode_unlock_conditions
| V2_attestation : V2Codec attestation Any encode_attestation decode_attestation
| V2_v2_file_contract : V2Codec v2_file_contract Any encode_v2_file_contract decode_v2_file_contract
| V2_siacoin_element : V2Codec siacoin_element Any encode_siacoin_element decode_siacoin_element
| V2_siafund_element : V2Codec siafund_element Any encode_siafund_element decode_siafund_element
| V2_file_contract_element : V2Codec file_contract_element Any encode_file_contract_element decode_file_contract_element
| V2_chain_index_element : V2Codec chain_index_element Any encode_chain_index_element decode_chain_index_element
| V2_v2_file_contract_revision : V2Codec v2_file_contract_revision Any encode_v2_file_contract_revision decode_v2_file_contract_revision
| V2_file_contract_renewal : V2Codec file_contract_renewal Any encode_file_contract_renewal decode_file_contract_renewal
| V2_v2_storage_proof : V2Codec v2_storage_proof Any encode_v2_storage_proof decode_v2_storage_proof
| V2_file_contract_resolution : V2Codec file_contract_resolution Any encode_file_contract_resolution decode_file_contract_resolution
| V2_policy : V2Codec policy (policy_fits stack) encode_policy (decode_policy stack)
| V2_satisfied_policy : V2Codec satisfied_policy (satisfied_encodable stack) encode_satisfied_policy (decode_satisfied_policy stack)
| V2_v2_siacoin_input : V2Codec v2_siacoin_input (v2_siacoin_input_encodable stack) encode_v2_siacoin_input (decode_v2_siacoin_input stack)
| V2_v2_siafund_input : V2Codec v2_siafund_input (v2_siafund_input_encodable stack) encode_v2_siafund_input (decode_v2_siafund_input stack)
| V2_v2_transaction : V2Codec v2_transaction (v2_transaction_encodable stack) encode_v2_transaction (decode_v2_transaction stack)
| V2_element_accumulator : V2Codec element_accumulator ea_normal encode_element_accumulator decode_element_accumulator.

Inductive V2Wire : forall A : Type, (A -> Prop) -> (A -> wprog) -> dec A -> Prop :=
| V2Wire_codec : forall A P e d, V2Codec A P e d -> V2Wire A P e d
| V2Wire_state : forall prof, V2Wire state state_encodable (encode_state prof) (decode_state prof).
End Table.

Inductive V1Codec : forall A : Type, (A -> Prop) -> (A -> wprog) -> dec A -> Prop :=
| V1_u8 : V1Codec u8 Any encode_u8 decode_u8
| V1_bool : V1Codec bool Any encode_bool decode_bool
| V1_u16 : V1Codec u16 Any encode_u16 decode_u16
| V1_u32 : V1Codec u32 Any encode_u32 decode_u32
| V1_u64 : V1Codec u64 Any encode_u64 decode_u64
| V1_usize : V1Codec usize Any encode_usize decode_usize
| V1_i16 : V1Codec i16 Any encode_i16 decode_i16
| V1_i32 : V1Codec i32 Any encode_i32 decode_i32
| V1_i64 : V1Codec i64 Any encode_i64 decode_i64
| V1_string : V1Codec rstring Any encode_string decode_string
| V1_specifier : V1Codec specifier Any encode_specifier decode_specifier
| V1_hash : V1Codec hash256 Any encode_hash decode_hash
| V1_leaf : V1Codec leaf Any encode_leaf decode_leaf
| V1_array : forall n, V1Codec (arr n) Any encode_arr (decode_arr n)
| V1_vec : forall sz A P e d, 1 <= sz -> V1Codec A P e d -> V1Codec (vec sz A) (VecAll P) (encode_vec e) (decode_vec sz d)
| V1_option : forall A P e d, V1Codec A P e d -> V1Codec (option A) (OptAll P) (encode_option e) (decode_option d)
| V1_currency : V1Codec currency Any encode_v1_currency decode_v1_currency
| V1_work : V1Codec work Any encode_work decode_v1_work
| V1_siacoin_output : V1Codec siacoin_output Any encode_v1_siacoin_output decode_v1_siacoin_output
| V1_siafund_output : V1Codec siafund_output Any encode_v1_siafund_output decode_v1_siafund_output
| V1_unlock_key : V1Codec unlock_key Any encode_unlock_key decode_unlock_key
| V1_unlock_conditions : V1Codec unlock_conditions Any encode_unlock_conditions decode_unlock_conditions
| V1_v1_siacoin_input : V1Codec v1_siacoin_input Any encode_v1_siacoin_input decode_v1_siacoin_input
| V1_v1_siafund_input : V1Codec v1_siafund_input Any encode_v1_siafund_input decode_v1_siafund_input
| V1_v1_file_contract : V1Codec v1_file_contract Any encode_v1_file_contract decode_v1_file_contract
| V1_v1_file_contract_revision : V1Codec v1_file_contract_revision Any encode_v1_file_contract_revision decode_v1_file_contract_revision
| V1_v1_storage_proof : V1Codec v1_storage_proof Any encode_v1_storage_proof decode_v1_storage_proof
| V1_covered_fields : V1Codec covered_fields Any encode_covered_fields decode_covered_fields
| V1_transaction_signature : V1Codec transaction_signature Any encode_transaction_signature decode_transaction_signature
| V1_v1_transaction : V1Codec v1_transaction Any encode_v1_transaction decode_v1_transaction
| V1_block : V1Codec block (fun b => whole_seconds (bl_timestamp b)) encode_block decode_block.

(** The types whose decoder accepts nothing but encodings: all of the above except the
    integers narrower than 64 bits, v1 currency amounts and what contains them, and whole v2
    transactions. *)
Inductive StrictCodec (stack : nat) : forall A : Type, (A -> wprog) -> dec A -> Prop :=
| S_u8 : StrictCodec stack u8 encode_u8 decode_u8
| S_bool : StrictCodec stack bool encode_bool decode_bool
| S_u64 : StrictCodec stack u64 encode_u64 decode_u64
| S_usize : StrictCodec stack usize encode_usize decode_usize
| S_i64 : StrictCodec stack i64 encode_i64 decode_i64
| S_string : StrictCodec stack rstring encode_string decode_string
| S_currency : StrictCodec stack currency encode_currency decode_currency
| S_specifier : StrictCodec stack specifier encode_specifier decode_specifier
| S_hash : StrictCodec stack hash256 encode_hash decode_hash
| S_signature : StrictCodec stack signature encode_signature decode_signature
| S_leaf : StrictCodec stack leaf encode_leaf decode_leaf
| S_work : StrictCodec stack work encode_work decode_work
| S_v1_work : StrictCodec stack work encode_work decode_v1_work
| S_timestamp : StrictCodec stack odt encode_odt decode_odt
| S_duration : StrictCodec stack duration encode_duration decode_duration
| S_array : forall n, StrictCodec stack (arr n) encode_arr (decode_arr n)
| S_vec : forall sz A e d, 1 <= sz -> StrictCodec stack A e d -> StrictCodec stack (vec sz A) (encode_vec e) (decode_vec sz d)
| S_option : forall A e d, StrictCodec stack A e d -> StrictCodec stack (option A) (encode_option e) (decode_option d)
| S_chain_index : StrictCodec stack chain_index encode_chain_index decode_chain_index
| S_siacoin_output : StrictCodec stack siacoin_output encode_siacoin_output decode_siacoin_output
| S_siafund_output : StrictCodec stack siafund_output encode_siafund_output decode_siafund_output
| S_state_element : StrictCodec stack state_element encode_state_element decode_state_element
| S_unlock_key : StrictCodec stack unlock_key encode_unlock_key decode_unlock_key
| S_unlock_conditions : StrictCodec stack unlock_conditions encode_unlock_conditions decode_unlock_conditions
| S_v1_siacoin_input : StrictCodec stack v1_siacoin_input encode_v1_siacoin_input decode_v1_siacoin_input
| S_v1_siafund_input : StrictCodec stack v1_siafund_input encode_v1_siafund_input decode_v1_siafund_input
| S_v1_storage_proof : StrictCodec stack v1_storage_proof encode_v1_storage_proof decode_v1_storage_proof
| S_covered_fields : StrictCodec stack covered_fields encode_covered_fields decode_covered_fields
| S_transaction_signature : StrictCodec stack transaction_signature encode_transaction_signature decode_transaction_signature
| S_attestation : StrictCodec stack attestation encode_attestation decode_attestation
| S_v2_file_contract : StrictCodec stack v2_file_contract encode_v2_file_contract decode_v2_file_contract
| S_siacoin_element : StrictCodec stack siacoin_element encode_siacoin_element decode_siacoin_element
| S_siafund_element : StrictCodec stack siafund_element encode_siafund_element decode_siafund_element
| S_file_contract_element : StrictCodec stack file_contract_element encode_file_contract_element decode_file_contract_element
| S_chain_index_element : StrictCodec stack chain_index_element encode_chain_index_element decode_chain_index_element
| S_v2_file_contract_revision : StrictCodec stack v2_file_contract_revision encode_v2_file_contract_revision decode_v2_file_contract_revision
| S_file_contract_renewal : StrictCodec stack file_contract_renewal encode_file_contract_renewal decode_file_contract_renewal
| S_v2_storage_proof : StrictCodec stack v2_storage_proof encode_v2_storage_proof decode_v2_storage_proof
| S_file_contract_resolution : StrictCodec stack file_contract_resolution encode_file_contract_resolution decode_file_contract_resolution
| S_element_accumulator : StrictCodec stack element_accumulator encode_element_accumulator decode_element_accumulator
| S_policy : StrictCodec stack policy encode_policy (decode_policy stack)
| S_satisfied_policy : StrictCodec stack satisfied_policy encode_satisfied_policy (decode_satisfied_policy stack)
| S_v2_siacoin_input : StrictCodec stack v2_siacoin_input encode_v2_siacoin_input (decode_v2_siacoin_input stack)
| S_v2_siafund_input : StrictCodec stack v2_siafund_input encode_v2_siafund_input (decode_v2_siafund_input stack).

(** The types whose decoder cannot panic: no vector, no timestamp, no policy inside. *)
Inductive PanicFreeCodec : forall A : Type, dec A -> Prop :=
| F_u8 : PanicFreeCodec u8 decode_u8
| F_bool : PanicFreeCodec bool decode_bool
| F_u16 : PanicFreeCodec u16 decode_u16
| F_u32 : PanicFreeCodec u32 decode_u32
| F_u64 : PanicFreeCodec u64 decode_u64
| F_usize : PanicFreeCodec usize decode_usize
| F_i16 : PanicFreeCodec i16 decode_i16
| F_i32 : PanicFreeCodec i32 decode_i32
| F_i64 : PanicFreeCodec i64 decode_i64
| F_currency : PanicFreeCodec currency decode_currency
| F_v1_currency : PanicFreeCodec currency decode_v1_currency
| F_specifier : PanicFreeCodec specifier decode_specifier
| F_hash : PanicFreeCodec hash256 decode_hash
| F_signature : PanicFreeCodec signature decode_signature
| F_leaf : PanicFreeCodec leaf decode_leaf
| F_work : PanicFreeCodec work decode_work
| F_v1_work : PanicFreeCodec work decode_v1_work
| F_duration : PanicFreeCodec duration decode_duration
| F_array : forall n, PanicFreeCodec (arr n) (decode_arr n)
| F_option : forall A d, PanicFreeCodec A d -> PanicFreeCodec (option A) (decode_option d)
| F_chain_index : PanicFreeCodec chain_index decode_chain_index
| F_siacoin_output : PanicFreeCodec siacoin_output decode_siacoin_output
| F_siafund_output : PanicFreeCodec siafund_output decode_siafund_output
| F_v2_file_contract : PanicFreeCodec v2_file_contract decode_v2_file_contract
| F_file_contract_renewal : PanicFreeCodec file_contract_renewal decode_file_contract_renewal
| F_element_accumulator : PanicFreeCodec element_accumulator decode_element_accumulator
| F_v1_siacoin_output : PanicFreeCodec siacoin_output decode_v1_siacoin_output
| F_v1_siafund_output : PanicFreeCodec siafund_output decode_v1_siafund_output.

(** What decoding may panic on, apart from the chain state: a length prefix beyond what a
    vector can hold, a timestamp out of range, nesting beyond the stack. *)
Definition wire_panic (p : panic) : Prop :=
  p = CapacityOverflow \/ p = UnwrapNone \/ p = StackOverflow.
