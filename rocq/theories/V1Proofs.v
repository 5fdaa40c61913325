(** Codec laws of the v1 types. *)

From Verif Require Import Base Io IoProofs Spec SpecWire Codec Model_encoding EncodingProofs CodecTac
  Model_common CommonProofs Model_v1.
Local Open Scope N_scope.
Local Open Scope dec_scope.

Lemma prop_unlock_key : Propagates encode_unlock_key.
Proof. prop_struct encode_unlock_key. Qed.
Lemma rt_unlock_key : RoundTrip encode_unlock_key decode_unlock_key.
Proof. rt_struct encode_unlock_key decode_unlock_key. Qed.
Lemma canon_unlock_key : Canonical encode_unlock_key decode_unlock_key.
Proof. canon_struct encode_unlock_key decode_unlock_key. Qed.
#[global] Hint Resolve canon_unlock_key : canon.
Lemma pan_unlock_key : forall P : panic -> Prop, P CapacityOverflow -> PanicsOnly P decode_unlock_key.
Proof. pan_struct decode_unlock_key. Qed.
#[global] Hint Resolve prop_unlock_key : prop codec.
#[global] Hint Resolve rt_unlock_key : rt.
#[global] Hint Resolve pan_unlock_key : pan.

Lemma prop_unlock_conditions : Propagates encode_unlock_conditions.
Proof. prop_struct encode_unlock_conditions. Qed.
Lemma rt_unlock_conditions : RoundTrip encode_unlock_conditions decode_unlock_conditions.
Proof. rt_struct encode_unlock_conditions decode_unlock_conditions. Qed.
Lemma canon_unlock_conditions : Canonical encode_unlock_conditions decode_unlock_conditions.
Proof. canon_struct encode_unlock_conditions decode_unlock_conditions. Qed.
#[global] Hint Resolve canon_unlock_conditions : canon.
Lemma pan_unlock_conditions : forall P : panic -> Prop, P CapacityOverflow -> PanicsOnly P decode_unlock_conditions.
Proof. pan_struct decode_unlock_conditions. Qed.
#[global] Hint Resolve prop_unlock_conditions : prop codec.
#[global] Hint Resolve rt_unlock_conditions : rt.
#[global] Hint Resolve pan_unlock_conditions : pan.

Lemma prop_v1_siacoin_input : Propagates encode_v1_siacoin_input.
Proof. prop_struct encode_v1_siacoin_input. Qed.
Lemma rt_v1_siacoin_input : RoundTrip encode_v1_siacoin_input decode_v1_siacoin_input.
Proof. rt_struct encode_v1_siacoin_input decode_v1_siacoin_input. Qed.
Lemma canon_v1_siacoin_input : Canonical encode_v1_siacoin_input decode_v1_siacoin_input.
Proof. canon_struct encode_v1_siacoin_input decode_v1_siacoin_input. Qed.
#[global] Hint Resolve canon_v1_siacoin_input : canon.
Lemma pan_v1_siacoin_input : forall P : panic -> Prop, P CapacityOverflow -> PanicsOnly P decode_v1_siacoin_input.
Proof. pan_struct decode_v1_siacoin_input. Qed.
#[global] Hint Resolve prop_v1_siacoin_input : prop codec.
#[global] Hint Resolve rt_v1_siacoin_input : rt.
#[global] Hint Resolve pan_v1_siacoin_input : pan.

Lemma prop_v1_siafund_input : Propagates encode_v1_siafund_input.
Proof. prop_struct encode_v1_siafund_input. Qed.
Lemma rt_v1_siafund_input : RoundTrip encode_v1_siafund_input decode_v1_siafund_input.
Proof. rt_struct encode_v1_siafund_input decode_v1_siafund_input. Qed.
Lemma canon_v1_siafund_input : Canonical encode_v1_siafund_input decode_v1_siafund_input.
Proof. canon_struct encode_v1_siafund_input decode_v1_siafund_input. Qed.
#[global] Hint Resolve canon_v1_siafund_input : canon.
Lemma pan_v1_siafund_input : forall P : panic -> Prop, P CapacityOverflow -> PanicsOnly P decode_v1_siafund_input.
Proof. pan_struct decode_v1_siafund_input. Qed.
#[global] Hint Resolve prop_v1_siafund_input : prop codec.
#[global] Hint Resolve rt_v1_siafund_input : rt.
#[global] Hint Resolve pan_v1_siafund_input : pan.

Lemma prop_v1_file_contract : Propagates encode_v1_file_contract.
Proof. prop_struct encode_v1_file_contract. Qed.
Lemma rt_v1_file_contract : RoundTrip encode_v1_file_contract decode_v1_file_contract.
Proof. rt_struct encode_v1_file_contract decode_v1_file_contract. Qed.
Lemma pan_v1_file_contract : forall P : panic -> Prop, P CapacityOverflow -> PanicsOnly P decode_v1_file_contract.
Proof. pan_struct decode_v1_file_contract. Qed.
#[global] Hint Resolve prop_v1_file_contract : prop codec.
#[global] Hint Resolve rt_v1_file_contract : rt.
#[global] Hint Resolve pan_v1_file_contract : pan.

Lemma prop_v1_file_contract_revision : Propagates encode_v1_file_contract_revision.
Proof. prop_struct encode_v1_file_contract_revision. Qed.
Lemma rt_v1_file_contract_revision : RoundTrip encode_v1_file_contract_revision decode_v1_file_contract_revision.
Proof. rt_struct encode_v1_file_contract_revision decode_v1_file_contract_revision. Qed.
Lemma pan_v1_file_contract_revision : forall P : panic -> Prop, P CapacityOverflow -> PanicsOnly P decode_v1_file_contract_revision.
Proof. pan_struct decode_v1_file_contract_revision. Qed.
#[global] Hint Resolve prop_v1_file_contract_revision : prop codec.
#[global] Hint Resolve rt_v1_file_contract_revision : rt.
#[global] Hint Resolve pan_v1_file_contract_revision : pan.

Lemma prop_v1_storage_proof : Propagates encode_v1_storage_proof.
Proof. prop_struct encode_v1_storage_proof. Qed.
Lemma rt_v1_storage_proof : RoundTrip encode_v1_storage_proof decode_v1_storage_proof.
Proof. rt_struct encode_v1_storage_proof decode_v1_storage_proof. Qed.
Lemma canon_v1_storage_proof : Canonical encode_v1_storage_proof decode_v1_storage_proof.
Proof. canon_struct encode_v1_storage_proof decode_v1_storage_proof. Qed.
#[global] Hint Resolve canon_v1_storage_proof : canon.
Lemma pan_v1_storage_proof : forall P : panic -> Prop, P CapacityOverflow -> PanicsOnly P decode_v1_storage_proof.
Proof. pan_struct decode_v1_storage_proof. Qed.
#[global] Hint Resolve prop_v1_storage_proof : prop codec.
#[global] Hint Resolve rt_v1_storage_proof : rt.
#[global] Hint Resolve pan_v1_storage_proof : pan.

Lemma prop_covered_fields : Propagates encode_covered_fields.
Proof. prop_struct encode_covered_fields. Qed.
Lemma rt_usize : RoundTrip encode_usize decode_usize.
Proof. exact rt_u64. Qed.
Lemma canon_usize : Canonical encode_usize decode_usize.
Proof. exact canon_u64. Qed.
Lemma prop_usize : Propagates encode_usize.
Proof. exact (prop_uint 64). Qed.
#[global] Hint Resolve rt_usize : rt.
#[global] Hint Resolve canon_usize : canon.
#[global] Hint Resolve prop_usize : prop codec.
Lemma rt_covered_fields : RoundTrip encode_covered_fields decode_covered_fields.
Proof. rt_struct encode_covered_fields decode_covered_fields. Qed.
Lemma canon_covered_fields : Canonical encode_covered_fields decode_covered_fields.
Proof. canon_struct encode_covered_fields decode_covered_fields. Qed.
#[global] Hint Resolve canon_covered_fields : canon.
Lemma pan_covered_fields : forall P : panic -> Prop, P CapacityOverflow -> PanicsOnly P decode_covered_fields.
Proof. pan_struct decode_covered_fields. Qed.
#[global] Hint Resolve prop_covered_fields : prop codec.
#[global] Hint Resolve rt_covered_fields : rt.
#[global] Hint Resolve pan_covered_fields : pan.

Lemma prop_transaction_signature : Propagates encode_transaction_signature.
Proof. prop_struct encode_transaction_signature. Qed.
Lemma rt_transaction_signature : RoundTrip encode_transaction_signature decode_transaction_signature.
Proof. rt_struct encode_transaction_signature decode_transaction_signature. Qed.
Lemma canon_transaction_signature : Canonical encode_transaction_signature decode_transaction_signature.
Proof. canon_struct encode_transaction_signature decode_transaction_signature. Qed.
#[global] Hint Resolve canon_transaction_signature : canon.
Lemma pan_transaction_signature : forall P : panic -> Prop, P CapacityOverflow -> PanicsOnly P decode_transaction_signature.
Proof. pan_struct decode_transaction_signature. Qed.
#[global] Hint Resolve prop_transaction_signature : prop codec.
#[global] Hint Resolve rt_transaction_signature : rt.
#[global] Hint Resolve pan_transaction_signature : pan.

Lemma prop_v1_transaction : Propagates encode_v1_transaction.
Proof. prop_struct encode_v1_transaction. Qed.
Lemma rt_v1_transaction : RoundTrip encode_v1_transaction decode_v1_transaction.
Proof. rt_struct encode_v1_transaction decode_v1_transaction. Qed.
Lemma pan_v1_transaction : forall P : panic -> Prop, P CapacityOverflow -> PanicsOnly P decode_v1_transaction.
Proof. pan_struct decode_v1_transaction. Qed.
#[global] Hint Resolve prop_v1_transaction : prop codec.
#[global] Hint Resolve rt_v1_transaction : rt.
#[global] Hint Resolve pan_v1_transaction : pan.

Lemma prop_no_sigs : Propagates encode_no_sigs.
Proof. prop_struct encode_no_sigs. Qed.
#[global] Hint Resolve prop_no_sigs : prop codec.

Lemma prop_block : Propagates encode_block.
Proof. prop_struct encode_block. Qed.
Lemma rt_block : RoundTripOn (fun b => whole_seconds (bl_timestamp b)) encode_block decode_block.
Proof. rt_struct encode_block decode_block. Qed.
Lemma pan_block : forall P : panic -> Prop,
  P CapacityOverflow -> P UnwrapNone -> PanicsOnly P decode_block.
Proof. pan_struct decode_block. Qed.
#[global] Hint Resolve prop_block : prop codec.
#[global] Hint Resolve rt_block : rt.
#[global] Hint Resolve pan_block : pan.
