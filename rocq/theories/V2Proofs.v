(** Codec laws of the v2 types. *)

From Verif Require Import Base Io IoProofs Spec SpecWire Codec Model_encoding EncodingProofs CodecTac
  Model_common CommonProofs Model_v1 V1Proofs Model_policy PolicyProofs Model_v2.
Local Open Scope N_scope.
Local Open Scope dec_scope.

Lemma prop_attestation : Propagates encode_attestation.
Proof. prop_struct encode_attestation. Qed.
Lemma rt_attestation : RoundTrip encode_attestation decode_attestation.
Proof. rt_struct encode_attestation decode_attestation. Qed.
Lemma canon_attestation : Canonical encode_attestation decode_attestation.
Proof. canon_struct encode_attestation decode_attestation. Qed.
Lemma pan_attestation : forall P : panic -> Prop, P CapacityOverflow -> PanicsOnly P decode_attestation.
Proof. pan_struct decode_attestation. Qed.
#[global] Hint Resolve prop_attestation : prop codec.
#[global] Hint Resolve rt_attestation : rt.
#[global] Hint Resolve canon_attestation : canon.
#[global] Hint Resolve pan_attestation : pan.

Lemma prop_v2_file_contract : Propagates encode_v2_file_contract.
Proof. prop_struct encode_v2_file_contract. Qed.
Lemma rt_v2_file_contract : RoundTrip encode_v2_file_contract decode_v2_file_contract.
Proof. rt_struct encode_v2_file_contract decode_v2_file_contract. Qed.
Lemma canon_v2_file_contract : Canonical encode_v2_file_contract decode_v2_file_contract.
Proof. canon_struct encode_v2_file_contract decode_v2_file_contract. Qed.
Lemma pan_v2_file_contract : forall P : panic -> Prop, PanicsOnly P decode_v2_file_contract.
Proof. pan_struct decode_v2_file_contract. Qed.
#[global] Hint Resolve prop_v2_file_contract : prop codec.
#[global] Hint Resolve rt_v2_file_contract : rt.
#[global] Hint Resolve canon_v2_file_contract : canon.
#[global] Hint Resolve pan_v2_file_contract : pan.

Lemma prop_siacoin_element : Propagates encode_siacoin_element.
Proof. prop_struct encode_siacoin_element. Qed.
Lemma rt_siacoin_element : RoundTrip encode_siacoin_element decode_siacoin_element.
Proof. rt_struct encode_siacoin_element decode_siacoin_element. Qed.
Lemma canon_siacoin_element : Canonical encode_siacoin_element decode_siacoin_element.
Proof. canon_struct encode_siacoin_element decode_siacoin_element. Qed.
Lemma pan_siacoin_element : forall P : panic -> Prop, P CapacityOverflow -> PanicsOnly P decode_siacoin_element.
Proof. pan_struct decode_siacoin_element. Qed.
#[global] Hint Resolve prop_siacoin_element : prop codec.
#[global] Hint Resolve rt_siacoin_element : rt.
#[global] Hint Resolve canon_siacoin_element : canon.
#[global] Hint Resolve pan_siacoin_element : pan.

Lemma prop_siafund_element : Propagates encode_siafund_element.
Proof. prop_struct encode_siafund_element. Qed.
Lemma rt_siafund_element : RoundTrip encode_siafund_element decode_siafund_element.
Proof. rt_struct encode_siafund_element decode_siafund_element. Qed.
Lemma canon_siafund_element : Canonical encode_siafund_element decode_siafund_element.
Proof. canon_struct encode_siafund_element decode_siafund_element. Qed.
Lemma pan_siafund_element : forall P : panic -> Prop, P CapacityOverflow -> PanicsOnly P decode_siafund_element.
Proof. pan_struct decode_siafund_element. Qed.
#[global] Hint Resolve prop_siafund_element : prop codec.
#[global] Hint Resolve rt_siafund_element : rt.
#[global] Hint Resolve canon_siafund_element : canon.
#[global] Hint Resolve pan_siafund_element : pan.

Lemma prop_file_contract_element : Propagates encode_file_contract_element.
Proof. prop_struct encode_file_contract_element. Qed.
Lemma rt_file_contract_element : RoundTrip encode_file_contract_element decode_file_contract_element.
Proof. rt_struct encode_file_contract_element decode_file_contract_element. Qed.
Lemma canon_file_contract_element : Canonical encode_file_contract_element decode_file_contract_element.
Proof. canon_struct encode_file_contract_element decode_file_contract_element. Qed.
Lemma pan_file_contract_element : forall P : panic -> Prop, P CapacityOverflow -> PanicsOnly P decode_file_contract_element.
Proof. pan_struct decode_file_contract_element. Qed.
#[global] Hint Resolve prop_file_contract_element : prop codec.
#[global] Hint Resolve rt_file_contract_element : rt.
#[global] Hint Resolve canon_file_contract_element : canon.
#[global] Hint Resolve pan_file_contract_element : pan.

Lemma prop_chain_index_element : Propagates encode_chain_index_element.
Proof. prop_struct encode_chain_index_element. Qed.
Lemma rt_chain_index_element : RoundTrip encode_chain_index_element decode_chain_index_element.
Proof. rt_struct encode_chain_index_element decode_chain_index_element. Qed.
Lemma canon_chain_index_element : Canonical encode_chain_index_element decode_chain_index_element.
Proof. canon_struct encode_chain_index_element decode_chain_index_element. Qed.
Lemma pan_chain_index_element : forall P : panic -> Prop, P CapacityOverflow -> PanicsOnly P decode_chain_index_element.
Proof. pan_struct decode_chain_index_element. Qed.
#[global] Hint Resolve prop_chain_index_element : prop codec.
#[global] Hint Resolve rt_chain_index_element : rt.
#[global] Hint Resolve canon_chain_index_element : canon.
#[global] Hint Resolve pan_chain_index_element : pan.

Lemma prop_v2_siacoin_input : Propagates encode_v2_siacoin_input.
Proof. prop_struct encode_v2_siacoin_input. Qed.
Lemma rt_v2_siacoin_input : forall stack,
  RoundTripOn (v2_siacoin_input_encodable stack) encode_v2_siacoin_input (decode_v2_siacoin_input stack).
Proof. intros stack; unfold v2_siacoin_input_encodable. rt_struct encode_v2_siacoin_input decode_v2_siacoin_input. Qed.
Lemma canon_v2_siacoin_input : forall stack, Canonical encode_v2_siacoin_input (decode_v2_siacoin_input stack).
Proof. intros stack; canon_struct encode_v2_siacoin_input decode_v2_siacoin_input. Qed.
Lemma pan_v2_siacoin_input : forall (P : panic -> Prop) stack,
  P CapacityOverflow -> P StackOverflow -> PanicsOnly P (decode_v2_siacoin_input stack).
Proof. pan_struct decode_v2_siacoin_input. Qed.
#[global] Hint Resolve prop_v2_siacoin_input : prop codec.
#[global] Hint Resolve rt_v2_siacoin_input : rt.
#[global] Hint Resolve canon_v2_siacoin_input : canon.
#[global] Hint Resolve pan_v2_siacoin_input : pan.

Lemma prop_v2_siafund_input : Propagates encode_v2_siafund_input.
Proof. prop_struct encode_v2_siafund_input. Qed.
Lemma rt_v2_siafund_input : forall stack,
  RoundTripOn (v2_siafund_input_encodable stack) encode_v2_siafund_input (decode_v2_siafund_input stack).
Proof. intros stack; unfold v2_siafund_input_encodable. rt_struct encode_v2_siafund_input decode_v2_siafund_input. Qed.
Lemma canon_v2_siafund_input : forall stack, Canonical encode_v2_siafund_input (decode_v2_siafund_input stack).
Proof. intros stack; canon_struct encode_v2_siafund_input decode_v2_siafund_input. Qed.
Lemma pan_v2_siafund_input : forall (P : panic -> Prop) stack,
  P CapacityOverflow -> P StackOverflow -> PanicsOnly P (decode_v2_siafund_input stack).
Proof. pan_struct decode_v2_siafund_input. Qed.
#[global] Hint Resolve prop_v2_siafund_input : prop codec.
#[global] Hint Resolve rt_v2_siafund_input : rt.
#[global] Hint Resolve canon_v2_siafund_input : canon.
#[global] Hint Resolve pan_v2_siafund_input : pan.

Lemma prop_v2_file_contract_revision : Propagates encode_v2_file_contract_revision.
Proof. prop_struct encode_v2_file_contract_revision. Qed.
Lemma rt_v2_file_contract_revision : RoundTrip encode_v2_file_contract_revision decode_v2_file_contract_revision.
Proof. rt_struct encode_v2_file_contract_revision decode_v2_file_contract_revision. Qed.
Lemma canon_v2_file_contract_revision : Canonical encode_v2_file_contract_revision decode_v2_file_contract_revision.
Proof. canon_struct encode_v2_file_contract_revision decode_v2_file_contract_revision. Qed.
Lemma pan_v2_file_contract_revision : forall P : panic -> Prop, P CapacityOverflow -> PanicsOnly P decode_v2_file_contract_revision.
Proof. pan_struct decode_v2_file_contract_revision. Qed.
#[global] Hint Resolve prop_v2_file_contract_revision : prop codec.
#[global] Hint Resolve rt_v2_file_contract_revision : rt.
#[global] Hint Resolve canon_v2_file_contract_revision : canon.
#[global] Hint Resolve pan_v2_file_contract_revision : pan.

Lemma prop_file_contract_renewal : Propagates encode_file_contract_renewal.
Proof. prop_struct encode_file_contract_renewal. Qed.
Lemma rt_file_contract_renewal : RoundTrip encode_file_contract_renewal decode_file_contract_renewal.
Proof. rt_struct encode_file_contract_renewal decode_file_contract_renewal. Qed.
Lemma canon_file_contract_renewal : Canonical encode_file_contract_renewal decode_file_contract_renewal.
Proof. canon_struct encode_file_contract_renewal decode_file_contract_renewal. Qed.
Lemma pan_file_contract_renewal : forall P : panic -> Prop, PanicsOnly P decode_file_contract_renewal.
Proof. pan_struct decode_file_contract_renewal. Qed.
#[global] Hint Resolve prop_file_contract_renewal : prop codec.
#[global] Hint Resolve rt_file_contract_renewal : rt.
#[global] Hint Resolve canon_file_contract_renewal : canon.
#[global] Hint Resolve pan_file_contract_renewal : pan.

Lemma prop_v2_storage_proof : Propagates encode_v2_storage_proof.
Proof. prop_struct encode_v2_storage_proof. Qed.
Lemma rt_v2_storage_proof : RoundTrip encode_v2_storage_proof decode_v2_storage_proof.
Proof. rt_struct encode_v2_storage_proof decode_v2_storage_proof. Qed.
Lemma canon_v2_storage_proof : Canonical encode_v2_storage_proof decode_v2_storage_proof.
Proof. canon_struct encode_v2_storage_proof decode_v2_storage_proof. Qed.
Lemma pan_v2_storage_proof : forall P : panic -> Prop, P CapacityOverflow -> PanicsOnly P decode_v2_storage_proof.
Proof. pan_struct decode_v2_storage_proof. Qed.
#[global] Hint Resolve prop_v2_storage_proof : prop codec.
#[global] Hint Resolve rt_v2_storage_proof : rt.
#[global] Hint Resolve canon_v2_storage_proof : canon.
#[global] Hint Resolve pan_v2_storage_proof : pan.

(** Resolutions *)

Lemma prop_file_contract_resolution : Propagates encode_file_contract_resolution.
Proof.
  intros [p r]. unfold encode_file_contract_resolution; cbn [fcres_parent fcres_resolution].
  apply propagates_app; [apply prop_file_contract_element|]. destruct r; prop_tac.
Qed.

Lemma rt_file_contract_resolution :
  RoundTrip encode_file_contract_resolution decode_file_contract_resolution.
Proof.
  intros [p r] rest. unfold encode_file_contract_resolution, decode_file_contract_resolution.
  cbn [fcres_parent fcres_resolution]. rewrite wbytes_app_p by apply prop_file_contract_element.
  rewrite <- app_assoc. rt_step. cbv beta.
  destruct r as [r|q|]; split_wbytes; rt_step; cbv beta iota; rewrite run_bind.
  - etransitivity; [|reflexivity]. rewrite run_bind, rt_file_contract_renewal. reflexivity.
  - rewrite run_bind, rt_v2_storage_proof. reflexivity.
  - reflexivity.
Qed.

Lemma canon_file_contract_resolution :
  Canonical encode_file_contract_resolution decode_file_contract_resolution.
Proof.
  intros bs a rest H. unfold decode_file_contract_resolution in H.
  canon_step H. apply run_bind_ok in H as (tag & r2 & H1 & H). apply canon_u8 in H1; subst r.
  apply run_bind_ok in H as (res & r3 & H1 & H). apply run_ret_ok in H as [<- <-].
  unfold encode_file_contract_resolution; cbn [fcres_parent fcres_resolution].
  rewrite wbytes_app_p by apply prop_file_contract_element. rewrite <- app_assoc. f_equal.
  destruct tag; try discriminate H1.
  - canon_step H1. apply run_ret_ok in H1 as [<- <-]. split_wbytes. reflexivity.
  - canon_step H1. apply run_ret_ok in H1 as [<- <-]. split_wbytes. reflexivity.
  - apply run_ret_ok in H1 as [<- <-]. reflexivity.
Qed.

Lemma pan_file_contract_resolution : forall P : panic -> Prop,
  P CapacityOverflow -> PanicsOnly P decode_file_contract_resolution.
Proof.
  intros P HP. apply panics_bind; [now apply pan_file_contract_element|]. intros p.
  apply panics_bind; [apply pan_u8|]. intros tag.
  apply panics_bind; [|intros; apply panics_ret].
  assert (HE : PanicsOnly P (@DErr contract_resolution (ECustom "invalid contract resolution type")))
    by apply panics_err.
  destruct tag; try exact HE.
  - apply panics_bind; [apply pan_file_contract_renewal|intros; apply panics_ret].
  - apply panics_bind; [now apply pan_v2_storage_proof|intros; apply panics_ret].
  - apply panics_ret.
Qed.

#[global] Hint Resolve prop_file_contract_resolution : prop codec.
#[global] Hint Resolve rt_file_contract_resolution : rt.
#[global] Hint Resolve canon_file_contract_resolution : canon.
#[global] Hint Resolve pan_file_contract_resolution : pan.
