(** C60: the constructors with a rule of their own. Only statements here; SpecConstruct.v
    writes out the standard address. *)

From Verif Require Import Base Io Blake2b Codec Model_encoding Model_common Model_v1 Model_policy Model_text
  Model_consensus Model_merkle Model_ids SpecMerkle SpecTrace SpecConstruct ConstructProofs.
Local Open Scope N_scope.

(** The standard unlock conditions of a key: no timelock, that ed25519 key, one signature. *)
Theorem C60_conditions : forall pk,
  uval (uc_timelock (standard_unlock_conditions pk)) = 0 /\
  uval (uc_signatures_required (standard_unlock_conditions pk)) = 1 /\
  exists k, vlist (uc_public_keys (standard_unlock_conditions pk)) = [k] /\
    aval (uk_algorithm k) = ascii "ed25519" ++ repeat x00 9 /\ vlist (uk_key k) = aval pk.
Proof. exact standard_fields. Qed.
Print Assumptions C60_conditions.

Theorem C60_address : forall p pk, exists a,
  unlock_conditions_address p (standard_unlock_conditions pk) = Val a /\ aval a = standard_address (aval pk).
Proof. exact standard_address_ok. Qed.
Print Assumptions C60_address.

Theorem C60_binds : forall p k k' a,
  unlock_conditions_address p (standard_unlock_conditions k) = Val a ->
  unlock_conditions_address p (standard_unlock_conditions k') = Val a ->
  k = k' \/ Collision (uc_inputs p (standard_unlock_conditions k)) (uc_inputs p (standard_unlock_conditions k')).
Proof. exact standard_binds. Qed.
Print Assumptions C60_binds.

(** A public key and the unlock key made from it have the same text. *)
Theorem C60_text : forall k, unlock_key_text (unlock_key_of_public_key k) = Val (public_key_text k).
Proof. exact key_text_same. Qed.
Print Assumptions C60_text.

(** The threshold constructor keeps its arguments, and refuses exactly the lists with unlock
    conditions among the policies. *)
Theorem C60_threshold : forall n of,
  (Forall (fun q => forall u, q <> PUnlockConditions u) of -> policy_threshold n of = Val (PThreshold n of)) /\
  (Exists (fun q => exists u, q = PUnlockConditions u) of -> policy_threshold n of = Panic AssertFailed).
Proof. exact threshold_constructor. Qed.
Print Assumptions C60_threshold.

(** Full statement, last part: no threshold has unlock conditions in it. The decoder returns
    thresholds that the constructor refuses to build. *)
Theorem C60_decoded_refuted : ~ (forall stack bs n of rest,
  run (decode_policy stack) bs = ROk (PThreshold n of) rest -> policy_threshold n of = Val (PThreshold n of)).
Proof. exact nested_decoded. Qed.
Print Assumptions C60_decoded_refuted.

Example C60_example :
  Forall (fun q => forall u, q <> PUnlockConditions u) [PAbove (uwrap 64 7); PPublicKey zero_hash] /\
  Exists (fun q => exists u, q = PUnlockConditions u)
    [PAbove (uwrap 64 7); PUnlockConditions (standard_unlock_conditions zero_hash)].
Proof. exact construct_examples. Qed.
