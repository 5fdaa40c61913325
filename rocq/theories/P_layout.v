(** Properties C53 and C54: the bytes of every wire type, and the bytes behind every identifier,
    signature hash and address. The layouts are defined in SpecLayout.v, without the encoders. *)

From Verif Require Import Base Io Blake2b Model_encoding Model_common Model_currency Model_v1 Model_policy
  Model_v2 Model_consensus Model_ids Model_networks SpecCodecs SpecIds SpecLayout Samples SigMore
  LayoutProofs LayoutTxn.
Local Open Scope N_scope.

(** ** C53 *)

(** What is written is the layout. *)
Theorem C53_v2 : forall A enc lay, V2Layout A enc lay -> forall a : A, wbytes (enc a) = lay a.
Proof. intros A enc lay H a. exact (lays_bytes _ _ (v2_lays A enc lay H a)). Qed.
Print Assumptions C53_v2.

Theorem C53_v1 : forall A enc lay, V1Layout A enc lay -> forall a : A, wbytes (enc a) = lay a.
Proof. intros A enc lay H a. exact (lays_bytes _ _ (v1_lays A enc lay H a)). Qed.
Print Assumptions C53_v1.

(** The chain state, at every height whose successor is a [u64] (the highest is C10's). *)
Theorem C53_state : forall p s, uval (ci_height (st_index s)) + 1 < 2 ^ 64 ->
  wbytes (encode_state p s) = lay_state s.
Proof. exact state_bytes. Qed.
Print Assumptions C53_state.

(** Every wire type has a layout. *)
Theorem C53_all_types :
  (forall stack A P enc dec, V2Codec stack A P enc dec -> exists lay, V2Layout A enc lay) /\
  (forall A P enc dec, V1Codec A P enc dec -> exists lay, V1Layout A enc lay).
Proof. exact (conj v2_covered v1_covered). Qed.
Print Assumptions C53_all_types.

(** The layout of a value is read as this value, whatever follows. *)
Theorem C53_read : forall stack A P enc dec lay,
  (V2Wire stack A P enc dec /\ V2Layout A enc lay) \/ (V1Codec A P enc dec /\ V1Layout A enc lay) ->
  forall (a : A) rest, P a -> run dec (lay a ++ rest) = ROk a rest.
Proof. exact layout_read. Qed.
Print Assumptions C53_read.

(** The strict decoders (SpecCodecs.v) accept nothing else. *)
Theorem C53_accepted : forall stack A enc dec lay, StrictCodec stack A enc dec ->
  V2Layout A enc lay \/ V1Layout A enc lay ->
  forall bs (a : A) rest, run dec bs = ROk a rest -> bs = lay a ++ rest.
Proof. exact layout_accepted. Qed.
Print Assumptions C53_accepted.

Example C53_hypotheses : V2Layout v2_transaction encode_v2_transaction lay_v2_transaction /\
  V1Layout v1_transaction encode_v1_transaction lay_v1_transaction /\
  uval (ci_height (st_index s_state_2)) + 1 < 2 ^ 64 /\
  StrictCodec 1 chain_index encode_chain_index decode_chain_index.
Proof. repeat split; constructor. Qed.

(** Some layouts written out. *)
Example C53_example :
  lay_chain_index (MkChainIndex (uwrap 64 258) (arr_of 32 (repeat x09 32))) =
    [x02; x01; x00; x00; x00; x00; x00; x00] ++ repeat x09 32 /\
  old_amount 65536 = [x03; x00; x00; x00; x00; x00; x00; x00; x01; x00; x00] /\
  old_amount 0 = repeat x00 8 /\
  lay_policy (PThreshold x01 [PAbove (uwrap 64 5); POpaque (arr_of 32 (repeat x07 32))]) =
    [x01; x05; x01; x02; x01; x05; x00; x00; x00; x00; x00; x00; x00; x06] ++ repeat x07 32 /\
  firstn 9 (lay_v2_transaction s_v2_transaction) = [x02; xff; x07; x00; x00; x00; x00; x00; x00].
Proof. vm_compute. repeat split. Qed.

(** ** C54 *)

(** Every identifier. *)
Theorem C54_identifiers : forall d, aval (derive d) = blake2b_256 (lay_derivation d).
Proof. exact derive_bytes. Qed.
Print Assumptions C54_identifiers.

Theorem C54_v2_transaction : forall t, aval (v2_transaction_id t) = blake2b_256 (lay_v2_unsigned t).
Proof. exact v2_id_bytes. Qed.
Print Assumptions C54_v2_transaction.

(** Every hash that is signed. *)
Theorem C54_signed : forall s cs, aval (signed_hash s cs) = blake2b_256 (lay_signed s cs).
Proof. exact signed_bytes_laid. Qed.
Print Assumptions C54_signed.

Theorem C54_whole : forall t cs parent key lock,
  aval (whole_sig_hash t cs parent key lock) = blake2b_256 (lay_whole t cs parent key lock).
Proof. exact whole_bytes. Qed.
Print Assumptions C54_whole.

Theorem C54_covered : forall t cs c, InRange t c -> exists h,
  partial_sig_hash t cs c = inl h /\ aval h = blake2b_256 (lay_covered t cs c).
Proof. exact covered_bytes. Qed.
Print Assumptions C54_covered.

(** Every address. *)
Theorem C54_address : forall p q a, policy_address p q = Val a -> Address q (aval a).
Proof. exact policy_address_laid. Qed.
Print Assumptions C54_address.

Theorem C54_conditions : forall p u a, unlock_conditions_address p u = Val a ->
  UnlockRoot (address_leaves u) (aval a).
Proof. exact conditions_address. Qed.
Print Assumptions C54_conditions.

(** With at most one key, the usual case, the tree is written out. *)
Theorem C54_key_address : forall p u a b, unlock_conditions_address p u = Val a ->
  key_address u = Some b -> aval a = b.
Proof. exact key_address_laid. Qed.
Print Assumptions C54_key_address.

Example C54_example :
  InRange fee_or_data cover_fee /\ lay_covered fee_or_data before_asic cover_fee <> [] /\
  lay_replay (chain_at mainnet 180000) = [x00] /\
  lay_derivation (V2HostOutput (arr_of 32 (repeat x09 32))) =
    text "id/v2filecontractoutput" ++ repeat x09 32 ++ x01 :: repeat x00 7 /\
  length (address_leaves s_unlock_conditions) = 4%nat /\
  key_address (standard_unlock_conditions (arr_of 32 (repeat x09 32))) <> None.
Proof.
  split; [repeat split; repeat constructor|]. split; [vm_compute; discriminate|].
  split; [vm_compute; reflexivity|]. split; [vm_compute; reflexivity|].
  split; [reflexivity|]. discriminate.
Qed.
