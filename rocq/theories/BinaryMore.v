(** The theorems about binary serde formats, collected, and concrete cases. *)

From Verif Require Import Base Io SpecUtf8 SpecText SpecWire SpecFormat Model_encoding Model_common Model_v1 Model_currency
  Model_policy Model_v2 Model_consensus Model_text
  Model_json Model_jsontypes Model_binary SpecJson SpecBinary Samples JsonProofs JsonLeafProofs JsonTypeProofs JsonStateProofs
  JsonExamples BinaryProofs.
Local Open Scope N_scope.

Lemma v1_lost : forall p,
  (forall a, json_v1_siacoin_input a -> Lost b_v1_siacoin_input a) /\
  (forall a, json_v1_siafund_input a -> Lost b_v1_siafund_input a) /\
  (forall a, Lost (b_v1_file_contract p) a) /\
  (forall a, json_v1_revision a -> Lost (b_v1_file_contract_revision p) a) /\
  (forall a, Lost b_v1_storage_proof a) /\
  (forall a, json_v1_signature a -> Lost b_transaction_signature a) /\
  (forall a, json_block a -> Lost (b_block p) a).
Proof.
  intros p. exact (conj lost_v1_siacoin_input (conj lost_v1_siafund_input (conj (lost_v1_file_contract p)
    (conj (lost_v1_file_contract_revision p) (conj lost_v1_storage_proof (conj lost_transaction_signature (lost_block p))))))).
Qed.

Lemma v2_lost : forall p n stack, (n <= stack)%nat ->
  (forall a, Lost (b_v2_file_contract p) a) /\
  (forall a, Lost (b_siacoin_element p) a) /\
  (forall a, Lost (b_siafund_element p) a) /\
  (forall a, Lost (b_file_contract_element p) a) /\
  (forall a, Lost b_chain_index_element a) /\
  (forall a, json_v2_siacoin_input n a -> Lost (b_v2_siacoin_input p stack) a) /\
  (forall a, json_v2_siafund_input n a -> Lost (b_v2_siafund_input p stack) a) /\
  (forall a, Lost (b_v2_file_contract_revision p) a) /\
  (forall a, Lost (b_file_contract_renewal p) a) /\
  (forall a, Lost b_v2_storage_proof a) /\
  (forall a, Lost (b_file_contract_resolution p) a).
Proof.
  intros p n stack H. exact (conj (lost_v2_file_contract p) (conj (lost_siacoin_element p) (conj (lost_siafund_element p)
    (conj (lost_file_contract_element p) (conj lost_chain_index_element
    (conj (fun a => lost_v2_siacoin_input p n stack a H) (conj (fun a => lost_v2_siafund_input p n stack a H)
    (conj (lost_v2_file_contract_revision p) (conj (lost_file_contract_renewal p) (conj lost_v2_storage_proof
    (lost_resolution p))))))))))).
Qed.

Lemma consensus_lost : forall p,
  (forall a, Lost b_chain_index a) /\
  (forall a, json_duration (hfa_oak_time a) -> Lost b_hardfork_asic a) /\
  (forall a, json_network a -> Lost (b_network p) a) /\
  (forall a, json_state a -> Lost (b_state p) a) /\
  (forall a, json_chain_state a -> Lost (b_chain_state p) a).
Proof.
  intros p. exact (conj lost_chain_index (conj lost_hardfork_asic (conj (lost_network p) (conj (lost_state p) (lost_chain_state p))))).
Qed.

Lemma binary_forms :
  (forall h, c_ser b_hash h = JOk (JArr (map (fun b => JUint (uwrap 64 (b2n b))) (aval h)))) /\
  (forall h, c_de b_hash (JStr (hash_text h)) = JOk h) /\
  (forall k, exists a l, c_ser j_specifier (uk_algorithm k) = JOk a /\ c_ser (j_vec 1 j_u8) (uk_key k) = JOk l /\
    c_de b_unlock_key (JArr [a; l]) = JOk k).
Proof.
  split; [exact hash_form|]. split; [|exact key_read]. intros h.
  destruct (ok_kept _ _ _ _ (ok_hash h)) as (j & S & D). cbn [j_hash c_ser] in S.
  assert (E : JStr (hash_text h) = j) by congruence. rewrite E. exact D.
Qed.

Lemma others_kept : forall p,
  (forall a, Kept j_address a) /\ (forall a, Kept j_public_key a) /\ (forall a, Kept j_signature a) /\
  (forall a, Kept j_leaf a) /\ (forall a, Kept j_work a) /\ (forall a, Kept (j_currency p) a) /\
  (forall a, Kept j_specifier a) /\ (forall a, Kept (j_siacoin_output p) a) /\ (forall a, Kept j_siafund_output a) /\
  (forall a, Kept j_covered_fields a) /\ (forall a, json_attestation a -> Kept j_attestation a) /\
  (forall a, Kept j_hardfork_dev_addr a) /\ (forall a, Kept j_hardfork_tax a) /\
  (forall a, Kept j_hardfork_storage_proof a) /\ (forall a, json_time (hfo_genesis_timestamp a) -> Kept j_hardfork_oak a) /\
  (forall a, Kept j_hardfork_foundation a) /\ (forall a, Kept j_hardfork_v2 a).
Proof.
  intros p.
  split; [intros a; eapply ok_kept, ok_address|]. split; [intros a; eapply ok_kept, ok_public_key|].
  split; [intros a; eapply ok_kept, ok_signature|]. split; [intros a; eapply ok_kept, ok_leaf|].
  split; [intros a; eapply ok_kept, ok_work|]. split; [intros a; eapply ok_kept, ok_currency|].
  split; [intros a; eapply ok_kept, ok_specifier|]. split; [intros a; eapply ok_kept, ok_siacoin_output|].
  split; [intros a; eapply ok_kept, ok_siafund_output|]. split; [intros a; eapply ok_kept, ok_covered_fields|].
  split; [intros a H; eapply ok_kept, ok_attestation; exact H|]. split; [intros a; eapply ok_kept, ok_hardfork_dev_addr|].
  split; [intros a; eapply ok_kept, ok_hardfork_tax|]. split; [intros a; eapply ok_kept, ok_hardfork_storage_proof|].
  split; [intros a H; eapply ok_kept, ok_hardfork_oak; exact H|]. split; [intros a; eapply ok_kept, ok_hardfork_foundation|].
  intros a; eapply ok_kept, ok_hardfork_v2.
Qed.

(** A transaction with outputs, a fee and nothing else. *)
Definition s_v2_payment : v2_transaction :=
  MkV2Txn vec_nil (v2t_siacoin_outputs s_v2_transaction) vec_nil vec_nil vec_nil vec_nil vec_nil vec_nil vec_nil None (s_cur 7).

Lemma binary_example : json_key s_unlock_key /\ json_conditions s_unlock_conditions /\ json_block s_block /\
  json_state s_state_2 /\ json_policy_upto 4 s_policy /\
  Lost (b_v1_transaction Debug) s_v1_transaction /\ Lost (b_v2_transaction Debug 4) s_v2_transaction /\
  Kept (b_v2_transaction Debug 4) s_v2_payment /\ vlist (v2t_siacoin_outputs s_v2_payment) <> [] /\
  Lost (b_policy 4) (PHash (s_hash 1)) /\ Kept (b_policy 4) (PThreshold x01 [PHash (s_hash 1)]).
Proof.
  destruct json_examples as (P & T1 & B & T2 & St & _).
  split; [exact s_key_json|]. split; [exact s_conditions_json|]. split; [exact B|]. split; [exact St|]. split; [exact P|].
  split; [apply (v1_transaction_fate Debug); [exact T1|]; intros (Z & _); discriminate Z|].
  split; [apply (v2_transaction_fate Debug 4 4); [lia|exact T2|]; intros (Z & _); discriminate Z|].
  split.
  { apply (v2_transaction_fate Debug 4 4); [lia| |repeat split; reflexivity].
    unfold json_v2_transaction. cbn [s_v2_payment v2t_siacoin_inputs v2t_siafund_inputs v2t_attestations v2t_arbitrary_data].
    repeat split; try constructor. unfold json_bytes. cbn. unfold isize_max. change (2 ^ 63 - 1) with 9223372036854775807. lia. }
  split; [discriminate|].
  split; [apply (policy_fate 4 4) with (s_hash 1); [lia| |reflexivity]; split; [exact I|cbn; lia]|].
  apply (policy_fate 4 4); [lia| |discriminate]. split; [cbn; tauto|cbn; lia].
Qed.
