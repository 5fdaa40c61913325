(** Properties C36-C42: what identifiers and signature hashes commit to. "Unless the hash function
    collides" is [Collision [x] [y]] (SpecMerkle.v): the two named byte strings differ and have
    the same BLAKE2b-256 hash. The relations are defined in SpecIds.v. *)

From Verif Require Import Base Io Model_encoding Model_common Model_currency Model_v1 Model_policy
  Model_v2 Model_consensus Model_ids Model_networks SpecMerkle SpecConsensus SpecIds SpecCover Samples IdsProofs SigHashProofs SigMore SigExact CoverProofs.
Local Open Scope N_scope.

(** ** C36 *)

(** Equal identifiers: the same derivation from the same arguments (up to the signatures of a v1
    transaction, which are not part of its identity). *)
Theorem C36_derivations : forall d d', derive d = derive d' ->
  SameDerivation d d' \/ Collision [hashed d] [hashed d'].
Proof. exact derive_binding. Qed.
Print Assumptions C36_derivations.

Theorem C36_hashed : forall d, aval (derive d) = Blake2b.blake2b_256 (hashed d).
Proof. exact derive_hash_bytes. Qed.
Print Assumptions C36_hashed.

(** No two different derivations hash the same bytes. *)
Theorem C36_no_overlap : forall d d', hashed d = hashed d' -> SameDerivation d d'.
Proof. exact derivation_binding. Qed.
Print Assumptions C36_no_overlap.

Example C36_example :
  derive (V2SiacoinOutput (s_hash 1) (uwrap 64 2)) <> derive (V2SiafundOutput (s_hash 1) (uwrap 64 2)) /\
  derive (ValidOutput (s_hash 1) (uwrap 64 0)) <> derive (MissedOutput (s_hash 1) (uwrap 64 0)) /\
  derive (V2RenterOutput (s_hash 1)) <> derive (V2HostOutput (s_hash 1)) /\
  ~ SameDerivation (ClaimOutput (s_hash 1)) (V2ClaimOutput (s_hash 1)).
Proof.
  repeat split; try (intros H; apply (f_equal aval) in H; vm_compute in H; discriminate).
  intros H. inversion H.
Qed.

(** ** C37 *)

Theorem C37_ignores : forall t s i,
  v1_transaction_id (with_signatures t s) = v1_transaction_id t /\
  v1_siacoin_output_id (with_signatures t s) i = v1_siacoin_output_id t i /\
  v1_siafund_output_id (with_signatures t s) i = v1_siafund_output_id t i /\
  v1_file_contract_id (with_signatures t s) i = v1_file_contract_id t i.
Proof. exact v1_ids_ignore. Qed.
Print Assumptions C37_ignores.

Theorem C37_binds : forall t u, v1_transaction_id t = v1_transaction_id u ->
  SameUnsigned t u \/ Collision [hashed (V1Transaction t)] [hashed (V1Transaction u)].
Proof. exact v1_id_binds. Qed.
Print Assumptions C37_binds.

Theorem C37_child_binds : forall t u i j,
  (v1_siacoin_output_id t i = v1_siacoin_output_id u j ->
   (SameUnsigned t u /\ i = j) \/ Collision [hashed (V1SiacoinOutput t i)] [hashed (V1SiacoinOutput u j)]) /\
  (v1_siafund_output_id t i = v1_siafund_output_id u j ->
   (SameUnsigned t u /\ i = j) \/ Collision [hashed (V1SiafundOutput t i)] [hashed (V1SiafundOutput u j)]) /\
  (v1_file_contract_id t i = v1_file_contract_id u j ->
   (SameUnsigned t u /\ i = j) \/ Collision [hashed (V1FileContract t i)] [hashed (V1FileContract u j)]).
Proof. exact v1_child_binds. Qed.
Print Assumptions C37_child_binds.

Example C37_example :
  vlist (v1t_signatures s_v1_transaction) <> [] /\
  v1_transaction_id (with_signatures s_v1_transaction vec_nil) = v1_transaction_id s_v1_transaction /\
  v1_transaction_id s_v1_transaction <> v1_transaction_id empty_v1 /\ ~ SameUnsigned s_v1_transaction empty_v1.
Proof.
  split; [discriminate|]. split; [exact (proj1 (v1_ids_ignore s_v1_transaction vec_nil (uwrap 64 0)))|]. split.
  - apply arrays_differ. vm_compute. reflexivity.
  - intros [s H]. apply (f_equal (fun t => length (vlist (v1t_siacoin_inputs t)))) in H. discriminate.
Qed.

(** ** C38 *)

Theorem C38_ignores : forall t s cs parent index lock,
  whole_sig_hash (with_signatures t s) cs parent index lock = whole_sig_hash t cs parent index lock.
Proof. exact whole_sig_ignores. Qed.
Print Assumptions C38_ignores.

(** The full statement: fails for a transaction without inputs. *)
Theorem C38_no_inputs_refuted : ~ (forall t u cs cs' parent parent' index index' lock lock',
  whole_sig_hash t cs parent index lock = whole_sig_hash u cs' parent' index' lock' ->
  (SameUnsigned t u /\ parent = parent' /\ index = index' /\ lock = lock' /\ replay_prefix cs = replay_prefix cs') \/
  Collision [whole_sig_preimage t cs parent index lock] [whole_sig_preimage u cs' parent' index' lock']).
Proof. exact whole_sig_no_replay. Qed.
Print Assumptions C38_no_inputs_refuted.

(** It also fails for transactions with inputs, between an empty and a non-empty prefix. *)
Theorem C38_shifted_refuted : ~ (forall t u cs cs' parent parent' index index' lock lock', has_inputs t ->
  whole_sig_hash t cs parent index lock = whole_sig_hash u cs' parent' index' lock' ->
  SameUnsigned t u \/
  Collision [whole_sig_preimage t cs parent index lock] [whole_sig_preimage u cs' parent' index' lock']).
Proof. exact whole_sig_shifted. Qed.
Print Assumptions C38_shifted_refuted.

(** Replay prefixes are empty or a single byte; for two of the same length everything is bound,
    the prefix if there are inputs. *)
Theorem C38_binds_partial : forall t u cs cs' parent parent' index index' lock lock',
  length (replay_prefix cs) = length (replay_prefix cs') ->
  whole_sig_hash t cs parent index lock = whole_sig_hash u cs' parent' index' lock' ->
  (SameUnsigned t u /\ parent = parent' /\ index = index' /\ lock = lock' /\
   (has_inputs t -> replay_prefix cs = replay_prefix cs')) \/
  Collision [whole_sig_preimage t cs parent index lock] [whole_sig_preimage u cs' parent' index' lock'].
Proof. exact whole_sig_hash_binding. Qed.
Print Assumptions C38_binds_partial.

(** Whatever the prefixes are: what the signature is for and the number of siacoin inputs are
    bound, and everything if there are no inputs. *)
Theorem C38_always_partial : forall t u cs cs' parent parent' index index' lock lock',
  whole_sig_hash t cs parent index lock = whole_sig_hash u cs' parent' index' lock' ->
  (parent = parent' /\ index = index' /\ lock = lock' /\
   length (vlist (v1t_siacoin_inputs t)) = length (vlist (v1t_siacoin_inputs u)) /\
   (~ has_inputs t -> SameUnsigned t u)) \/
  Collision [whole_sig_preimage t cs parent index lock] [whole_sig_preimage u cs' parent' index' lock'].
Proof. exact whole_sig_always. Qed.
Print Assumptions C38_always_partial.

(** From the ASIC hardfork on the hashes are equal exactly when what is listed here is. *)
Theorem C38_after_asic_partial : forall t u cs cs' parent parent' index index' lock lock',
  uval (hfa_height (net_hardfork_asic (cs_network cs))) <= height cs ->
  uval (hfa_height (net_hardfork_asic (cs_network cs'))) <= height cs' ->
  let same := SameUnsigned t u /\ parent = parent' /\ index = index' /\ lock = lock' /\
              (has_inputs t -> replay_prefix cs = replay_prefix cs') in
  (same -> whole_sig_hash t cs parent index lock = whole_sig_hash u cs' parent' index' lock') /\
  (whole_sig_hash t cs parent index lock = whole_sig_hash u cs' parent' index' lock' ->
   same \/ Collision [whole_sig_preimage t cs parent index lock] [whole_sig_preimage u cs' parent' index' lock']).
Proof. exact whole_sig_after. Qed.
Print Assumptions C38_after_asic_partial.

Example C38_example : has_inputs s_v1_transaction /\
  replay_prefix (chain_at mainnet 180000) <> replay_prefix (chain_at mainnet 400000) /\
  length (replay_prefix (chain_at mainnet 180000)) = length (replay_prefix (chain_at mainnet 400000)) /\
  ~ has_inputs empty_v1 /\
  uval (hfa_height (net_hardfork_asic mainnet)) <= height (chain_at mainnet 180000) /\
  whole_sig_hash s_v1_transaction (chain_at mainnet 180000) (s_hash 1) (uwrap 64 0) (uwrap 64 0) <>
  whole_sig_hash s_v1_transaction (chain_at mainnet 400000) (s_hash 1) (uwrap 64 0) (uwrap 64 0).
Proof.
  split; [left; discriminate|]. split; [vm_compute; discriminate|]. split; [vm_compute; reflexivity|].
  split; [intros [H|H]; now apply H|]. split; [vm_compute; discriminate|].
  intros H. apply (f_equal aval) in H. vm_compute in H. discriminate.
Qed.

(** ** C39 *)

Theorem C39_error : forall t cs c,
  (exists e, partial_sig_hash t cs c = inr e) <-> ~ InRange t c.
Proof. exact partial_sig_error. Qed.
Print Assumptions C39_error.

(** The error names the first kind of elements, in the order of the fields, that has not the index. *)
Theorem C39_which : forall t cs c e,
  partial_sig_hash t cs c = inr e <-> exists m, FirstOutside (covered_kinds t c) m /\ e = ECustom m.
Proof. exact partial_sig_which. Qed.
Print Assumptions C39_which.

Example C39_which_example : FirstOutside (covered_kinds empty_v1 cover_fee) "miner_fees index out of bounds".
Proof.
  do 7 (apply outside_later; [now intros i []|]). apply outside_here with (uwrap 64 0); [now left|discriminate].
Qed.

Theorem C39_depends : forall t u cs cs' c d,
  SameCovered t c u d -> replay_prefix cs = replay_prefix cs' ->
  partial_sig_hash t cs c = partial_sig_hash u cs' d.
Proof. exact partial_sig_depends. Qed.
Print Assumptions C39_depends.

(** Without covered inputs the chain state does not matter either. *)
Theorem C39_depends_no_inputs : forall t cs cs' c, ~ covers_inputs c ->
  partial_sig_hash t cs c = partial_sig_hash t cs' c.
Proof. exact partial_sig_no_inputs. Qed.
Print Assumptions C39_depends_no_inputs.

(** The full statement of binding: fails even for one transaction and one chain state, because
    neither the kinds nor the number of covered elements are hashed. *)
Theorem C39_binds_refuted : ~ (forall t u cs c d x y,
  partial_sig_preimage t cs c = inl x -> partial_sig_preimage u cs d = inl y ->
  partial_sig_hash t cs c = partial_sig_hash u cs d -> SameCovered t c u d \/ Collision [x] [y]).
Proof. exact partial_sig_ambiguous. Qed.
Print Assumptions C39_binds_refuted.

(** It holds when the same number of elements of each kind is covered. *)
Theorem C39_binds_partial : forall t u cs cs' c d x y,
  SameShape c d -> length (replay_prefix cs) = length (replay_prefix cs') ->
  partial_sig_preimage t cs c = inl x -> partial_sig_preimage u cs' d = inl y ->
  partial_sig_hash t cs c = partial_sig_hash u cs' d ->
  (SameCovered t c u d /\ (covers_inputs c -> replay_prefix cs = replay_prefix cs')) \/ Collision [x] [y].
Proof. exact partial_sig_hash_binding. Qed.
Print Assumptions C39_binds_partial.

Example C39_example :
  InRange fee_or_data cover_fee /\ ~ InRange empty_v1 cover_fee /\
  partial_sig_hash fee_or_data before_asic cover_fee = partial_sig_hash fee_or_data before_asic cover_data /\
  SameShape cover_fee cover_fee /\ ~ SameShape cover_fee cover_data.
Proof.
  split; [repeat split; repeat constructor|]. split.
  - intros (_ & _ & _ & _ & _ & _ & _ & H & _). inversion H as [|? ? H1 _]. discriminate.
  - split; [vm_compute; reflexivity|]. split; [repeat split|]. intros (_ & _ & _ & _ & _ & _ & _ & H & _). discriminate.
Qed.

(** ** C40. Spent, revised and resolved elements are identified by their id, which is bound. *)

(** More than the witness data is ignored: the claim addresses are too. *)
Theorem C40_ignores : forall t u cs, SameButClaims t u ->
  v2_transaction_id t = v2_transaction_id u /\ input_sig_hash t cs = input_sig_hash u cs.
Proof. exact v2_ids_ignore. Qed.
Print Assumptions C40_ignores.

(** The full statement of binding: fails for the claim addresses of siafund inputs. *)
Theorem C40_id_claims_refuted : ~ (forall t u, v2_transaction_id t = v2_transaction_id u ->
  SameTransaction t u \/ Collision [v2_transaction_preimage t] [v2_transaction_preimage u]).
Proof. exact claims_not_in_id. Qed.
Print Assumptions C40_id_claims_refuted.

Theorem C40_signature_claims_refuted : forall cs, ~ (forall t u, input_sig_hash t cs = input_sig_hash u cs ->
  SameTransaction t u \/ Collision [input_sig_preimage t cs] [input_sig_preimage u cs]).
Proof. exact claims_not_signed. Qed.
Print Assumptions C40_signature_claims_refuted.

(** And for contract resolutions, whose kind is not hashed. *)
Theorem C40_resolutions_refuted : ~ (forall t u, v2_transaction_id t = v2_transaction_id u ->
  SameButClaims t u \/ Collision [v2_transaction_preimage t] [v2_transaction_preimage u]).
Proof. exact resolutions_ambiguous. Qed.
Print Assumptions C40_resolutions_refuted.

(** Everything else is bound when the resolutions are of the same kinds. *)
Theorem C40_id_partial : forall t u, SameKinds t u -> v2_transaction_id t = v2_transaction_id u ->
  SameButClaims t u \/ Collision [v2_transaction_preimage t] [v2_transaction_preimage u].
Proof. exact txid_binding. Qed.
Print Assumptions C40_id_partial.

Theorem C40_signature_partial : forall t u cs cs', SameKinds t u ->
  length (replay_prefix cs) = length (replay_prefix cs') ->
  input_sig_hash t cs = input_sig_hash u cs' ->
  (SameButClaims t u /\ replay_prefix cs = replay_prefix cs') \/
  Collision [input_sig_preimage t cs] [input_sig_preimage u cs'].
Proof. exact input_sig_binding. Qed.
Print Assumptions C40_signature_partial.

(** Transactions without siafund inputs and resolutions: the full statement. *)
Theorem C40_plain_partial : forall t u,
  vlist (v2t_siafund_inputs t) = [] -> vlist (v2t_file_contract_resolutions t) = [] ->
  vlist (v2t_file_contract_resolutions u) = [] ->
  v2_transaction_id t = v2_transaction_id u ->
  SameTransaction t u \/ Collision [v2_transaction_preimage t] [v2_transaction_preimage u].
Proof. exact txid_binding_plain. Qed.
Print Assumptions C40_plain_partial.

(** Whatever the kinds of the resolutions are, all but what follows the first difference in kind is
    bound. *)
Theorem C40_id_always_partial : forall t u, v2_transaction_id t = v2_transaction_id u ->
  SameApartResolutions t u \/ Collision [v2_transaction_preimage t] [v2_transaction_preimage u].
Proof. exact txid_always. Qed.
Print Assumptions C40_id_always_partial.

Theorem C40_signature_always_partial : forall t u cs cs',
  length (replay_prefix cs) = length (replay_prefix cs') ->
  input_sig_hash t cs = input_sig_hash u cs' ->
  (SameApartResolutions t u /\ replay_prefix cs = replay_prefix cs') \/
  Collision [input_sig_preimage t cs] [input_sig_preimage u cs'].
Proof. exact input_sig_always. Qed.
Print Assumptions C40_signature_always_partial.

Example C40_example : SameKinds s_v2_transaction s_v2_transaction /\
  vlist (v2t_file_contract_resolutions s_v2_transaction) <> [] /\
  SameButClaims (claiming (s_hash 1)) (claiming (s_hash 2)) /\
  v2_transaction_id s_v2_transaction <> v2_transaction_id s_v2_empty.
Proof.
  split; [repeat constructor|]. split; [discriminate|]. split; [repeat split; constructor|].
  intros H. apply (f_equal aval) in H. vm_compute in H. discriminate.
Qed.

(** ** C41 *)

Theorem C41_kinds : forall s s' cs cs', signed_kind s <> signed_kind s' ->
  signed_hash s cs = signed_hash s' cs' -> Collision [signed_bytes s cs] [signed_bytes s' cs'].
Proof. exact signed_kinds. Qed.
Print Assumptions C41_kinds.

(** The full statement of replay protection: fails between an empty and a non-empty prefix. *)
Theorem C41_replay_refuted : ~ (forall s s' cs cs', replay_prefix cs <> replay_prefix cs' ->
  signed_hash s cs = signed_hash s' cs' -> Collision [signed_bytes s cs] [signed_bytes s' cs']).
Proof. exact replay_ambiguous. Qed.
Print Assumptions C41_replay_refuted.

(** It holds for prefixes of the same length, and for contracts and renewals with any prefixes. *)
Theorem C41_replay_partial : forall s s' cs cs',
  length (replay_prefix cs) = length (replay_prefix cs') \/ fixed_size s ->
  replay_prefix cs <> replay_prefix cs' ->
  signed_hash s cs = signed_hash s' cs' -> Collision [signed_bytes s cs] [signed_bytes s' cs'].
Proof. exact signed_replay. Qed.
Print Assumptions C41_replay_partial.

(** Once the replay protection hardforks have started, all prefixes are one byte long. *)
Theorem C41_replay_after_asic_partial : forall s s' cs cs',
  uval (hfa_height (net_hardfork_asic (cs_network cs))) <= height cs ->
  uval (hfa_height (net_hardfork_asic (cs_network cs'))) <= height cs' ->
  replay_prefix cs <> replay_prefix cs' ->
  signed_hash s cs = signed_hash s' cs' -> Collision [signed_bytes s cs] [signed_bytes s' cs'].
Proof. exact signed_replay_after. Qed.
Print Assumptions C41_replay_after_asic_partial.

Example C41_example :
  signed_kind (SignedContract s_v2_contract) <> signed_kind (SignedRenewal s_renewal) /\
  fixed_size (SignedRenewal s_renewal) /\
  replay_prefix (chain_at mainnet 180000) <> replay_prefix (chain_at mainnet 400000) /\
  signed_hash (SignedInput s_v2_transaction) (chain_at mainnet 180000) <>
  signed_hash (SignedInput s_v2_transaction) (chain_at mainnet 400000).
Proof.
  split; [discriminate|]. split; [right; reflexivity|]. split; [vm_compute; discriminate|].
  intros H. apply (f_equal aval) in H. vm_compute in H. discriminate.
Qed.

(** ** C42 *)

Theorem C42_contract : forall c d cs,
  (SameContract c d -> fc_sig_hash c cs = fc_sig_hash d cs) /\
  (fc_sig_hash c cs = fc_sig_hash d cs ->
   SameContract c d \/ Collision [fc_sig_preimage c cs] [fc_sig_preimage d cs]).
Proof. exact fc_sig_exact. Qed.
Print Assumptions C42_contract.

Theorem C42_renewal : forall r s cs,
  (SameRenewal r s -> ren_sig_hash r cs = ren_sig_hash s cs) /\
  (ren_sig_hash r cs = ren_sig_hash s cs ->
   SameRenewal r s \/ Collision [ren_sig_preimage r cs] [ren_sig_preimage s cs]).
Proof. exact ren_sig_exact. Qed.
Print Assumptions C42_renewal.

Theorem C42_attestation : forall a b cs,
  (SameAttestation a b -> att_sig_hash a cs = att_sig_hash b cs) /\
  (att_sig_hash a cs = att_sig_hash b cs ->
   SameAttestation a b \/ Collision [att_sig_preimage a cs] [att_sig_preimage b cs]).
Proof. exact att_sig_exact. Qed.
Print Assumptions C42_attestation.

Example C42_example : SameRenewal s_renewal s_renewal /\
  ~ SameAttestation shifted_att_1 shifted_att_2 /\
  att_sig_hash shifted_att_1 before_asic <> att_sig_hash shifted_att_2 before_asic.
Proof.
  split; [|split].
  - repeat split; eexists; eexists; reflexivity.
  - intros [s H]. apply (f_equal (fun a => length (vlist (att_value a)))) in H. discriminate.
  - intros H. apply (f_equal aval) in H. vm_compute in H. discriminate.
Qed.
