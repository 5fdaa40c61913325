(** Signature hashes of the v2 objects, and the counterexamples. *)

From Verif Require Import Base Io IoProofs Spec SpecWire Codec CodecTac Model_encoding EncodingProofs
  Model_common Blake2b Model_currency Model_v1 Model_policy Model_v2 Model_consensus Model_merkle
  Model_ids Model_text Model_networks CommonProofs V1Proofs PolicyProofs V2Proofs V2TxnProofs ConsensusProofs
  SpecMerkle SpecConsensus SpecIds AddressProofs IdsProofs SigHashProofs Samples.
Local Open Scope N_scope.

Lemma signed_hash_bytes : forall s cs, signed_hash s cs = hash (signed_bytes s cs).
Proof. intros [a|c|r|t] cs; reflexivity. Qed.

Lemma kinds_differ : forall s s' cs cs', signed_kind s <> signed_kind s' ->
  signed_bytes s cs <> signed_bytes s' cs'.
Proof.
  intros s s' cs cs' Hk H. destruct s, s'; cbn [signed_kind] in Hk; try congruence; cbn [signed_bytes] in H;
    unfold att_sig_preimage, fc_sig_preimage, ren_sig_preimage, input_sig_preimage in H.
  all: try (refine (ascii_differs _ _ 14 _ _ _ _ _ H); vm_compute; first [discriminate | lia]).
  all: refine (ascii_differs _ _ 21 _ _ _ _ _ H); vm_compute; first [discriminate | lia].
Qed.

Lemma signed_kinds : forall s s' cs cs', signed_kind s <> signed_kind s' ->
  signed_hash s cs = signed_hash s' cs' -> Collision [signed_bytes s cs] [signed_bytes s' cs'].
Proof.
  intros s s' cs cs' Hk E. rewrite !signed_hash_bytes in E. apply hash_or_collision in E as [E|E]; [|exact E].
  exfalso. exact (kinds_differ _ _ _ _ Hk E).
Qed.

Lemma app3_length_inj : forall (p a b x y : bytes), length x = length y -> p ++ a ++ x = p ++ b ++ y -> a = b.
Proof.
  intros p a b x y Hl E. apply app_inv_head in E.
  assert (La : length a = length b).
  { apply (f_equal (@length byte)) in E. rewrite !app_length in E. lia. }
  apply app_len_inj in E; [|exact La]. now destruct E.
Qed.

#[local] Hint Resolve prop_fc_sem : prop.
Lemma ren_sem_length : forall r s, length (wbytes (ren_encode_semantics r)) = length (wbytes (ren_encode_semantics s)).
Proof.
  intros r s. unfold ren_encode_semantics.
  repeat rewrite wbytes_app_p by prop_tac.
  repeat rewrite app_length.
  rewrite (fc_sem_length (ren_final_revision r) (ren_final_revision s)).
  rewrite (fc_sem_length (ren_new_contract r) (ren_new_contract s)).
  unfold encode_currency. rewrite !wbytes_write_all. rewrite !le_bytes_length. reflexivity.
Qed.

(** Different replay prefixes, of the same length or for objects of fixed size. *)
Lemma signed_replay : forall s s' cs cs',
  length (replay_prefix cs) = length (replay_prefix cs') \/ fixed_size s ->
  replay_prefix cs <> replay_prefix cs' ->
  signed_hash s cs = signed_hash s' cs' -> Collision [signed_bytes s cs] [signed_bytes s' cs'].
Proof.
  intros s s' cs cs' Hc Hne E.
  destruct (match s, s' with
            | SignedAttestation _, SignedAttestation _ | SignedContract _, SignedContract _
            | SignedRenewal _, SignedRenewal _ | SignedInput _, SignedInput _ => true
            | _, _ => false end) eqn:K.
  2:{ apply signed_kinds; [|exact E]. destruct s, s'; cbn in K |- *; try discriminate; congruence. }
  rewrite !signed_hash_bytes in E. apply hash_or_collision in E as [E|E]; [|exact E]. exfalso. apply Hne.
  assert (Same : length (replay_prefix cs) = length (replay_prefix cs') -> replay_prefix cs = replay_prefix cs').
  { intros Hl. destruct s, s'; try discriminate; cbn [signed_bytes] in E;
      unfold att_sig_preimage, fc_sig_preimage, ren_sig_preimage, input_sig_preimage in E;
      apply app_inv_head in E; apply app_len_inj in E as [E _]; assumption. }
  destruct Hc as [Hc|[Hc|Hc]]; [now apply Same| |]; destruct s, s'; try discriminate; cbn [signed_bytes] in E.
  - unfold fc_sig_preimage in E. eapply app3_length_inj; [|exact E]. apply fc_sem_length.
  - unfold ren_sig_preimage in E. eapply app3_length_inj; [|exact E]. apply ren_sem_length.
Qed.

Lemma fc_sig_binding : forall c d cs cs', fc_sig_hash c cs = fc_sig_hash d cs' ->
  (SameContract c d /\ replay_prefix cs = replay_prefix cs') \/ Collision [fc_sig_preimage c cs] [fc_sig_preimage d cs'].
Proof.
  intros c d cs cs' E. apply hash_or_collision in E as [E|E]; [|now right]. left. unfold fc_sig_preimage in E.
  pose proof (app3_length_inj _ _ _ _ _ (fc_sem_length c d) E) as Hp. rewrite Hp in E. do 2 apply app_inv_head in E.
  apply (f_equal (fun l => l ++ [])) in E. apply fc_sem_splits in E as [E _]; [|exact I]. split; assumption.
Qed.

Lemma ren_sig_binding : forall r s cs cs', ren_sig_hash r cs = ren_sig_hash s cs' ->
  (SameRenewal r s /\ replay_prefix cs = replay_prefix cs') \/ Collision [ren_sig_preimage r cs] [ren_sig_preimage s cs'].
Proof.
  intros c d cs cs' E. apply hash_or_collision in E as [E|E]; [|now right]. left. unfold ren_sig_preimage in E.
  pose proof (app3_length_inj _ _ _ _ _ (ren_sem_length c d) E) as Hp. rewrite Hp in E. do 2 apply app_inv_head in E.
  apply (f_equal (fun l => l ++ [])) in E. apply ren_sem_splits in E as [E _]; [|exact I]. split; assumption.
Qed.

Lemma att_sig_binding : forall a b cs cs', length (replay_prefix cs) = length (replay_prefix cs') ->
  att_sig_hash a cs = att_sig_hash b cs' ->
  (SameAttestation a b /\ replay_prefix cs = replay_prefix cs') \/ Collision [att_sig_preimage a cs] [att_sig_preimage b cs'].
Proof.
  intros c d cs cs' Hl E. apply hash_or_collision in E as [E|E]; [|now right]. left. unfold att_sig_preimage in E.
  apply app_inv_head in E. apply app_len_inj in E as [Hp E]; [|exact Hl].
  apply (f_equal (fun l => l ++ [])) in E. apply att_sem_splits in E as [E _]; [|exact I]. split; assumption.
Qed.

(** ** Counterexamples *)

Lemma no_self_collision : forall x, ~ Collision [x] [x].
Proof. intros x (a & b & [<-|[]] & [<-|[]] & Hne & _). now apply Hne. Qed.

(** Two chain states with different replay prefixes: before and after the ASIC hardfork. *)
Definition before_asic : chain_state := chain_at mainnet 0.
Definition after_asic : chain_state := chain_at mainnet 179000.
Lemma asic_prefixes : replay_prefix before_asic = [] /\ replay_prefix after_asic = [x00].
Proof. split; vm_compute; reflexivity. Qed.

Definition empty_v1 : v1_transaction :=
  MkV1Txn vec_nil vec_nil vec_nil vec_nil vec_nil vec_nil vec_nil vec_nil vec_nil vec_nil.

Lemma whole_sig_no_replay : ~ (forall t u cs cs' parent parent' index index' lock lock',
  whole_sig_hash t cs parent index lock = whole_sig_hash u cs' parent' index' lock' ->
  (SameUnsigned t u /\ parent = parent' /\ index = index' /\ lock = lock' /\ replay_prefix cs = replay_prefix cs') \/
  Collision [whole_sig_preimage t cs parent index lock] [whole_sig_preimage u cs' parent' index' lock']).
Proof.
  intros H.
  destruct (H empty_v1 empty_v1 before_asic after_asic zero_hash zero_hash (uwrap 64 0) (uwrap 64 0) (uwrap 64 0)
    (uwrap 64 0) eq_refl) as [(_ & _ & _ & _ & E)|C].
  - destruct asic_prefixes as [E1 E2]. rewrite E1, E2 in E. discriminate.
  - exact (no_self_collision _ C).
Qed.

(** With an input, but replay prefixes of different length. *)
Definition odd_key : vec 1 u8 :=
  @MkVec 1 u8 (repeat x00 161 ++ [x01] ++ repeat x00 7 ++ [x97] ++ repeat x00 86) eq_refl.
Definition shifted_1 : v1_transaction :=
  MkV1Txn (@MkVec 72 _ [MkV1Sci zero_hash
      (MkUc (uwrap 64 0) (@MkVec 40 _ [MkUnlockKey (arr_of 16 []) odd_key] eq_refl) (uwrap 64 0))] eq_refl)
    vec_nil vec_nil vec_nil vec_nil vec_nil vec_nil vec_nil vec_nil vec_nil.
Definition shifted_2 : v1_transaction :=
  MkV1Txn (@MkVec 72 _ [MkV1Sci zero_hash (MkUc (uwrap 64 (2 ^ 56)) vec_nil (uwrap 64 0))] eq_refl)
    vec_nil
    (@MkVec 160 _ [MkV1Fc (uwrap 64 0) zero_hash (uwrap 64 0) (uwrap 64 0) (uwrap 128 0) vec_nil vec_nil
                          zero_hash (uwrap 64 0)] eq_refl)
    vec_nil vec_nil vec_nil vec_nil vec_nil
    (@MkVec 24 _ [@MkVec 1 u8 (repeat x00 151) eq_refl] eq_refl) vec_nil.

Lemma shifted_same :
  whole_sig_preimage shifted_1 before_asic zero_hash (uwrap 64 0) (uwrap 64 0) =
  whole_sig_preimage shifted_2 after_asic zero_hash (uwrap 64 0) (uwrap 64 0).
Proof. vm_compute. reflexivity. Qed.

Lemma whole_sig_shifted : ~ (forall t u cs cs' parent parent' index index' lock lock', has_inputs t ->
  whole_sig_hash t cs parent index lock = whole_sig_hash u cs' parent' index' lock' ->
  SameUnsigned t u \/
  Collision [whole_sig_preimage t cs parent index lock] [whole_sig_preimage u cs' parent' index' lock']).
Proof.
  intros H.
  destruct (H shifted_1 shifted_2 before_asic after_asic zero_hash zero_hash (uwrap 64 0) (uwrap 64 0) (uwrap 64 0)
    (uwrap 64 0)) as [E|C].
  - left. discriminate.
  - unfold whole_sig_hash. now rewrite shifted_same.
  - destruct E as [s E]. apply (f_equal (fun t => length (vlist (v1t_file_contracts t)))) in E. discriminate.
  - rewrite shifted_same in C. exact (no_self_collision _ C).
Qed.

(** A miner fee and arbitrary data with the same encoding. *)
Definition fee_or_data : v1_transaction :=
  MkV1Txn vec_nil vec_nil vec_nil vec_nil vec_nil vec_nil vec_nil
    (@MkVec 16 _ [uwrap 128 97] eq_refl) (@MkVec 24 _ [@MkVec 1 u8 [x61] eq_refl] eq_refl) vec_nil.
Definition first_index : vec 8 usize := @MkVec 8 usize [uwrap 64 0] eq_refl.
Definition cover_fee : covered_fields :=
  MkCf false vec_nil vec_nil vec_nil vec_nil vec_nil vec_nil vec_nil first_index vec_nil vec_nil.
Definition cover_data : covered_fields :=
  MkCf false vec_nil vec_nil vec_nil vec_nil vec_nil vec_nil vec_nil vec_nil first_index vec_nil.

Lemma partial_sig_ambiguous : ~ (forall t u cs c d x y,
  partial_sig_preimage t cs c = inl x -> partial_sig_preimage u cs d = inl y ->
  partial_sig_hash t cs c = partial_sig_hash u cs d -> SameCovered t c u d \/ Collision [x] [y]).
Proof.
  intros H.
  assert (E1 : partial_sig_preimage fee_or_data before_asic cover_fee = inl [x01;x00;x00;x00;x00;x00;x00;x00;x61])
    by (vm_compute; reflexivity).
  assert (E2 : partial_sig_preimage fee_or_data before_asic cover_data = inl [x01;x00;x00;x00;x00;x00;x00;x00;x61])
    by (vm_compute; reflexivity).
  destruct (H _ _ _ _ _ _ _ E1 E2) as [S|C].
  - unfold partial_sig_hash. now rewrite E1, E2.
  - destruct S as (_ & _ & _ & _ & _ & _ & _ & S & _). discriminate.
  - exact (no_self_collision _ C).
Qed.

(** Two transactions that differ in the claim address of a siafund input. *)
Definition claiming (a : hash256) : v2_transaction :=
  MkV2Txn vec_nil vec_nil
    (@MkVec 256 _ [MkV2Sfi (MkSfe s_state_element (s_hash 11) s_siafund_output (s_cur 3)) a s_satisfied] eq_refl)
    vec_nil vec_nil vec_nil vec_nil vec_nil vec_nil None (s_cur 0).

Lemma claims_not_in_id : ~ (forall t u, v2_transaction_id t = v2_transaction_id u ->
   SameTransaction t u \/ Collision [v2_transaction_preimage t] [v2_transaction_preimage u]).
Proof.
  intros H. destruct (H (claiming (s_hash 1)) (claiming (s_hash 2))) as [S|C].
  - reflexivity.
  - destruct S as [_ S]. discriminate.
  - exact (no_self_collision _ C).
Qed.

Lemma claims_not_signed : forall cs, ~ (forall t u, input_sig_hash t cs = input_sig_hash u cs ->
   SameTransaction t u \/ Collision [input_sig_preimage t cs] [input_sig_preimage u cs]).
Proof.
  intros cs H. destruct (H (claiming (s_hash 1)) (claiming (s_hash 2))) as [S|C].
  - reflexivity.
  - destruct S as [_ S]. discriminate.
  - exact (no_self_collision _ C).
Qed.

(** A storage proof and an expiration, in either order. *)
Definition proof_1 : v2_storage_proof :=
  MkV2Sp (MkCie (MkSe (s_u64 0) vec_nil) zero_hash (MkChainIndex (s_u64 0) zero_hash)) (arr_of 64 [])
    (@MkVec 32 _ [arr_of 32 (repeat x00 24 ++ [x01])] eq_refl).
Definition proof_2 : v2_storage_proof :=
  MkV2Sp (MkCie (MkSe (s_u64 0) vec_nil) zero_hash (MkChainIndex (s_u64 0) zero_hash))
    (arr_of 64 (repeat x00 32 ++ [x01])) (@MkVec 32 _ [zero_hash] eq_refl).
Definition contract_with_id (id : hash256) : file_contract_element := MkFce s_state_element id s_v2_contract.
Definition resolving (l : list file_contract_resolution)
  (h : ((N.of_nat (length l) * 1440 <=? isize_max) && (N.of_nat (length l) <=? isize_max))%bool = true) : v2_transaction :=
  MkV2Txn vec_nil vec_nil vec_nil vec_nil vec_nil vec_nil (@MkVec 1440 _ l h) vec_nil vec_nil None (s_cur 0).
Definition proof_first : v2_transaction := resolving
  [MkFcres (contract_with_id zero_hash) (ResStorageProof proof_1);
   MkFcres (contract_with_id zero_hash) ResExpiration] eq_refl.
Definition proof_last : v2_transaction := resolving
  [MkFcres (contract_with_id zero_hash) ResExpiration;
   MkFcres (contract_with_id zero_hash) (ResStorageProof proof_2)] eq_refl.

Lemma resolutions_same : wbytes (txn_encode_semantics proof_first) = wbytes (txn_encode_semantics proof_last).
Proof. vm_compute. reflexivity. Qed.

Lemma resolutions_ambiguous : ~ (forall t u, v2_transaction_id t = v2_transaction_id u ->
   SameButClaims t u \/ Collision [v2_transaction_preimage t] [v2_transaction_preimage u]).
Proof.
  intros H. destruct (H proof_first proof_last) as [S|C].
  - unfold v2_transaction_id, v2_transaction_preimage. now rewrite resolutions_same.
  - destruct S as (_ & _ & _ & _ & _ & _ & S & _). inversion S as [|? ? ? ? S1 _]. subst.
    destruct S1 as [_ S1]. inversion S1.
  - unfold v2_transaction_preimage in C. rewrite resolutions_same in C. exact (no_self_collision _ C).
Qed.

(** Attestations under replay prefixes of different length. *)
Definition shifted_att_1 : attestation :=
  MkAtt zero_hash (MkStr (@MkVec 1 u8 [x00; x08; x00; x00; x00; x00; x00; x00; x00] eq_refl) eq_refl)
    (@MkVec 1 u8 [] eq_refl) (s_sig 1).
Definition shifted_att_2 : attestation :=
  MkAtt (arr_of 32 (repeat x00 31 ++ [x09])) (MkStr (@MkVec 1 u8 [] eq_refl) eq_refl)
    (@MkVec 1 u8 (repeat x00 8) eq_refl) (s_sig 1).

Lemma attestations_same : att_sig_preimage shifted_att_1 before_asic = att_sig_preimage shifted_att_2 after_asic.
Proof. vm_compute. reflexivity. Qed.

Lemma replay_ambiguous : ~ (forall s s' cs cs', replay_prefix cs <> replay_prefix cs' ->
  signed_hash s cs = signed_hash s' cs' -> Collision [signed_bytes s cs] [signed_bytes s' cs']).
Proof.
  intros H. specialize (H (SignedAttestation shifted_att_1) (SignedAttestation shifted_att_2) before_asic after_asic).
  cbn [signed_hash signed_bytes] in H. unfold att_sig_hash in H. rewrite attestations_same in H.
  refine (no_self_collision _ (H _ eq_refl)).
  destruct asic_prefixes as [E1 E2]. rewrite E1, E2. discriminate.
Qed.

(** ** In the form of P_ids *)

Lemma derive_hash_bytes : forall d, aval (derive d) = blake2b_256 (hashed d).
Proof. intros d. rewrite derive_hashed. apply hash_aval. Qed.

Lemma v1_ids_ignore : forall t s i,
  v1_transaction_id (with_signatures t s) = v1_transaction_id t /\
  v1_siacoin_output_id (with_signatures t s) i = v1_siacoin_output_id t i /\
  v1_siafund_output_id (with_signatures t s) i = v1_siafund_output_id t i /\
  v1_file_contract_id (with_signatures t s) i = v1_file_contract_id t i.
Proof.
  intros t s i. assert (H : SameUnsigned t (with_signatures t s)) by (exists s; reflexivity).
  pose proof (same_derivation _ _ (SD_transaction _ _ H)) as H1.
  pose proof (same_derivation _ _ (SD_siacoin _ _ i H)) as H2.
  pose proof (same_derivation _ _ (SD_siafund _ _ i H)) as H3.
  pose proof (same_derivation _ _ (SD_contract _ _ i H)) as H4.
  cbn [derive] in *. repeat split; symmetry; assumption.
Qed.

Lemma same_unsigned_refl : forall t, SameUnsigned t t.
Proof. intros t. exists (v1t_signatures t). now destruct t. Qed.

Lemma v1_id_binds : forall t u, v1_transaction_id t = v1_transaction_id u ->
  SameUnsigned t u \/ Collision [hashed (V1Transaction t)] [hashed (V1Transaction u)].
Proof.
  intros t u H. destruct (derive_binding (V1Transaction t) (V1Transaction u) H) as [S|C]; [|now right].
  left. inversion S; subst; [apply same_unsigned_refl|assumption].
Qed.

Lemma v1_child_binds : forall t u i j,
  (v1_siacoin_output_id t i = v1_siacoin_output_id u j ->
   (SameUnsigned t u /\ i = j) \/ Collision [hashed (V1SiacoinOutput t i)] [hashed (V1SiacoinOutput u j)]) /\
  (v1_siafund_output_id t i = v1_siafund_output_id u j ->
   (SameUnsigned t u /\ i = j) \/ Collision [hashed (V1SiafundOutput t i)] [hashed (V1SiafundOutput u j)]) /\
  (v1_file_contract_id t i = v1_file_contract_id u j ->
   (SameUnsigned t u /\ i = j) \/ Collision [hashed (V1FileContract t i)] [hashed (V1FileContract u j)]).
Proof.
  intros t u i j. repeat split; intros H.
  - destruct (derive_binding (V1SiacoinOutput t i) (V1SiacoinOutput u j) H) as [S|C]; [|now right].
    left. inversion S; subst; (split; [first [assumption|apply same_unsigned_refl]|reflexivity]).
  - destruct (derive_binding (V1SiafundOutput t i) (V1SiafundOutput u j) H) as [S|C]; [|now right].
    left. inversion S; subst; (split; [first [assumption|apply same_unsigned_refl]|reflexivity]).
  - destruct (derive_binding (V1FileContract t i) (V1FileContract u j) H) as [S|C]; [|now right].
    left. inversion S; subst; (split; [first [assumption|apply same_unsigned_refl]|reflexivity]).
Qed.

Lemma txid_binding_plain : forall t u,
  vlist (v2t_siafund_inputs t) = [] -> vlist (v2t_file_contract_resolutions t) = [] ->
  vlist (v2t_file_contract_resolutions u) = [] ->
  v2_transaction_id t = v2_transaction_id u ->
  SameTransaction t u \/ Collision [v2_transaction_preimage t] [v2_transaction_preimage u].
Proof.
  intros t u Hs H1 H2 E. destruct (txid_binding t u) as [S|C]; [|exact E| |now right].
  - unfold SameKinds. rewrite H1, H2. constructor.
  - left. split; [exact S|]. destruct S as (_ & _ & S & _). unfold siafund_parents in S. unfold claim_addresses.
    rewrite Hs in *. destruct (vlist (v2t_siafund_inputs u)); [reflexivity|discriminate].
Qed.

Lemma prefix_length_after : forall cs, uval (hfa_height (net_hardfork_asic (cs_network cs))) <= SpecConsensus.height cs ->
  length (replay_prefix cs) = 1%nat.
Proof.
  intros cs H. unfold SpecConsensus.height in H. unfold replay_prefix.
  repeat match goal with |- context[if ?b then _ else _] => destruct b eqn:?; [reflexivity|] end.
  exfalso. rewrite ?Bool.negb_false_iff, ?N.leb_gt, ?N.ltb_lt in *. lia.
Qed.

Lemma signed_replay_after : forall s s' cs cs',
  uval (hfa_height (net_hardfork_asic (cs_network cs))) <= SpecConsensus.height cs ->
  uval (hfa_height (net_hardfork_asic (cs_network cs'))) <= SpecConsensus.height cs' ->
  replay_prefix cs <> replay_prefix cs' ->
  signed_hash s cs = signed_hash s' cs' -> Collision [signed_bytes s cs] [signed_bytes s' cs'].
Proof.
  intros s s' cs cs' H1 H2. apply signed_replay. left. now rewrite !prefix_length_after.
Qed.

Lemma fc_sig_exact : forall c d cs,
  (SameContract c d -> fc_sig_hash c cs = fc_sig_hash d cs) /\
  (fc_sig_hash c cs = fc_sig_hash d cs ->
   SameContract c d \/ Collision [fc_sig_preimage c cs] [fc_sig_preimage d cs]).
Proof.
  intros c d cs. split; [apply fc_sig_ignores|]. intros H. destruct (fc_sig_binding _ _ _ _ H) as [[S _]|C]; auto.
Qed.
Lemma ren_sig_exact : forall r s cs,
  (SameRenewal r s -> ren_sig_hash r cs = ren_sig_hash s cs) /\
  (ren_sig_hash r cs = ren_sig_hash s cs ->
   SameRenewal r s \/ Collision [ren_sig_preimage r cs] [ren_sig_preimage s cs]).
Proof.
  intros c d cs. split; [apply ren_sig_ignores|]. intros H. destruct (ren_sig_binding _ _ _ _ H) as [[S _]|C]; auto.
Qed.
Lemma att_sig_exact : forall a b cs,
  (SameAttestation a b -> att_sig_hash a cs = att_sig_hash b cs) /\
  (att_sig_hash a cs = att_sig_hash b cs ->
   SameAttestation a b \/ Collision [att_sig_preimage a cs] [att_sig_preimage b cs]).
Proof.
  intros c d cs. split; [apply att_sig_ignores|]. intros H.
  destruct (att_sig_binding _ _ _ _ eq_refl H) as [[S _]|C]; auto.
Qed.

Lemma v2_ids_ignore : forall t u cs, SameButClaims t u ->
  v2_transaction_id t = v2_transaction_id u /\ input_sig_hash t cs = input_sig_hash u cs.
Proof. intros t u cs H. split; [now apply txid_ignores|now apply input_sig_ignores]. Qed.

Lemma arrays_differ : forall n (a b : arr n),
  (if list_eq_dec Byte.byte_eq_dec (aval a) (aval b) then true else false) = false -> a <> b.
Proof. intros n a b E ->. destruct (list_eq_dec _ _ _); [discriminate|auto]. Qed.
