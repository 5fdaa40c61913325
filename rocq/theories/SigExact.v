(** Signature hashes: what is bound whatever the kinds of resolutions and the replay prefixes are. *)

From Verif Require Import Base Io IoProofs Spec SpecWire Codec CodecTac Model_encoding EncodingProofs
  Model_common Blake2b Model_currency Model_v1 Model_policy Model_v2 Model_consensus Model_merkle
  Model_ids CommonProofs V1Proofs PolicyProofs V2Proofs V2TxnProofs ConsensusProofs SpecConsensus
  SpecMerkle SpecIds AddressProofs IdsProofs SigHashProofs SigMore.
Local Open Scope N_scope.

(** ** v2 transactions *)

Lemma fcres_step : forall r s x y, SameKind (fcres_resolution r) (fcres_resolution s) ->
  wbytes (fcres_encode_semantics r) ++ x = wbytes (fcres_encode_semantics s) ++ y -> SameResolution r s /\ x = y.
Proof. intros r s x y H E. exact (fcres_sem_splits r s x y H E). Qed.

Lemma fcres_parent_bytes : forall r, exists b,
  wbytes (fcres_encode_semantics r) = aval (fce_id (fcres_parent r)) ++ b.
Proof.
  intros r. unfold fcres_encode_semantics. rewrite wbytes_app_p by apply prop_hash. rewrite wbytes_hash. eexists. reflexivity.
Qed.

Lemma resolutions_prefix : forall l l' x y, length l = length l' ->
  concat (map (fun r => wbytes (fcres_encode_semantics r)) l) ++ x = concat (map (fun r => wbytes (fcres_encode_semantics r)) l') ++ y ->
  forall n, Forall2 (fun r s => SameKind (fcres_resolution r) (fcres_resolution s)) (firstn n l) (firstn n l') ->
  Forall2 SameResolution (firstn n l) (firstn n l') /\
  nth_error (map (fun r => fce_id (fcres_parent r)) l) n = nth_error (map (fun r => fce_id (fcres_parent r)) l') n.
Proof.
  induction l as [|r l IH]; intros [|s l'] x y L E n HK; try discriminate.
  - destruct n; (split; [constructor|reflexivity]).
  - cbn [map concat] in E. rewrite <- !app_assoc in E. destruct n as [|n]; cbn [firstn map nth_error] in *.
    + split; [constructor|]. destruct (fcres_parent_bytes r) as [b ->] in E. destruct (fcres_parent_bytes s) as [c ->] in E.
      rewrite <- !app_assoc in E. apply hash_splits in E as [-> _]. reflexivity.
    + inversion HK as [|? ? ? ? H1 H2]; subst. apply (fcres_step r s) in E as [S E]; [|exact H1].
      destruct (IH l' x y (eq_add_S _ _ L) E n H2) as [I1 I2]. split; [now constructor|exact I2].
Qed.

Lemma wbytes_money : forall c, length (wbytes (encode_currency c)) = 16%nat.
Proof. intros c. unfold encode_currency. rewrite wbytes_write_all, le_bytes_length. reflexivity. Qed.

Lemma app_tail : forall (p q x y : bytes), length x = length y -> p ++ x = q ++ y -> p = q /\ x = y.
Proof.
  intros p q x y L E. apply (app_len_inj p q x y); [|exact E]. apply (f_equal (@length _)) in E. rewrite !app_length in E. lia.
Qed.

Lemma txn_sem_always : forall t u, wbytes (txn_encode_semantics t) = wbytes (txn_encode_semantics u) -> SameApartResolutions t u.
Proof.
  intros t u E. rewrite !wbytes_txn_sem in E.
  assert (F : v2t_miner_fee t = v2t_miner_fee u).
  { rewrite !app_assoc in E. apply app_tail in E as [_ E]; [|now rewrite !wbytes_money].
    apply (f_equal (fun l => l ++ [])) in E. now apply (rt_splits _ _ _ rt_currency) in E as [E _]. }
  apply (each_always _ _ _ _ prop_sci_id (same_id_splits _ (fun i => sce_id (v2sci_parent i)))) in E as [E1 E].
  split_field E rt_v2_sco.
  apply (each_always _ _ _ _ prop_sfi_id (same_id_splits _ (fun i => sfe_id (v2sfi_parent i)))) in E as [E3 E].
  split_field E rt_v2_sfo.
  apply (each_always _ _ _ _ prop_fc_sem fc_sem_splits) in E as [E5 E].
  apply (each_always _ _ _ _ prop_fcr_sem fcr_sem_splits) in E as [E6 E].
  rewrite (wbytes_each _ _ _ (v2t_file_contract_resolutions t) prop_fcres_sem), (wbytes_each _ _ _ (v2t_file_contract_resolutions u) prop_fcres_sem) in E. rewrite <- !app_assoc in E.
  apply le8_splits in E as [L E]; [|apply vec_len_lt|apply vec_len_lt].
  assert (L' : length (vlist (v2t_file_contract_resolutions t)) = length (vlist (v2t_file_contract_resolutions u))) by lia.
  pose proof (resolutions_prefix _ _ _ _ L' E) as R.
  unfold SameApartResolutions, siacoin_parents, siafund_parents.
  repeat (split; [first [assumption|now apply forall2_map]|]). exact F.
Qed.

Lemma txid_always : forall t u, v2_transaction_id t = v2_transaction_id u ->
  SameApartResolutions t u \/ Collision [v2_transaction_preimage t] [v2_transaction_preimage u].
Proof. intros t u E. apply hash_or_collision in E as [E|E]; [|now right]. left. now apply txn_sem_always. Qed.

Lemma input_sig_always : forall t u cs cs', length (replay_prefix cs) = length (replay_prefix cs') ->
  input_sig_hash t cs = input_sig_hash u cs' ->
  (SameApartResolutions t u /\ replay_prefix cs = replay_prefix cs') \/
  Collision [input_sig_preimage t cs] [input_sig_preimage u cs'].
Proof.
  intros t u cs cs' Hp E. apply hash_or_collision in E as [E|E]; [|now right]. left.
  unfold input_sig_preimage in E. apply app_inv_head in E. apply app_len_inj in E as [E1 E2]; [|exact Hp].
  split; [now apply txn_sem_always|exact E1].
Qed.

(** ** v1 transactions *)

Lemma whole_sig_always_bytes : forall t u cs cs' parent parent' index index' lock lock',
  whole_sig_preimage t cs parent index lock = whole_sig_preimage u cs' parent' index' lock' ->
  parent = parent' /\ index = index' /\ lock = lock' /\
  length (vlist (v1t_siacoin_inputs t)) = length (vlist (v1t_siacoin_inputs u)) /\
  (~ has_inputs t -> SameUnsigned t u).
Proof.
  intros t u cs cs' parent parent' index index' lock lock' E.
  assert (T : aval parent ++ wbytes (encode_u64 index) ++ wbytes (encode_u64 lock) =
              aval parent' ++ wbytes (encode_u64 index') ++ wbytes (encode_u64 lock')).
  { unfold whole_sig_preimage in E. rewrite !app_assoc in E. rewrite <- !(app_assoc _ _ (wbytes (encode_u64 lock))) in E.
    rewrite <- !(app_assoc _ _ (wbytes (encode_u64 lock'))) in E.
    rewrite <- !(app_assoc _ (aval parent)) in E. rewrite <- !(app_assoc _ (aval parent')) in E.
    apply app_tail in E as [_ E]; [exact E|]. rewrite !app_length, !arr_len, !wbytes_u64, !le_bytes_length. reflexivity. }
  apply hash_splits in T as [P T]. rewrite !wbytes_u64 in T. apply u64_splits in T as [I T]. apply u64_inj in T.
  do 3 (split; [assumption|]).
  unfold whole_sig_preimage in E. apply le8_splits in E as [L1 E]; [|apply vec_len_lt|apply vec_len_lt].
  split; [lia|]. intros N.
  assert (N1 : vlist (v1t_siacoin_inputs t) = []) by (destruct (vlist (v1t_siacoin_inputs t)) eqn:X; [reflexivity|exfalso; apply N; left; rewrite X; discriminate]).
  assert (N2 : vlist (v1t_siafund_inputs t) = []) by (destruct (vlist (v1t_siafund_inputs t)) eqn:X; [reflexivity|exfalso; apply N; right; rewrite X; discriminate]).
  assert (M1 : vlist (v1t_siacoin_inputs u) = []) by (rewrite N1 in L1; destruct (vlist (v1t_siacoin_inputs u)); [reflexivity|cbn in L1; lia]).
  rewrite N1, M1 in E. cbn [map concat app] in E.
  split_field E rt_sco. split_field E rt_fc. split_field E rt_fcr. split_field E rt_sp.
  apply le8_splits in E as [L2 E]; [|apply vec_len_lt|apply vec_len_lt].
  assert (M2 : vlist (v1t_siafund_inputs u) = []) by (rewrite N2 in L2; destruct (vlist (v1t_siafund_inputs u)); [reflexivity|cbn in L2; lia]).
  rewrite N2, M2 in E. cbn [map concat app] in E.
  split_field E rt_sfo. split_field E rt_fees. split_field E rt_arb.
  apply same_unsigned; try assumption; apply vec_eq; congruence.
Qed.

Lemma whole_sig_always : forall t u cs cs' parent parent' index index' lock lock',
  whole_sig_hash t cs parent index lock = whole_sig_hash u cs' parent' index' lock' ->
  (parent = parent' /\ index = index' /\ lock = lock' /\
   length (vlist (v1t_siacoin_inputs t)) = length (vlist (v1t_siacoin_inputs u)) /\
   (~ has_inputs t -> SameUnsigned t u)) \/
  Collision [whole_sig_preimage t cs parent index lock] [whole_sig_preimage u cs' parent' index' lock'].
Proof.
  intros t u cs cs' parent parent' index index' lock lock' E. unfold whole_sig_hash in E.
  apply hash_or_collision in E as [E|E]; [|now right]. left. exact (whole_sig_always_bytes _ _ _ _ _ _ _ _ _ _ E).
Qed.

Lemma no_inputs : forall t, ~ has_inputs t -> vlist (v1t_siacoin_inputs t) = [] /\ vlist (v1t_siafund_inputs t) = [].
Proof.
  intros t N. split.
  - destruct (vlist (v1t_siacoin_inputs t)) eqn:X; [reflexivity|exfalso; apply N; left; rewrite X; discriminate].
  - destruct (vlist (v1t_siafund_inputs t)) eqn:X; [reflexivity|exfalso; apply N; right; rewrite X; discriminate].
Qed.

Lemma whole_sig_same : forall t u cs cs' parent index lock, SameUnsigned t u ->
  (has_inputs t -> replay_prefix cs = replay_prefix cs') ->
  whole_sig_hash t cs parent index lock = whole_sig_hash u cs' parent index lock.
Proof.
  intros t u cs cs' parent index lock [s ->] P. unfold whole_sig_hash. f_equal. unfold whole_sig_preimage, with_signatures.
  cbn [v1t_siacoin_inputs v1t_siacoin_outputs v1t_file_contracts v1t_file_contract_revisions v1t_storage_proofs v1t_siafund_inputs
    v1t_siafund_outputs v1t_miner_fees v1t_arbitrary_data].
  destruct (vlist (v1t_siacoin_inputs t)) as [|a l] eqn:X1, (vlist (v1t_siafund_inputs t)) as [|b m] eqn:X2;
    try (rewrite P; [reflexivity|unfold has_inputs; rewrite ?X1, ?X2; (left; discriminate) || (right; discriminate)]); reflexivity.
Qed.

Lemma whole_sig_after : forall t u cs cs' parent parent' index index' lock lock',
  uval (hfa_height (net_hardfork_asic (cs_network cs))) <= height cs ->
  uval (hfa_height (net_hardfork_asic (cs_network cs'))) <= height cs' ->
  let same := SameUnsigned t u /\ parent = parent' /\ index = index' /\ lock = lock' /\
              (has_inputs t -> replay_prefix cs = replay_prefix cs') in
  (same -> whole_sig_hash t cs parent index lock = whole_sig_hash u cs' parent' index' lock') /\
  (whole_sig_hash t cs parent index lock = whole_sig_hash u cs' parent' index' lock' ->
   same \/ Collision [whole_sig_preimage t cs parent index lock] [whole_sig_preimage u cs' parent' index' lock']).
Proof.
  intros t u cs cs' parent parent' index index' lock lock' H1 H2 same. split.
  - intros (S & -> & -> & -> & P). now apply whole_sig_same.
  - intros E. apply whole_sig_hash_binding; [now rewrite !prefix_length_after|exact E].
Qed.
