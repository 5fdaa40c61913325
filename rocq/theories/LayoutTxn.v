(** The layouts of SpecLayout.v: v2 transactions, chain states, and the bytes behind hashes. *)

From Verif Require Import Base Io IoProofs Blake2b Spec SpecWire Codec Model_encoding Model_common Model_currency Model_v1
  Model_policy Model_v2 Model_consensus Model_merkle Model_ids SpecConsensus SpecIds SpecLayout
  EncodingProofs CommonProofs BasicProofs ConsensusProofs ConsensusFnProofs IdsProofs
  MerkleProofs AddressProofs SigHashProofs LayoutProofs.
From Verif Require SpecCodecs TableProofs WireProofs.
Local Open Scope N_scope.

(** ** v2 transactions *)

Definition shown (o : option bytes) : bytes := match o with Some b => b | None => [] end.
Definition present_bit (o : option bytes) : bool := match o with Some _ => true | None => false end.

Lemma lays_section : forall sz A (e : A -> wprog) f (v : vec sz A), (forall a, Lays (e a) (f a)) ->
  Lays (encode_when (negb (is_empty v)) (encode_vec e v)) (shown (section f v)).
Proof.
  intros sz A e f v H. pose proof (lays_vec sz A e f v H) as L.
  unfold is_empty, section. destruct (vlist v) as [|x l]; [apply lays_nil|exact L].
Qed.

Lemma section_bit : forall sz A f (v : vec sz A), negb (is_empty v) = present_bit (section f v).
Proof. intros sz A f v. unfold is_empty, section. now destruct (vlist v). Qed.

Lemma sum_bits_bitmap : forall l i, sum_bits i (map present_bit l) = 2 ^ i * bitmap l.
Proof.
  induction l as [|[b|] l IH]; intros i; cbn [map sum_bits bitmap present_bit]; [lia| |];
    rewrite IH, N.pow_add_r, ?N.shiftl_1_l; lia.
Qed.

Lemma bitmap_lt : forall l, bitmap l < 2 ^ N.of_nat (length l).
Proof.
  induction l as [|[b|] l IH]; cbn [bitmap length]; [reflexivity| |];
    rewrite Nat2N.inj_succ, N.pow_succ_r'; lia.
Qed.

Lemma conditions_sections : forall t, txn_conditions t = map present_bit (lay_sections t).
Proof.
  intros t. unfold txn_conditions, lay_sections. cbn [map].
  rewrite <- !section_bit. repeat f_equal.
  - now destruct (v2t_new_foundation_address t).
  - unfold is_zero. now destruct (uval (v2t_miner_fee t) =? 0).
Qed.

Lemma lays_v2_transaction : forall t, Lays (encode_v2_transaction t) (lay_v2_transaction t).
Proof.
  intros t. unfold lay_v2_transaction, encode_v2_transaction.
  match goal with |- Lays _ (?x :: ?y) => change (x :: y) with ([x] ++ y) end.
  apply lays_app; [apply lays_u8|]. apply lays_app.
  - eapply lays_eq; [apply lays_u64|]. unfold word. f_equal.
    rewrite conditions_sections, sum_bits_bitmap. change (2 ^ 0) with 1. rewrite N.mul_1_l.
    change (bitmap (lay_sections t) mod 2 ^ 64 = bitmap (lay_sections t)). apply N.mod_small.
    eapply N.lt_trans; [apply bitmap_lt|]. reflexivity.
  - change (fun o : option bytes => match o with Some b => b | None => [] end) with shown.
    unfold lay_sections. cbn [map].
    apply lays_cons; [apply lays_section, lays_v2_siacoin_input|].
    apply lays_cons; [apply lays_section, lays_siacoin_output|].
    apply lays_cons; [apply lays_section, lays_v2_siafund_input|].
    apply lays_cons; [apply lays_section, lays_siafund_output|].
    apply lays_cons; [apply lays_section, lays_contract|].
    apply lays_cons; [apply lays_section, lays_v2_revision|].
    apply lays_cons; [apply lays_section, lays_resolution|].
    apply lays_cons; [apply lays_section, lays_attestation|].
    apply lays_cons; [apply lays_section, lays_u8|].
    apply lays_cons; [destruct (v2t_new_foundation_address t); [apply lays_hash|apply lays_nil]|].
    apply lays_last. unfold is_zero. destruct (uval (v2t_miner_fee t) =? 0); [apply lays_nil|apply lays_currency].
Qed.

(** ** Chain states *)

Lemma lays_trees : forall n l i, Lays (encode_trees n (N.of_nat i) l)
  (concat (map (fun x => if N.testbit (uval n) (N.of_nat (fst x)) then aval (snd x) else []) (combine (seq i (length l)) l))).
Proof.
  intros n; induction l as [|h l IH]; intros i; [apply lays_nil|].
  cbn [encode_trees length seq combine map concat fst snd].
  replace (N.of_nat i + 1) with (N.of_nat (S i)) by lia. apply lays_app; [|apply IH].
  rewrite has_tree_testbit. destruct (N.testbit (uval n) (N.of_nat i)); [apply lays_hash|apply lays_nil].
Qed.

Lemma lays_accumulator : forall a, Lays (encode_element_accumulator a) (lay_accumulator a).
Proof.
  intros a. apply lays_app; [apply lays_u64|].
  pose proof (lays_trees (ea_num_leaves a) (flist (ea_trees a)) 0) as H. rewrite farr_len in H. exact H.
Qed.

Lemma state_bytes : forall p s, uval (ci_height (st_index s)) + 1 < 2 ^ 64 ->
  wbytes (encode_state p s) = lay_state s.
Proof.
  intros p s H. unfold encode_state. rewrite timestamps_count_val by assumption.
  rewrite wbytes_app_p by apply lays_chain_index.
  rewrite wbytes_app by (apply no_wpanic_wunwrap, prop_ts). rewrite wbytes_wunwrap by apply prop_ts.
  unfold lay_state. cbn [concat]. f_equal; [apply lays_chain_index|].
  f_equal.
  - assert (Hc : N.to_nat (N.min 11 (uval (ci_height (st_index s)) + 1)) = ts_count s)
      by (unfold ts_count; lia).
    rewrite Hc. apply (lays_concat _ encode_odt timestamp), lays_odt.
  - match goal with |- wbytes ?q = ?b => assert (L : Lays q b); [|apply L] end.
    apply lays_app; [apply lays_hash|]. apply lays_app; [apply lays_hash|].
    apply lays_app; [apply lays_currency|]. apply lays_app; [apply lays_duration|].
    apply lays_app; [apply lays_hash|]. apply lays_app; [apply lays_hash|]. apply lays_app; [apply lays_hash|].
    apply lays_app; [apply lays_work|]. apply lays_app; [apply lays_work|]. apply lays_app; [apply lays_work|].
    apply lays_app; [apply lays_accumulator|].
    rewrite app_nil_r. apply lays_u64.
Qed.

(** ** The tables *)

Lemma v2_lays : forall A e f, V2Layout A e f -> forall a, Lays (e a) (f a).
Proof.
  intros A e f H. induction H.
  - apply lays_u8.
  - apply lays_bool.
  - intros; now apply lays_uint.
  - intros; now apply lays_uint.
  - intros; now apply lays_uint.
  - intros; now apply lays_uint.
  - apply lays_sint.
  - apply lays_sint.
  - apply lays_sint.
  - apply lays_string.
  - apply lays_currency.
  - apply lays_specifier.
  - apply lays_hash.
  - apply lays_signature.
  - apply lays_leaf.
  - apply lays_work.
  - apply lays_arr.
  - intros v. now apply lays_vec.
  - intros o. now apply lays_option.
  - apply lays_odt.
  - apply lays_duration.
  - apply lays_chain_index.
  - apply lays_siacoin_output.
  - apply lays_siafund_output.
  - apply lays_state_element.
  - apply lays_unlock_key.
  - apply lays_unlock_conditions.
  - apply lays_attestation.
  - apply lays_contract.
  - apply lays_siacoin_element.
  - apply lays_siafund_element.
  - apply lays_file_contract_element.
  - apply lays_chain_index_element.
  - apply lays_v2_revision.
  - apply lays_renewal.
  - apply lays_v2_storage_proof.
  - apply lays_resolution.
  - apply lays_policy.
  - apply lays_satisfied_policy.
  - apply lays_v2_siacoin_input.
  - apply lays_v2_siafund_input.
  - apply lays_v2_transaction.
  - apply lays_accumulator.
Qed.

Lemma v1_lays : forall A e f, V1Layout A e f -> forall a, Lays (e a) (f a).
Proof.
  intros A e f H. induction H.
  - apply lays_u8.
  - apply lays_bool.
  - intros; now apply lays_uint.
  - intros; now apply lays_uint.
  - intros; now apply lays_uint.
  - intros; now apply lays_uint.
  - apply lays_sint.
  - apply lays_sint.
  - apply lays_sint.
  - apply lays_string.
  - apply lays_specifier.
  - apply lays_hash.
  - apply lays_leaf.
  - apply lays_arr.
  - intros v. now apply lays_vec.
  - intros o. now apply lays_option.
  - apply lays_v1_currency.
  - apply lays_work.
  - apply lays_old_siacoin_output.
  - apply lays_old_siafund_output.
  - apply lays_unlock_key.
  - apply lays_unlock_conditions.
  - apply lays_v1_siacoin_input.
  - apply lays_v1_siafund_input.
  - apply lays_v1_file_contract.
  - apply lays_v1_revision.
  - apply lays_v1_storage_proof.
  - apply lays_covered_fields.
  - apply lays_transaction_signature.
  - apply lays_v1_transaction.
  - apply lays_block.
Qed.

(** ** Identifiers *)

Lemma lays_bytes : forall p b, Lays p b -> wbytes p = b.
Proof. now intros p b [_ H]. Qed.

Lemma word_bytes : forall v : u64, le_bytes 8 (uval v) = word v.
Proof. intros v. apply le_bytes_num. Qed.

Lemma name_bytes : forall s, (String.length s <= 16)%nat -> aval (specifier_of_text s) = name16 s.
Proof.
  intros s H. unfold specifier_of_text, name16, ascii.
  assert (L : length (list_byte_of_string s) = String.length s).
  { clear. unfold list_byte_of_string. rewrite map_length. induction s as [|c s IH]; [reflexivity|].
    cbn. now rewrite IH. }
  rewrite L. apply arr_of_aval. rewrite app_length, repeat_length, L. lia.
Qed.

Lemma hash_bytes : forall b c, b = c -> aval (hash b) = blake2b_256 c.
Proof. intros b c <-. apply hash_aval. Qed.

Lemma derive_bytes : forall d, aval (derive d) = blake2b_256 (lay_derivation d).
Proof.
  intros d. destruct d; cbn [derive lay_derivation concat]; apply hash_bytes;
    rewrite ?app_nil_r;
    unfold v1_child_preimage, claim_output_preimage, v2_claim_output_preimage, foundation_output_preimage,
      miner_output_preimage, proof_output_preimage, v2_proof_output_preimage, v2_renewal_preimage,
      v2_siacoin_output_preimage, v2_siafund_output_preimage, v2_file_contract_preimage,
      v2_attestation_preimage, v2_child_preimage, index_bytes;
    rewrite ?word_bytes, ?name_bytes by (cbn; lia);
    rewrite ?(lays_bytes _ _ (lays_no_sigs _)); reflexivity.
Qed.

(** ** Signature hashes *)

Lemma replay_bytes : forall cs, replay_prefix cs = lay_replay cs.
Proof.
  intros cs. unfold replay_prefix, lay_replay, forks. cbv zeta. cbn [filter fst].
  destruct (uval (hfa_height _) <=? _), (uval (hff_height _) <=? _), (uval (hfv2_allow_height _) <=? _); reflexivity.
Qed.

Lemma lays_zero_signature : Lays (encode_signature zero_signature) no_signature.
Proof.
  eapply lays_eq; [apply lays_signature|]. unfold zero_signature, no_signature.
  apply arr_of_aval, repeat_length.
Qed.

Lemma lays_att_semantics : forall a, Lays (att_encode_semantics a) (lay_attestation_with a no_signature).
Proof.
  intros a. apply lays_cons; [apply lays_hash|]. apply lays_cons; [apply lays_string|].
  apply lays_cons; [apply lays_blob|]. apply lays_last, lays_zero_signature.
Qed.

Lemma lays_fc_semantics : forall c, Lays (fc_encode_semantics c) (lay_contract_unsigned c).
Proof.
  intros c. unfold lay_contract_unsigned, lay_contract_with.
  apply lays_cons; [apply lays_u64|]. apply lays_cons; [apply lays_u64|].
  apply lays_cons; [apply lays_hash|]. apply lays_cons; [apply lays_u64|].
  apply lays_cons; [apply lays_u64|]. apply lays_cons; [apply lays_siacoin_output|].
  apply lays_cons; [apply lays_siacoin_output|]. apply lays_cons; [apply lays_currency|].
  apply lays_cons; [apply lays_currency|]. apply lays_cons; [apply lays_hash|].
  apply lays_cons; [apply lays_hash|]. apply lays_cons; [apply lays_u64|].
  apply lays_cons; [apply lays_zero_signature|]. apply lays_last, lays_zero_signature.
Qed.

Lemma lays_ren_semantics : forall r, Lays (ren_encode_semantics r) (lay_renewal_unsigned r).
Proof.
  intros r. apply lays_cons; [apply lays_fc_semantics|]. apply lays_cons; [apply lays_fc_semantics|].
  apply lays_cons; [apply lays_currency|]. apply lays_cons; [apply lays_currency|].
  apply lays_cons; [apply lays_zero_signature|]. apply lays_last, lays_zero_signature.
Qed.

Lemma lays_sp_semantics : forall p, Lays (sp_encode_semantics p) (lay_storage_proof_unproved p).
Proof.
  intros p. unfold sp_encode_semantics, cie_encode_semantics. rewrite <- !app_assoc.
  apply lays_cons; [apply lays_u64|].
  apply lays_cons; [apply (lays_slice _ encode_hash aval []); [reflexivity|apply lays_hash]|].
  apply lays_cons; [apply lays_hash|]. apply lays_cons; [apply lays_chain_index|].
  apply lays_cons; [apply lays_leaf|]. apply lays_last, lays_vec, lays_hash.
Qed.

Lemma lays_txn_semantics : forall t, Lays (txn_encode_semantics t) (lay_v2_unsigned t).
Proof.
  intros t. unfold lay_v2_unsigned.
  apply lays_cons; [apply lays_each; intros; apply lays_hash|].
  apply lays_cons; [apply lays_vec, lays_siacoin_output|].
  apply lays_cons; [apply lays_each; intros; apply lays_hash|].
  apply lays_cons; [apply lays_vec, lays_siafund_output|].
  apply lays_cons; [apply lays_each, lays_fc_semantics|].
  apply lays_cons; [apply lays_each; intros; apply lays_app; [apply lays_hash|apply lays_fc_semantics]|].
  apply lays_cons.
  { apply lays_each. intros r. apply lays_app; [apply lays_hash|].
    destruct (fcres_resolution r); [apply lays_ren_semantics|apply lays_sp_semantics|apply lays_nil]. }
  apply lays_cons; [apply lays_vec, lays_attestation|].
  apply lays_cons; [apply lays_vec, lays_u8|].
  apply lays_cons; [apply lays_option, lays_hash|].
  apply lays_last, lays_currency.
Qed.

Lemma v2_id_bytes : forall t, aval (v2_transaction_id t) = blake2b_256 (lay_v2_unsigned t).
Proof. intros t. apply hash_bytes, lays_bytes, lays_txn_semantics. Qed.

Lemma signed_bytes_laid : forall s cs, aval (signed_hash s cs) = blake2b_256 (lay_signed s cs).
Proof.
  intros s cs. destruct s; cbn [signed_hash lay_signed concat]; apply hash_bytes;
    rewrite app_nil_r;
    unfold att_sig_preimage, fc_sig_preimage, ren_sig_preimage, input_sig_preimage;
    (apply f_equal2; [reflexivity|]); (apply f_equal2; [apply replay_bytes|]); apply lays_bytes.
  - apply lays_att_semantics.
  - apply lays_fc_semantics.
  - apply lays_ren_semantics.
  - apply lays_txn_semantics.
Qed.

Lemma map_lays : forall A (e : A -> wprog) f p l, (forall a, Lays (e a) (f a)) ->
  map (fun i => p ++ wbytes (e i)) l = map (fun i => p ++ f i) l.
Proof. intros A e f p l H. apply map_ext. intros a. now rewrite (lays_bytes _ _ (H a)). Qed.

Lemma vec_laid : forall sz A (e : A -> wprog) f (v : vec sz A), (forall a, Lays (e a) (f a)) ->
  wbytes (encode_vec e v) = many f (vlist v).
Proof. intros sz A e f v H. now apply lays_bytes, lays_vec. Qed.

Lemma whole_bytes : forall t cs parent key lock,
  aval (whole_sig_hash t cs parent key lock) = blake2b_256 (lay_whole t cs parent key lock).
Proof.
  intros t cs parent key lock. apply hash_bytes. unfold whole_sig_preimage, lay_whole. cbn [concat].
  rewrite replay_bytes, !le_bytes_num.
  rewrite (map_lays _ _ _ _ _ lays_v1_siacoin_input), (map_lays _ _ _ _ _ lays_v1_siafund_input).
  rewrite (vec_laid _ _ _ _ _ lays_old_siacoin_output), (vec_laid _ _ _ _ _ lays_v1_file_contract),
    (vec_laid _ _ _ _ _ lays_v1_revision), (vec_laid _ _ _ _ _ lays_v1_storage_proof),
    (vec_laid _ _ _ _ _ lays_old_siafund_output), (vec_laid _ _ _ _ _ lays_v1_currency),
    (vec_laid _ _ _ _ _ lays_blob).
  rewrite !(lays_bytes _ _ (lays_u64 _)), app_nil_r. unfold many. now rewrite <- !app_assoc.
Qed.

Lemma cover_laid : forall A sz msg (e : A -> bytes) f (items : vec sz A) (idx : vec 8 usize),
  below (vlist items) (vlist idx) -> (forall a, e a = f a) ->
  cover msg e (vlist items) (vlist idx) = inl (covered f items idx).
Proof.
  intros A sz msg e f items idx H E. unfold covered, below in *. induction H as [|i l Hi H IH]; [reflexivity|].
  cbn [cover pick map concat]. fold (pick (vlist items) l).
  destruct (N.leb_spec (N.of_nat (length (vlist items))) (uval i)); [lia|].
  destruct (nth_error (vlist items) (N.to_nat (uval i))) as [a|] eqn:N.
  - now rewrite IH, E.
  - apply nth_error_None in N. lia.
Qed.

Lemma covered_bytes : forall t cs c, InRange t c -> exists h,
  partial_sig_hash t cs c = inl h /\ aval h = blake2b_256 (lay_covered t cs c).
Proof.
  intros t cs c (H1 & H2 & H3 & H4 & H5 & H6 & H7 & H8 & H9 & H10).
  unfold partial_sig_hash, partial_sig_preimage.
  rewrite (cover_laid _ _ _ _ _ _ _ H1 (fun x => f_equal2 (@app byte) (replay_bytes cs) (lays_bytes _ _ (lays_v1_siacoin_input x)))).
  rewrite (cover_laid _ _ _ _ _ _ _ H2 (fun x => lays_bytes _ _ (lays_old_siacoin_output x))).
  rewrite (cover_laid _ _ _ _ _ _ _ H3 (fun x => lays_bytes _ _ (lays_v1_file_contract x))).
  rewrite (cover_laid _ _ _ _ _ _ _ H4 (fun x => lays_bytes _ _ (lays_v1_revision x))).
  rewrite (cover_laid _ _ _ _ _ _ _ H5 (fun x => lays_bytes _ _ (lays_v1_storage_proof x))).
  rewrite (cover_laid _ _ _ _ _ _ _ H6 (fun x => f_equal2 (@app byte) (replay_bytes cs) (lays_bytes _ _ (lays_v1_siafund_input x)))).
  rewrite (cover_laid _ _ _ _ _ _ _ H7 (fun x => lays_bytes _ _ (lays_old_siafund_output x))).
  rewrite (cover_laid _ _ _ _ _ _ _ H8 (fun x => lays_bytes _ _ (lays_v1_currency x))).
  rewrite (cover_laid _ _ _ _ _ _ _ H9 (fun x => lays_bytes _ _ (lays_blob x))).
  rewrite (cover_laid _ _ _ _ _ _ _ H10 (fun x => lays_bytes _ _ (lays_transaction_signature x))).
  cbn [cat_result]. eexists. split; [reflexivity|]. apply hash_bytes.
  unfold lay_covered. cbn [concat]. now rewrite app_nil_r.
Qed.

(** ** Addresses *)

Lemma node_bytes : forall a b, aval (sum_node a b) = node_digest (aval a) (aval b).
Proof. intros a b. now apply hash_bytes. Qed.

Lemma unlock_tree : forall X k l a, CodeTree X k l a -> UnlockTree k (map aval l) (aval a).
Proof.
  induction 1 as [h|k l r h a HT IH HL HX]; [constructor|].
  rewrite node_bytes, !map_app. cbn [map]. constructor; [exact IH|].
  rewrite app_length in HL. cbn [length] in HL. rewrite map_length. lia.
Qed.

Lemma unlock_root : forall X l a, CodeRoot X l a -> UnlockRoot (map aval l) (aval a).
Proof.
  induction 1 as [k l a HT|k l r a b HT HR IH HL HX].
  - econstructor. eapply unlock_tree, HT.
  - rewrite node_bytes, map_app. eapply UR_split; [eapply unlock_tree, HT|exact IH|now rewrite map_length].
Qed.

Lemma leaf_bytes : forall b c, b = c -> aval (hash (x00 :: b)) = leaf_digest c.
Proof. intros b c <-. now apply hash_bytes. Qed.

Lemma address_leaves_ok : forall u, map aval (unlock_leaves u) = address_leaves u.
Proof.
  intros u. unfold unlock_leaves, address_leaves. cbn [map].
  f_equal; [apply leaf_bytes, word_bytes|]. rewrite map_app, map_map. f_equal.
  - apply map_ext. intros k. apply leaf_bytes, lays_bytes, lays_unlock_key.
  - cbn [map]. f_equal. apply leaf_bytes, word_bytes.
Qed.

Lemma conditions_address : forall p u a, unlock_conditions_address p u = Val a ->
  UnlockRoot (address_leaves u) (aval a).
Proof.
  intros p u a H. destruct (unlock_conditions_root p u) as (a' & E & R). rewrite E in H. injection H as ->.
  rewrite <- address_leaves_ok. eapply unlock_root, R.
Qed.

Lemma address_preimage : forall q, aval (hash (policy_address_preimage q)) =
  blake2b_256 (text "sia/address|" ++ lay_policy q).
Proof. intros q. apply hash_bytes. unfold policy_address_preimage. now rewrite (lays_bytes _ _ (lays_policy q)). Qed.

Lemma sequence_forall2 : forall A (l : list (outcome A)) r, sequence_outcome l = Val r ->
  Forall2 (fun o a => o = Val a) l r.
Proof.
  induction l as [|o l IH]; intros r H; cbn [sequence_outcome] in H.
  - injection H as <-. constructor.
  - destruct o as [a|]; [|discriminate H]. cbn [obind] in H.
    destruct (sequence_outcome l) as [t|]; [|discriminate H]. injection H as <-. constructor; [reflexivity|now apply IH].
Qed.

Lemma policy_address_laid : forall p q a, policy_address p q = Val a -> Address q (aval a).
Proof.
  intros p q. induction q using policy_ind'; intros v H'; cbn [policy_address] in H';
    try (injection H' as <-; rewrite address_preimage; constructor).
  - destruct (sequence_outcome (map (policy_address p) of)) as [addrs|] eqn:E; [|discriminate H'].
    cbn [obind] in H'. injection H' as <-. rewrite address_preimage. constructor.
    apply sequence_forall2 in E. clear n. revert addrs E. induction H as [|q l Hq Hl IH]; intros addrs E;
      inversion E; subst; constructor; auto.
  - injection H' as <-. constructor.
  - constructor. eapply conditions_address, H'.
Qed.

Lemma val_inj : forall A (a b : A), Val a = Val b -> a = b.
Proof. now intros A a b [= ->]. Qed.
Lemma some_inj : forall A (a b : A), Some a = Some b -> a = b.
Proof. now intros A a b [= ->]. Qed.

Lemma key_address_laid : forall p u a b, unlock_conditions_address p u = Val a ->
  key_address u = Some b -> aval a = b.
Proof.
  intros p u a b H K. unfold key_address in K. cbv zeta in K.
  destruct (unlock_conditions_root p u) as (a' & E & R). rewrite E in H. apply val_inj in H. subst a'.
  clear E.
  assert (R' : CodeRoot (fun _ => True) (unlock_leaves u) a).
  { revert R. apply CodeRoot_weaken. intros; exact I. }
  clear R. unfold unlock_leaves in R'.
  pose proof (leaf_bytes _ _ (word_bytes (uc_timelock u))) as E1.
  pose proof (leaf_bytes _ _ (word_bytes (uc_signatures_required u))) as E2.
  revert R' E1 E2.
  generalize (hash (x00 :: le_bytes 8 (uval (uc_timelock u)))).
  generalize (hash (x00 :: le_bytes 8 (uval (uc_signatures_required u)))). intros y z R E1 E2.
  destruct (vlist (uc_public_keys u)) as [|k [|]]; [| |discriminate K]; cbn [map app] in R;
    apply some_inj in K; rewrite <- K.
  - rewrite <- E1, <- E2, <- node_bytes. f_equal.
    refine (CodeRoot_fun _ _ _ R (fun _ => True) _ _). apply (CR_tree _ 1). apply (CT_node _ 0 [z] [] y); [constructor|reflexivity|exact I].
  - pose proof (leaf_bytes _ _ (lays_bytes _ _ (lays_unlock_key k))) as E3. revert R E3.
    generalize (hash (x00 :: wbytes (encode_unlock_key k))). intros x R E3.
    rewrite <- E1, <- E2, <- E3, <- !node_bytes. f_equal.
    refine (CodeRoot_fun _ _ _ R (fun _ => True) _ _). apply (CR_split _ 1 [z; x] [y]); [| |cbn; lia|exact I].
    + apply (CT_node _ 0 [z] [] x); [constructor|reflexivity|exact I].
    + apply (CR_tree _ 0). constructor.
Qed.

(** ** Decoders *)

Lemma v2_covered : forall stack A P e d, SpecCodecs.V2Codec stack A P e d -> exists f, V2Layout A e f.
Proof.
  intros stack A P e d H. induction H; try (eexists; constructor; fail).
  - destruct IHV2Codec as [f Hf]. eexists. exact (L2_vec _ _ _ _ Hf).
  - destruct IHV2Codec as [f Hf]. eexists. exact (L2_option _ _ _ Hf).
Qed.

Lemma v1_covered : forall A P e d, SpecCodecs.V1Codec A P e d -> exists f, V1Layout A e f.
Proof.
  intros A P e d H. induction H; try (eexists; constructor; fail).
  - destruct IHV1Codec as [f Hf]. eexists. exact (L1_vec _ _ _ _ Hf).
  - destruct IHV1Codec as [f Hf]. eexists. exact (L1_option _ _ _ Hf).
Qed.

Lemma layout_read : forall stack A P e d f,
  (SpecCodecs.V2Wire stack A P e d /\ V2Layout A e f) \/ (SpecCodecs.V1Codec A P e d /\ V1Layout A e f) ->
  forall (a : A) rest, P a -> run d (f a ++ rest) = ROk a rest.
Proof.
  intros stack A P e d f [[C L]|[C L]] a rest H.
  - rewrite <- (lays_bytes _ _ (v2_lays _ _ _ L a)). exact (TableProofs.v2_wire_roundtrip _ _ _ _ _ C a rest H).
  - rewrite <- (lays_bytes _ _ (v1_lays _ _ _ L a)). exact (WireProofs.v1_wire_roundtrip _ _ _ _ C a rest H).
Qed.

Lemma layout_accepted : forall stack A e d f, SpecCodecs.StrictCodec stack A e d ->
  V2Layout A e f \/ V1Layout A e f ->
  forall bs (a : A) rest, run d bs = ROk a rest -> bs = f a ++ rest.
Proof.
  intros stack A e d f S L bs a rest H.
  assert (E : wbytes (e a) = f a) by (destruct L as [L|L]; apply lays_bytes; [now apply v2_lays|now apply v1_lays]).
  rewrite <- E. exact (WireProofs.strict_canonical stack A e d S bs a rest H).
Qed.
