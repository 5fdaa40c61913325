(** What a valid signature is a signature for. *)

From Coq Require Import Lia.
From Verif Require Import Base Io IoProofs Codec CodecTac Model_encoding EncodingProofs CommonProofs V1Proofs V2Proofs SigExact SpecConsensus Model_common Blake2b Model_v1 Model_v2 Model_consensus
  Model_text Model_ids Model_signing Model_seed SpecUtf8 SpecMerkle SpecIds SpecSign SpecSeed IdsProofs SigHashProofs SigMore
  SigningProofs SeedProofs SpecPurpose Samples.
Local Open Scope N_scope.

Lemma message_hash_bytes : forall m cs, message_hash m cs = hash (message_bytes m cs).
Proof. intros [t p i l|s] cs; [reflexivity|]. cbn [message_hash message_bytes]. apply signed_hash_bytes. Qed.

Lemma signed_same_prefix : forall s cs cs', replay_prefix cs = replay_prefix cs' ->
  signed_bytes s cs = signed_bytes s cs'.
Proof.
  intros [a|c|r|t] cs cs' E; cbn [signed_bytes];
    unfold att_sig_preimage, fc_sig_preimage, ren_sig_preimage, input_sig_preimage; now rewrite E.
Qed.

Lemma signed_binds : forall s s' cs cs', length (replay_prefix cs) = length (replay_prefix cs') ->
  signed_hash s cs = signed_hash s' cs' ->
  (SameSigned s s' /\ replay_prefix cs = replay_prefix cs') \/ Collision [signed_bytes s cs] [signed_bytes s' cs'].
Proof.
  intros s s' cs cs' Hl E.
  destruct (list_eq_dec Byte.byte_eq_dec (replay_prefix cs) (replay_prefix cs')) as [Ep|Ep].
  2:{ right. apply signed_replay; auto. }
  pose proof (signed_same_prefix s' cs cs' Ep) as Eb.
  assert (E' : signed_hash s cs = signed_hash s' cs) by (rewrite E, !signed_hash_bytes, Eb; reflexivity).
  rewrite <- Eb. clear E Eb.
  destruct s as [a|c|r|t], s' as [b|d|q|u];
    match goal with
    | |- (SameSigned (?K _) (?K _) /\ _) \/ _ => idtac
    | _ => right; refine (signed_kinds _ _ _ _ _ E'); intros K; discriminate K
    end.
  - destruct (proj2 (att_sig_exact a b cs) E') as [E|E]; [left; exact (conj E Ep)|right; exact E].
  - destruct (proj2 (fc_sig_exact c d cs) E') as [E|E]; [left; exact (conj E Ep)|right; exact E].
  - destruct (proj2 (ren_sig_exact r q cs) E') as [E|E]; [left; exact (conj E Ep)|right; exact E].
  - destruct (input_sig_always t u cs cs eq_refl E') as [[E _]|E]; [left; exact (conj E Ep)|right; exact E].
Qed.

(** The number of inputs of a v1 transaction, the first eight bytes hashed, is below that which the
    text at the start of what is hashed in v2 stands for. *)
Lemma few_inputs : forall t : v1_transaction,
  N.of_nat (length (vlist (v1t_siacoin_inputs t))) < 128102389400760776.
Proof.
  intros t. destruct (v1t_siacoin_inputs t) as [l H]. cbn [vlist]. apply andb_prop in H as [H _]. apply N.leb_le in H.
  unfold isize_max in H. change (9223372036854775807) with (72 * 128102389400760775 + 7) in H. lia.
Qed.

Lemma signed_starts : forall s cs, exists r, signed_bytes s cs = ascii "sia/sig/" ++ r.
Proof.
  intros [a|c|r|t] cs; cbn [signed_bytes];
    unfold att_sig_preimage, fc_sig_preimage, ren_sig_preimage, input_sig_preimage.
  - exists (ascii "attestation|" ++ replay_prefix cs ++ wbytes (att_encode_semantics a)). now rewrite app_assoc.
  - exists (ascii "filecontract|" ++ replay_prefix cs ++ wbytes (fc_encode_semantics c)). now rewrite app_assoc.
  - exists (ascii "filecontractrenewal|" ++ replay_prefix cs ++ wbytes (ren_encode_semantics r)). now rewrite app_assoc.
  - eexists (ascii "input|" ++ replay_prefix cs ++ _). rewrite app_assoc. reflexivity.
Qed.

Lemma versions_differ : forall t parent index lock s cs cs',
  whole_sig_preimage t cs parent index lock <> signed_bytes s cs'.
Proof.
  intros t parent index lock s cs cs' E. destruct (signed_starts s cs') as [r Er]. rewrite Er in E.
  unfold whole_sig_preimage in E. apply app_len_inj in E as [E _]; [|rewrite le_bytes_length; reflexivity].
  apply (f_equal from_le) in E. rewrite from_le_le_bytes in E.
  pose proof (few_inputs t) as Hf. rewrite N.mod_small in E by (change (256 ^ N.of_nat 8) with 18446744073709551616; lia).
  rewrite E in Hf. vm_compute in Hf. discriminate.
Qed.

Lemma whole_not_signed : forall t parent index lock s cs cs',
  whole_sig_hash t cs parent index lock = signed_hash s cs' ->
  Collision [whole_sig_preimage t cs parent index lock] [signed_bytes s cs'].
Proof.
  intros t parent index lock s cs cs' E. rewrite signed_hash_bytes in E.
  apply hash_or_collision in E as [E|E]; [|exact E]. exfalso. exact (versions_differ _ _ _ _ _ _ _ E).
Qed.

Lemma Collision_sym : forall x y, Collision [x] [y] -> Collision [y] [x].
Proof. intros x y (a & b & Ha & Hb & Hne & E). exists b, a. repeat split; auto. Qed.

Lemma message_binds : forall m m' cs cs', length (replay_prefix cs) = length (replay_prefix cs') ->
  message_hash m cs = message_hash m' cs' ->
  SameMessage m cs m' cs' \/ Collision [message_bytes m cs] [message_bytes m' cs'].
Proof.
  intros [t p i l|s] [u p' i' l'|s'] cs cs' Hl E; cbn [message_hash message_bytes SameMessage] in *.
  - now apply whole_sig_hash_binding.
  - right. now apply whole_not_signed.
  - right. apply Collision_sym, whole_not_signed. now symmetry.
  - now apply signed_binds.
Qed.

Lemma hash_eq_dec : forall h h' : hash256, {h = h'} + {h <> h'}.
Proof.
  intros h h'. destruct (list_eq_dec Byte.byte_eq_dec (aval h) (aval h')) as [E|E].
  - left. now apply arr_eq.
  - right. intros ->. now apply E.
Qed.

Lemma two_hashes : forall seed sig h h',
  let pk := sk_public_key (from_seed seed) in
  pk_verify pk h sig = Val true -> pk_verify pk h' sig = Val true ->
  h = h' \/ ChallengeCollision pk sig h h'.
Proof.
  intros seed sig h h' pk H H'. destruct (hash_eq_dec h h') as [E|E]; [now left|right].
  split; [exact E|]. exact (accepts_two_hashes seed h h' sig H H').
Qed.

Lemma one_message : forall seed sig m m' cs cs',
  let pk := sk_public_key (from_seed seed) in
  length (replay_prefix cs) = length (replay_prefix cs') ->
  pk_verify pk (message_hash m cs) sig = Val true -> pk_verify pk (message_hash m' cs') sig = Val true ->
  SameMessage m cs m' cs' \/ Collision [message_bytes m cs] [message_bytes m' cs'] \/
  ChallengeCollision pk sig (message_hash m cs) (message_hash m' cs').
Proof.
  intros seed sig m m' cs cs' pk Hl H H'. destruct (two_hashes seed sig _ _ H H') as [E|E]; [|now right; right].
  destruct (message_binds m m' cs cs' Hl E) as [S|C]; [now left|now right; left].
Qed.

Lemma one_version : forall seed sig t parent index lock s cs cs',
  let pk := sk_public_key (from_seed seed) in
  pk_verify pk (whole_sig_hash t cs parent index lock) sig = Val true ->
  pk_verify pk (signed_hash s cs') sig = Val true ->
  Collision [whole_sig_preimage t cs parent index lock] [signed_bytes s cs'] \/
  ChallengeCollision pk sig (whole_sig_hash t cs parent index lock) (signed_hash s cs').
Proof.
  intros seed sig t parent index lock s cs cs' pk H H'. destruct (two_hashes seed sig _ _ H H') as [E|E]; [|now right].
  left. now apply whole_not_signed.
Qed.

(** A v1 contract whose bytes are those of an attestation: the size of the file spells the start of the
    text, and the root and the window the rest of it, the replay prefix and the public key. *)
Definition posing_contract (b : byte) (pk : hash256) : v1_file_contract :=
  MkV1Fc (uwrap 64 (from_le (ascii "sia/sig/")))
    (arr_of 32 (ascii "attestation|" ++ b :: firstn 19 (aval pk)))
    (uwrap 64 (from_le (firstn 8 (skipn 19 (aval pk)))))
    (uwrap 64 (from_le (firstn 5 (skipn 27 (aval pk)) ++ [x13; x00; x00]))) (uwrap 128 0)
    (@MkVec 48 _ [MkSco (uwrap 128 0) (arr_of 32 (x08 :: repeat x00 31))] eq_refl) vec_nil
    (arr_of 32 (repeat x00 32)) (uwrap 64 0).
Definition posing_transaction (b : byte) (pk : hash256) : v1_transaction :=
  MkV1Txn vec_nil vec_nil (@MkVec 160 _ [posing_contract b pk] eq_refl) vec_nil vec_nil vec_nil vec_nil vec_nil vec_nil
    vec_nil.
Definition cover_contract : covered_fields :=
  MkCf false vec_nil vec_nil first_index vec_nil vec_nil vec_nil vec_nil vec_nil vec_nil vec_nil.
Definition posed_attestation (pk : hash256) : attestation :=
  MkAtt pk (MkStr (@MkVec 1 u8 [x00; x00; x00; x01; x00; x00; x00; x00; x00; x00; x00; x00; x00; x00; x00; x00; x00; x00; x00]
                     eq_refl) eq_refl)
    (@MkVec 1 u8 (repeat x00 8) eq_refl) (arr_of 64 (repeat x00 64)).

Lemma chosen_u64 : forall l, length l = 8%nat -> wbytes (encode_u64 (uwrap 64 (from_le l))) = l.
Proof.
  intros l Hl. unfold encode_u64. rewrite wbytes_uint by discriminate. cbn [uval uwrap].
  pose proof (from_le_lt l) as Hlt. rewrite Hl in Hlt.
  rewrite N.mod_small by (change (2 ^ 64) with (256 ^ N.of_nat 8); exact Hlt).
  change (N.to_nat (64 / 8)) with 8%nat. rewrite <- Hl. apply le_bytes_from_le.
Qed.

Lemma covered_contract : forall b pk cs,
  partial_sig_preimage (posing_transaction b pk) cs cover_contract = 
  inl ((wbytes (encode_v1_file_contract (posing_contract b pk)) ++ []) ++ []).
Proof. intros b pk cs. reflexivity. Qed.

Lemma skip_more : forall n m (l : bytes), skipn n (skipn m l) = skipn (n + m) l.
Proof.
  intros n m. rewrite Nat.add_comm. induction m as [|m IH]; intros l; [reflexivity|]. cbn [Nat.add].
  destruct l as [|a l]; [rewrite !skipn_nil; reflexivity|]. cbn [skipn]. apply IH.
Qed.

Lemma poses : forall b pk,
  wbytes (encode_v1_file_contract (posing_contract b pk)) =
  ascii "sia/sig/attestation|" ++ [b] ++ wbytes (att_encode_semantics (posed_attestation pk)).
Proof.
  intros b pk. unfold encode_v1_file_contract, att_encode_semantics.
  cbn [posing_contract posed_attestation v1fc_file_size v1fc_file_merkle_root v1fc_window_start v1fc_window_end
    v1fc_payout v1fc_valid_proof_outputs v1fc_missed_proof_outputs v1fc_unlock_hash v1fc_revision_number
    att_public_key att_key att_value att_signature].
  repeat rewrite wbytes_app_p by prop_tac.
  pose proof (arr_len _ pk) as Hl.
  assert (L1 : length (firstn 19 (aval pk)) = 19%nat) by (rewrite firstn_length; lia).
  assert (L2 : length (firstn 8 (skipn 19 (aval pk))) = 8%nat) by (rewrite firstn_length, skipn_length; lia).
  assert (L3 : length (firstn 5 (skipn 27 (aval pk))) = 5%nat) by (rewrite firstn_length, skipn_length; lia).
  rewrite !chosen_u64; [|rewrite app_length, L3; reflexivity|exact L2|reflexivity].
  unfold encode_hash, encode_arr at 1 3. rewrite !wbytes_write_all.
  rewrite arr_of_aval by (rewrite app_length; cbn [length]; rewrite L1; reflexivity).
  assert (Epk : aval pk = firstn 19 (aval pk) ++ firstn 8 (skipn 19 (aval pk)) ++ firstn 5 (skipn 27 (aval pk))).
  { rewrite <- (firstn_skipn 19 (aval pk)) at 1. f_equal.
    rewrite <- (firstn_skipn 8 (skipn 19 (aval pk))) at 1. f_equal. rewrite skip_more.
    change (8 + 19)%nat with 27%nat. symmetry. apply firstn_all2. rewrite skipn_length. lia. }
  rewrite Epk at 4. clear Epk Hl L1 L2 L3.
  generalize (firstn 19 (aval pk)) (firstn 8 (skipn 19 (aval pk))) (firstn 5 (skipn 27 (aval pk))). intros x y z.
  repeat rewrite <- app_assoc. cbn [app].
  vm_compute. reflexivity.
Qed.

Lemma partial_poses : forall pk cs,
  uval (hfa_height (net_hardfork_asic (cs_network cs))) <= height cs ->
  exists t c a, att_public_key a = pk /\
    partial_sig_preimage t cs c = inl (signed_bytes (SignedAttestation a) cs) /\
    partial_sig_hash t cs c = inl (signed_hash (SignedAttestation a) cs).
Proof.
  intros pk cs H. pose proof (prefix_length_after cs H) as Hl.
  destruct (replay_prefix cs) as [|b [|b' r]] eqn:Ep; try discriminate Hl.
  exists (posing_transaction b pk), cover_contract, (posed_attestation pk). split; [reflexivity|].
  assert (E : partial_sig_preimage (posing_transaction b pk) cs cover_contract =
              inl (signed_bytes (SignedAttestation (posed_attestation pk)) cs)).
  { rewrite covered_contract, !app_nil_r, poses. cbn [signed_bytes]. unfold att_sig_preimage. rewrite Ep. reflexivity. }
  split; [exact E|]. unfold partial_sig_hash. rewrite E, signed_hash_bytes. reflexivity.
Qed.

Lemma signs_both : forall seed cs,
  uval (hfa_height (net_hardfork_asic (cs_network cs))) <= height cs ->
  let pk := sk_public_key (from_seed seed) in
  exists t c h a, partial_sig_hash t cs c = inl h /\ att_public_key a = pk /\
    pk_verify pk h (sign_hash (from_seed seed) h) = Val true /\
    pk_verify pk (att_sig_hash a cs) (sign_hash (from_seed seed) h) = Val true.
Proof.
  intros seed cs H pk. destruct (partial_poses pk cs H) as (t & c & a & Ha & _ & E).
  exists t, c, (att_sig_hash a cs), a. split; [exact E|]. split; [exact Ha|]. split; apply sign_verify.
Qed.

(** ** From a phrase to a spend *)

Lemma restored_signs : forall nfkd, (forall t, ascii_only t -> nfkd t = t) -> forall s t i h,
  to_mnemonic s = Val t ->
  exists s', from_mnemonic nfkd t = inl s' /\
    pk_verify (sk_public_key (seed_private_key s i)) h (sign_hash (seed_private_key s' i) h) = Val true.
Proof.
  intros nfkd Hn s t i h Ht. destruct (restored_keys nfkd Hn s t Ht) as (s' & E & K).
  exists s'. split; [exact E|]. rewrite K. unfold seed_private_key. apply sign_verify.
Qed.

Lemma one_message_after : forall seed sig m m' cs cs',
  let pk := sk_public_key (from_seed seed) in
  uval (hfa_height (net_hardfork_asic (cs_network cs))) <= height cs ->
  uval (hfa_height (net_hardfork_asic (cs_network cs'))) <= height cs' ->
  pk_verify pk (message_hash m cs) sig = Val true -> pk_verify pk (message_hash m' cs') sig = Val true ->
  SameMessage m cs m' cs' \/ Collision [message_bytes m cs] [message_bytes m' cs'] \/
  ChallengeCollision pk sig (message_hash m cs) (message_hash m' cs').
Proof. intros seed sig m m' cs cs' pk H H'. apply one_message. now rewrite !prefix_length_after. Qed.

(** Fifteen times a fee of nothing is the empty transaction. *)
Definition zero_fee : v1_transaction :=
  MkV1Txn vec_nil vec_nil vec_nil vec_nil vec_nil vec_nil vec_nil (@MkVec 16 _ [uwrap 128 0] eq_refl) vec_nil vec_nil.
Definition cover_fee_often : covered_fields :=
  MkCf false vec_nil vec_nil vec_nil vec_nil vec_nil vec_nil vec_nil
    (@MkVec 8 usize (repeat (uwrap 64 0) 15) eq_refl) vec_nil vec_nil.

Lemma fee_bytes : forall cs,
  partial_sig_preimage zero_fee cs cover_fee_often =
  inl (whole_sig_preimage empty_v1 cs (arr_of 32 (repeat x00 32)) (uwrap 64 0) (uwrap 64 0)).
Proof. intros cs. vm_compute. reflexivity. Qed.

Lemma signs_whole : forall seed cs,
  let pk := sk_public_key (from_seed seed) in
  exists t c h u parent index lock, partial_sig_hash t cs c = inl h /\ ~ SameUnsigned t u /\
    pk_verify pk h (sign_hash (from_seed seed) h) = Val true /\
    pk_verify pk (whole_sig_hash u cs parent index lock) (sign_hash (from_seed seed) h) = Val true.
Proof.
  intros seed cs pk.
  exists zero_fee, cover_fee_often, (whole_sig_hash empty_v1 cs (arr_of 32 (repeat x00 32)) (uwrap 64 0) (uwrap 64 0)),
    empty_v1, (arr_of 32 (repeat x00 32)), (uwrap 64 0), (uwrap 64 0).
  split. { unfold partial_sig_hash. rewrite fee_bytes. reflexivity. }
  split. { intros [s H]. apply (f_equal (fun u => length (vlist (v1t_miner_fees u)))) in H. discriminate H. }
  split; apply sign_verify.
Qed.
