(** The encoders produce the layouts of SpecLayout.v. *)

From Verif Require Import Base Io IoProofs Blake2b Spec Codec Model_encoding Model_common Model_currency Model_v1
  Model_policy Model_v2 Model_consensus Model_merkle Model_ids SpecConsensus SpecIds SpecLayout
  EncodingProofs CommonProofs BasicProofs ConsensusProofs ConsensusFnProofs IdsProofs.
Local Open Scope N_scope.

(** ** Numbers *)

Lemma le_bytes_num : forall k n, le_bytes k n = num k n.
Proof.
  induction k as [|k IH]; intros n; [reflexivity|].
  cbn [le_bytes]. rewrite IH. unfold num. change (seq 0 (S k)) with (0%nat :: seq 1 k). cbn [map].
  f_equal.
  - change (256 ^ N.of_nat 0) with 1. now rewrite N.div_1_r.
  - rewrite <- seq_shift, map_map. apply map_ext. intros i. f_equal.
    rewrite N.div_div by (try apply N.pow_nonzero; discriminate). f_equal.
    now rewrite Nat2N.inj_succ, N.pow_succ_r'.
Qed.

Lemma rev_seq : forall k, rev (seq 0 k) = map (fun i => (k - 1 - i)%nat) (seq 0 k).
Proof.
  induction k as [|k IH]; [reflexivity|].
  rewrite seq_S at 1. rewrite rev_app_distr. cbn [rev app Nat.add]. rewrite IH.
  change (seq 0 (S k)) with (0%nat :: seq 1 k). cbn [map]. f_equal; [lia|].
  rewrite <- seq_shift, map_map. apply map_ext_in. intros i Hi. apply in_seq in Hi. lia.
Qed.

Lemma be_bytes_big : forall k n, be_bytes k n = big k n.
Proof.
  intros k n. unfold be_bytes. rewrite le_bytes_num. unfold num, big.
  rewrite <- map_rev, rev_seq, map_map. reflexivity.
Qed.

Lemma significant_spec : forall l, hd x01 l <> x00 -> significant (from_be l) = length l.
Proof.
  intros l H. unfold significant.
  destruct l as [|b l]; [reflexivity|]. cbn [hd] in H.
  pose proof (from_be_lt l) as Hl.
  assert (E : from_be (b :: l) = b2n b * 256 ^ N.of_nat (length l) + from_be l).
  { unfold from_be. cbn [rev]. rewrite from_le_app, rev_length. cbn [from_le]. lia. }
  assert (Hb : 1 <= b2n b).
  { destruct (N.eq_dec (b2n b) 0) as [Z|Z]; [|lia]. exfalso. apply H.
    rewrite <- (n2b_b2n b), Z. reflexivity. }
  pose proof (b2n_lt b) as Hb2.
  set (k := N.of_nat (length l)) in *. set (v := from_be (b :: l)) in *.
  assert (P : 256 ^ k = 2 ^ (8 * k)) by (rewrite N.pow_mul_r; reflexivity).
  assert (L1 : 2 ^ (8 * k) <= v) by nia.
  assert (L2 : v < 2 ^ (8 * k + 8)).
  { rewrite N.pow_add_r. change (2 ^ 8) with 256. nia. }
  assert (Hv : v <> 0) by (pose proof (N.pow_nonzero 2 (8 * k)); lia).
  rewrite N.size_log2 by exact Hv.
  assert (8 * k <= N.log2 v) by (apply N.log2_le_pow2; lia).
  assert (N.log2 v < 8 * k + 8) by (apply N.log2_lt_pow2; lia).
  cbn [length].
  replace ((N.succ (N.log2 v) + 7) / 8) with (k + 1).
  - unfold k. lia.
  - apply (N.div_unique _ _ _ (N.log2 v - 8 * k)); lia.
Qed.

(** ** Programs that write given bytes *)

Definition Lays (p : wprog) (b : bytes) : Prop := propagates p /\ wbytes p = b.

Lemma lays_app : forall p q a b, Lays p a -> Lays q b -> Lays (p ++ q) (a ++ b).
Proof.
  intros p q a b [Hp <-] [Hq <-]. split; [apply Forall_app; now split|].
  apply wbytes_app_p; exact Hp.
Qed.

Lemma lays_cons : forall p q a l, Lays p a -> Lays q (concat l) -> Lays (p ++ q) (concat (a :: l)).
Proof. intros p q a l Hp Hq. cbn [concat]. now apply lays_app. Qed.

Lemma lays_last : forall p a, Lays p a -> Lays p (concat [a]).
Proof. intros p a H. cbn [concat]. now rewrite app_nil_r. Qed.

Lemma lays_nil : Lays [] [].
Proof. split; [constructor|reflexivity]. Qed.

Lemma lays_write : forall b, Lays (write_all b) b.
Proof. intros b. split; [repeat constructor; eauto|apply wbytes_write_all]. Qed.

Lemma lays_eq : forall p a b, Lays p a -> a = b -> Lays p b.
Proof. now intros p a b H <-. Qed.

Lemma lays_concat : forall A (e : A -> wprog) f l, (forall a, Lays (e a) (f a)) ->
  Lays (concat (map e l)) (concat (map f l)).
Proof.
  intros A e f l H. induction l as [|a l IH]; [apply lays_nil|]. cbn [map concat]. now apply lays_app.
Qed.

Lemma lays_u8 : forall b, Lays (encode_u8 b) (one b).
Proof. intros b. apply lays_write. Qed.

Lemma lays_bool : forall b : bool, Lays (encode_bool b) [if b then x01 else x00].
Proof. intros b. apply lays_write. Qed.

Lemma lays_uint : forall w (v : uint w), w <= 64 -> Lays (encode_uint v) (word v).
Proof.
  intros w v H. eapply lays_eq; [apply lays_write|]. rewrite le_bytes_num. unfold word. f_equal.
  change (uval v mod 2 ^ 64 = uval v). apply N.mod_small.
  eapply N.lt_le_trans; [apply uint_lt|]. now apply N.pow_le_mono_r.
Qed.

Lemma lays_u64 : forall v, Lays (encode_u64 v) (word v).
Proof. intros v. now apply lays_uint. Qed.
Lemma lays_usize : forall v, Lays (encode_usize v) (word v).
Proof. intros v. now apply lays_uint. Qed.

Lemma lays_sint : forall w (v : sint w), Lays (encode_sint v) (signed_num (sval v)).
Proof.
  intros w v. eapply lays_eq; [apply lays_write|]. rewrite le_bytes_num. unfold signed_num. f_equal.
  unfold s_as_u64. change (uval (uwrap 64 (Z.to_N (sval v mod 2 ^ 64)))) with (Z.to_N (sval v mod 2 ^ 64) mod 2 ^ 64).
  apply N.mod_small. pose proof (Z.mod_pos_bound (sval v) (2 ^ 64) eq_refl).
  change (2 ^ 64) with (Z.to_N (2 ^ 64)). lia.
Qed.

Lemma lays_slice : forall A (e : A -> wprog) f l, N.of_nat (length l) < 2 ^ 64 ->
  (forall a, Lays (e a) (f a)) -> Lays (encode_slice e l) (many f l).
Proof.
  intros A e f l L H. unfold encode_slice, many. apply lays_app; [|now apply lays_concat].
  eapply lays_eq; [apply lays_usize|]. unfold word. f_equal.
  change (N.of_nat (length l) mod 2 ^ 64 = N.of_nat (length l)). now apply N.mod_small.
Qed.

Lemma lays_vec : forall sz A (e : A -> wprog) f (v : vec sz A), (forall a, Lays (e a) (f a)) ->
  Lays (encode_vec e v) (many f (vlist v)).
Proof. intros sz A e f v H. apply lays_slice; [apply vec_len_lt|exact H]. Qed.

Lemma lays_each : forall sz A (e : A -> wprog) f (v : vec sz A), (forall a, Lays (e a) (f a)) ->
  Lays (encode_each e v) (many f (vlist v)).
Proof. intros sz A e f v H. apply (lays_slice A e f (vlist v)); [apply vec_len_lt|exact H]. Qed.

Lemma lays_option : forall A (e : A -> wprog) f (o : option A), (forall a, Lays (e a) (f a)) ->
  Lays (encode_option e o) (maybe f o).
Proof.
  intros A e f [a|] H; [|apply (lays_bool false)].
  apply (lays_app _ _ [x01]); [apply (lays_bool true)|apply H].
Qed.

Lemma lays_arr : forall n (a : arr n), Lays (encode_arr a) (aval a).
Proof. intros n a. apply lays_write. Qed.
Lemma lays_hash : forall a, Lays (encode_hash a) (aval a).
Proof. intros a. apply lays_write. Qed.
Lemma lays_signature : forall a, Lays (encode_signature a) (aval a).
Proof. intros a. apply lays_write. Qed.
Lemma lays_leaf : forall a, Lays (encode_leaf a) (aval a).
Proof. intros a. apply lays_write. Qed.
Lemma lays_specifier : forall a, Lays (encode_specifier a) (aval a).
Proof. intros a. apply lays_write. Qed.

Lemma lays_blob : forall v : vec 1 u8, Lays (encode_vec encode_u8 v) (blob v).
Proof. intros v. apply lays_vec, lays_u8. Qed.

Lemma lays_string : forall s, Lays (encode_string s) (blob (sbytes s)).
Proof. intros s. apply lays_slice; [apply vec_len_lt|apply lays_u8]. Qed.

Lemma lays_currency : forall c, Lays (encode_currency c) (amount c).
Proof. intros c. eapply lays_eq; [apply lays_write|]. apply le_bytes_num. Qed.

Lemma lays_v1_currency : forall c, Lays (encode_v1_currency c) (old_amount (uval c)).
Proof.
  intros c. unfold encode_v1_currency. cbv zeta.
  set (l := be_bytes 16 (uval c)). set (d := skipn (first_nonzero l) l).
  assert (Ll : length l = 16%nat) by apply be_bytes_length.
  assert (Ld : (length d <= 16)%nat) by (unfold d; rewrite skipn_length; lia).
  assert (V : from_be d = uval c).
  { transitivity (from_be l).
    - assert (El : l = repeat x00 (first_nonzero l) ++ d).
      { rewrite <- first_nonzero_zeros. symmetry. apply firstn_skipn. }
      revert El. generalize (first_nonzero l). intros k El. clearbody d. rewrite El. unfold from_be. rewrite rev_app_distr, from_le_app.
      assert (Z : from_le (rev (repeat x00 k)) = 0).
      { clear. induction k as [|k IH]; [reflexivity|]. cbn [repeat rev].
        rewrite from_le_app, IH. change (from_le [x00]) with 0. lia. }
      rewrite Z. lia.
    - unfold l. rewrite from_be_be_bytes. apply N.mod_small. apply (uint_lt 128 c). }
  assert (S : significant (uval c) = length d).
  { rewrite <- V. apply significant_spec, first_nonzero_hd. }
  eapply lays_eq; [apply (lays_slice _ _ one)|].
  - apply N.le_lt_trans with 16; [lia|reflexivity].
  - apply lays_u8.
  - unfold many, old_amount. rewrite S. f_equal.
    rewrite <- be_bytes_big, <- V, be_bytes_from_be.
    clear. induction d as [|b d IH]; [reflexivity|]. cbn [map concat one app]. now rewrite IH.
Qed.

Lemma lays_work : forall w, Lays (encode_work w) (lay_work w).
Proof.
  intros w. eapply lays_eq; [apply lays_arr|]. rewrite arr_of_aval by apply be_bytes_length.
  apply be_bytes_big.
Qed.

Lemma lays_odt : forall t, Lays (encode_odt t) (timestamp t).
Proof. intros t. apply lays_sint. Qed.

Lemma lays_duration : forall d, Lays (encode_duration d) (nanos d).
Proof.
  intros d. eapply lays_eq; [apply lays_u64|]. unfold word, nanos. f_equal.
  unfold whole_nanoseconds_u64. change (Z.to_N (dur_ns d mod 2 ^ 64) mod 2 ^ 64 = Z.to_N (dur_ns d mod 2 ^ 64)).
  apply N.mod_small. pose proof (Z.mod_pos_bound (dur_ns d) (2 ^ 64) eq_refl).
  change (2 ^ 64) with (Z.to_N (2 ^ 64)). lia.
Qed.

Create HintDb lay discriminated.
#[local] Hint Constants Opaque : lay.
#[local] Hint Resolve lays_u8 lays_bool lays_u64 lays_usize lays_hash lays_signature lays_leaf
  lays_specifier lays_blob lays_string lays_currency lays_v1_currency lays_work lays_odt
  lays_duration lays_arr lays_vec lays_option lays_each : lay.

Ltac lays := intros; repeat (eapply lays_cons; [solve [eauto with lay nocore]|]);
  first [apply lays_last; solve [eauto with lay nocore] | idtac].

Lemma lays_chain_index : forall c, Lays (encode_chain_index c) (lay_chain_index c).
Proof. lays. Qed.
#[local] Hint Resolve lays_chain_index : lay.
Lemma lays_siacoin_output : forall o, Lays (encode_siacoin_output o) (lay_siacoin_output o).
Proof. lays. Qed.
Lemma lays_siafund_output : forall o, Lays (encode_siafund_output o) (lay_siafund_output o).
Proof. lays. Qed.
Lemma lays_old_siacoin_output : forall o, Lays (encode_v1_siacoin_output o) (lay_old_siacoin_output o).
Proof. lays. Qed.
Lemma lays_old_siafund_output : forall o, Lays (encode_v1_siafund_output o) (lay_old_siafund_output o).
Proof.
  intros o. eapply lays_cons; [|eapply lays_cons; [apply lays_hash|apply lays_last]].
  - eapply lays_eq; [apply lays_v1_currency|]. f_equal. apply N.mod_small.
    eapply N.lt_le_trans; [apply uint_lt|]. apply N.pow_le_mono_r; discriminate.
  - apply (lays_v1_currency (uwrap 128 0)).
Qed.
Lemma lays_state_element : forall e, Lays (encode_state_element e) (lay_state_element e).
Proof. lays. Qed.
Lemma lays_unlock_key : forall k, Lays (encode_unlock_key k) (lay_unlock_key k).
Proof. lays. Qed.
#[local] Hint Resolve lays_siacoin_output lays_siafund_output lays_old_siacoin_output
  lays_old_siafund_output lays_state_element lays_unlock_key : lay.
Lemma lays_unlock_conditions : forall u, Lays (encode_unlock_conditions u) (lay_unlock_conditions u).
Proof. lays. Qed.
#[local] Hint Resolve lays_unlock_conditions : lay.
Lemma lays_v1_siacoin_input : forall i, Lays (encode_v1_siacoin_input i) (lay_v1_siacoin_input i).
Proof. lays. Qed.
Lemma lays_v1_siafund_input : forall i, Lays (encode_v1_siafund_input i) (lay_v1_siafund_input i).
Proof. lays. Qed.
Lemma lays_v1_file_contract : forall c, Lays (encode_v1_file_contract c) (lay_v1_file_contract c).
Proof. lays. Qed.
Lemma lays_v1_revision : forall c, Lays (encode_v1_file_contract_revision c) (lay_v1_file_contract_revision c).
Proof. lays. Qed.
Lemma lays_v1_storage_proof : forall p, Lays (encode_v1_storage_proof p) (lay_v1_storage_proof p).
Proof. lays. Qed.
Lemma lays_indices : forall v : vec 8 usize, Lays (encode_vec encode_usize v) (lay_indices v).
Proof. intros v. apply lays_vec, lays_usize. Qed.
#[local] Hint Resolve lays_v1_siacoin_input lays_v1_siafund_input lays_v1_file_contract
  lays_v1_revision lays_v1_storage_proof lays_indices : lay.
Lemma lays_covered_fields : forall c, Lays (encode_covered_fields c) (lay_covered_fields c).
Proof. lays. Qed.
#[local] Hint Resolve lays_covered_fields : lay.
Lemma lays_transaction_signature : forall s, Lays (encode_transaction_signature s) (lay_transaction_signature s).
Proof. lays. Qed.
#[local] Hint Resolve lays_transaction_signature : lay.
Lemma lays_no_sigs : forall t, Lays (encode_no_sigs t) (lay_v1_unsigned t).
Proof. lays. Qed.
Lemma lays_v1_transaction : forall t, Lays (encode_v1_transaction t) (lay_v1_transaction t).
Proof.
  intros t. unfold lay_v1_transaction.
  replace (encode_v1_transaction t)
    with (encode_no_sigs t ++ encode_vec encode_transaction_signature (v1t_signatures t)).
  - apply lays_app; [apply lays_no_sigs|]. apply lays_vec, lays_transaction_signature.
  - unfold encode_no_sigs, encode_v1_transaction. now rewrite <- !app_assoc.
Qed.
#[local] Hint Resolve lays_v1_transaction : lay.
Lemma lays_block : forall b, Lays (encode_block b) (lay_block b).
Proof. lays. Qed.

Lemma lays_policy_op : forall p, Lays (encode_policy_body p) (lay_policy_op p).
Proof.
  induction p using policy_ind'; cbn [encode_policy_body lay_policy_op type_prefix];
    match goal with |- Lays (write_all [?x] ++ _) (?x :: ?r) => change (x :: r) with ([x] ++ r) end;
    (apply lays_app; [apply lays_write|]); eauto with lay nocore.
  - eapply lays_eq; [apply lays_u64|]. unfold word, timestamp, signed_num. f_equal.
    unfold s_as_u64, unix_timestamp. cbn [sval].
    change (Z.to_N (odt_secs t mod 2 ^ 64) mod 2 ^ 64 = Z.to_N (odt_secs t mod 2 ^ 64)).
    apply N.mod_small. pose proof (Z.mod_pos_bound (odt_secs t) (2 ^ 64) eq_refl).
    change (2 ^ 64) with (Z.to_N (2 ^ 64)). lia.
  - change (n :: n2b (N.of_nat (length of)) :: concat (map lay_policy_op of))
      with ([n] ++ [n2b (N.of_nat (length of))] ++ concat (map lay_policy_op of)).
    apply lays_app; [apply lays_u8|]. apply lays_app.
    + eapply lays_eq; [apply lays_u8|]. unfold one. f_equal. apply b2n_inj. rewrite !b2n_n2b. now rewrite ?N.mod_mod by discriminate.
    + induction H as [|q l Hq Hl IH]; [apply lays_nil|]. cbn [map concat]. now apply lays_app.
Qed.
Lemma lays_policy : forall p, Lays (encode_policy p) (lay_policy p).
Proof.
  intros p. change (lay_policy p) with ([x01] ++ lay_policy_op p).
  apply lays_app; [apply lays_u8|apply lays_policy_op].
Qed.
#[local] Hint Resolve lays_policy : lay.
Lemma lays_satisfied_policy : forall s, Lays (encode_satisfied_policy s) (lay_satisfied_policy s).
Proof. lays. Qed.
#[local] Hint Resolve lays_satisfied_policy : lay.

Lemma lays_attestation : forall a, Lays (encode_attestation a) (lay_attestation a).
Proof. lays. Qed.
Lemma lays_contract : forall c, Lays (encode_v2_file_contract c) (lay_contract c).
Proof. lays. Qed.
#[local] Hint Resolve lays_attestation lays_contract : lay.
Lemma lays_siacoin_element : forall e, Lays (encode_siacoin_element e) (lay_siacoin_element e).
Proof. lays. Qed.
Lemma lays_siafund_element : forall e, Lays (encode_siafund_element e) (lay_siafund_element e).
Proof. lays. Qed.
Lemma lays_file_contract_element : forall e, Lays (encode_file_contract_element e) (lay_file_contract_element e).
Proof. lays. Qed.
Lemma lays_chain_index_element : forall e, Lays (encode_chain_index_element e) (lay_chain_index_element e).
Proof. lays. Qed.
#[local] Hint Resolve lays_siacoin_element lays_siafund_element lays_file_contract_element
  lays_chain_index_element : lay.
Lemma lays_v2_siacoin_input : forall i, Lays (encode_v2_siacoin_input i) (lay_v2_siacoin_input i).
Proof. lays. Qed.
Lemma lays_v2_siafund_input : forall i, Lays (encode_v2_siafund_input i) (lay_v2_siafund_input i).
Proof. lays. Qed.
Lemma lays_v2_revision : forall r, Lays (encode_v2_file_contract_revision r) (lay_v2_file_contract_revision r).
Proof. lays. Qed.
Lemma lays_renewal : forall r, Lays (encode_file_contract_renewal r) (lay_renewal r).
Proof. lays. Qed.
Lemma lays_v2_storage_proof : forall p, Lays (encode_v2_storage_proof p) (lay_v2_storage_proof p).
Proof. lays. Qed.
#[local] Hint Resolve lays_v2_siacoin_input lays_v2_siafund_input lays_v2_revision lays_renewal
  lays_v2_storage_proof : lay.
Lemma lays_resolution : forall r, Lays (encode_file_contract_resolution r) (lay_resolution r).
Proof.
  intros r. unfold encode_file_contract_resolution, lay_resolution.
  apply lays_app; [apply lays_file_contract_element|].
  destruct (fcres_resolution r) as [n|q|]; [| |apply lays_u8];
    match goal with |- Lays _ (?x :: ?y) => change (x :: y) with ([x] ++ y) end;
    (apply lays_app; [apply lays_u8|]); eauto with lay nocore.
Qed.
#[local] Hint Resolve lays_resolution : lay.
