(** Lemmas for C67: how often decoders turn to their reader. *)

From Verif Require Import Base Io IoProofs Codec Model_encoding EncodingProofs Model_common Model_v1 Model_policy Model_v2
  Model_consensus SpecMemory SpecWork MemoryProofs.
Local Open Scope N_scope.

Lemma reads_bind : forall A B (m : dec A) (g : A -> dec B) bs,
  reads (dbind m g) bs = reads m bs + match run m bs with ROk a rest => reads (g a) rest | _ => 0 end.
Proof.
  induction m as [a|e|p|n e k IH|z k IH]; intros g bs; cbn [dbind reads run]; try lia.
  - destruct (splitn n bs) as [[x r]|]; [rewrite IH; lia|lia].
  - apply IH.
Qed.

Lemma reads_map_err : forall A e' (m : dec A) bs, reads (dmap_err e' m) bs = reads m bs.
Proof.
  induction m as [a|e|p|n e k IH|z k IH]; intros bs; cbn [dmap_err reads]; try reflexivity.
  - destruct (splitn n bs) as [[x r]|]; [now rewrite IH|reflexivity].
  - apply IH.
Qed.

(** On success a read is paid for by each byte used; otherwise one read may be unpaid.
    [c] reads are paid for in advance. *)
Definition Works {A} (c : N) (d : dec A) : Prop := forall bs,
  match run d bs with
  | ROk _ rest => reads d bs + size rest <= size bs + c
  | _ => reads d bs <= size bs + c + 1
  end.

Lemma works_ret : forall A (a : A) c, Works c (DRet a).
Proof. intros A a c bs. cbn [reads run]. lia. Qed.
Lemma works_err : forall A e c, Works c (@DErr A e).
Proof. intros A e c bs. cbn [reads run]. lia. Qed.
Lemma works_panic : forall A q c, Works c (@DPanic A q).
Proof. intros A e c bs. cbn [reads run]. lia. Qed.
Lemma works_opt : forall A e (o : option A) c, Works c (dret_opt e o).
Proof. intros A e [a|] c; [apply works_ret|apply works_err]. Qed.
Lemma works_more : forall A c c' (d : dec A), Works c d -> c <= c' -> Works c' d.
Proof. intros A c c' d H L bs. specialize (H bs). destruct (run d bs); lia. Qed.

Lemma works_read : forall A c c' n e (k : bytes -> dec A), (forall x, Works c' (k x)) -> c' + 1 <= c + N.of_nat n ->
  Works c (DRead n e k).
Proof.
  intros A c c' n e k H L bs. cbn [reads run]. destruct (splitn n bs) as [[x r]|] eqn:E.
  - apply splitn_some in E as [-> N']. specialize (H x r). unfold size in *. rewrite app_length, Nat2N.inj_add, N'.
    destruct (run (k x) r); lia.
  - lia.
Qed.

Lemma works_alloc : forall A c z (k : dec A), Works c k -> Works c (DAlloc z k).
Proof. intros A c z k H bs. exact (H bs). Qed.

Lemma works_bind : forall A B c (m : dec A) (g : A -> dec B), Works c m -> (forall a, Works 0 (g a)) -> Works c (dbind m g).
Proof.
  intros A B c m g Hm Hg bs. rewrite reads_bind, run_bind. specialize (Hm bs).
  destruct (run m bs) as [a r|e|p]; [|lia|lia]. specialize (Hg a r). destruct (run (g a) r); lia.
Qed.

Lemma works_map_err : forall A c e (m : dec A), Works c m -> Works c (dmap_err e m).
Proof.
  intros A c e m H bs. rewrite reads_map_err. specialize (H bs). destruct (run m bs) as [a r|e'|p] eqn:E.
  - now rewrite (run_map_err_ok _ e _ _ _ _ E).
  - assert (E' : run (dmap_err e m) bs = RErr e) by (apply run_map_err_err; now exists e'). now rewrite E'.
  - apply (run_map_err_panic _ e) in E. now rewrite E.
Qed.

Lemma works_loop_pos : forall S (step : S -> dec S) p s, (forall s, Works 0 (step s)) -> Works 0 (dloop_pos p step s).
Proof.
  intros S step p s H. revert s. induction p as [p IH|p IH|]; intros s; cbn [dloop_pos].
  - apply works_bind; [|exact IH]. apply works_bind; [apply H|exact IH].
  - apply works_bind; exact IH || apply IH.
  - apply H.
Qed.
Lemma works_loop : forall S (step : S -> dec S) n s, (forall s, Works 0 (step s)) -> Works 0 (dloop n step s).
Proof. intros S step [|p] s H; [apply works_ret|apply works_loop_pos, H]. Qed.

(** Chains of decoders. *)
Create HintDb works.
Ltac chain := lazymatch goal with
  | |- Works _ (DRet _) => apply works_ret
  | |- Works _ (DErr _) => apply works_err
  | |- Works _ (DPanic _) => apply works_panic
  | |- Works _ (dret_opt _ _) => apply works_opt
  | |- Works _ (DAlloc _ _) => apply works_alloc; chain
  | |- Works _ (dmap_err _ _) => apply works_map_err; chain
  | |- Works _ (dloop _ _ _) => apply works_loop; intros; chain
  | |- Works _ (dbind _ _) => apply works_bind; [chain|intros; chain]
  | |- Works _ (decode_when _ _ _ _) => unfold decode_when; chain
  | |- Works _ (match ?x with _ => _ end) => destruct x; chain
  | |- _ => first [solve [eauto 1 with works nocore] | idtac]
  end.

Lemma works_u8 : Works 0 decode_u8.
Proof. apply works_read with (c' := 0); [intros; chain|lia]. Qed.
Lemma works_uint : forall w, Works 0 (decode_uint w).
Proof. intros w. apply works_read with (c' := 7); [intros; chain|lia]. Qed.
Lemma works_u64 : Works 0 decode_u64.
Proof. apply works_uint. Qed.
Lemma works_usize : Works 7 decode_usize.
Proof. apply works_more with (c := 0); [apply works_uint|lia]. Qed.
Lemma works_i64 : Works 0 decode_i64.
Proof. apply works_read with (c' := 7); [intros; chain|lia]. Qed.
Lemma works_arr : forall n, (0 < n)%nat -> Works 0 (decode_arr n).
Proof. intros n L. apply works_read with (c' := 0); [intros; chain|lia]. Qed.
Lemma works_hash : Works 0 decode_hash.
Proof. apply works_arr. lia. Qed.
Lemma works_sig : Works 0 decode_signature.
Proof. apply works_arr. lia. Qed.
Lemma works_leaf : Works 0 decode_leaf.
Proof. apply works_arr. lia. Qed.
Lemma works_specifier : Works 0 decode_specifier.
Proof. apply works_arr. lia. Qed.
Lemma works_arr32 : Works 0 (decode_arr 32).
Proof. apply works_arr. lia. Qed.
#[local] Hint Resolve works_u8 works_u64 works_i64 works_hash works_sig works_leaf works_specifier works_arr32 : works.

Lemma works_vec : forall A sz (d : dec A), Works 0 d -> Works 0 (decode_vec sz d).
Proof.
  intros A sz d H. unfold decode_vec. apply works_bind; [apply works_uint|]. intros len.
  destruct (_ <? _); [chain|]. chain.
Qed.
#[local] Hint Extern 1 (Works 0 (decode_vec _ _)) => apply works_vec; chain : works.

Lemma works_bool : Works 0 decode_bool.
Proof. unfold decode_bool. chain. Qed.
Lemma works_odt : Works 0 decode_odt.
Proof. unfold decode_odt. chain. Qed.
Lemma works_duration : Works 0 decode_duration.
Proof. unfold decode_duration. chain. Qed.
Lemma works_currency : Works 0 decode_currency.
Proof. apply works_read with (c' := 0); [intros; chain|lia]. Qed.
Lemma works_v1_currency : Works 0 decode_v1_currency.
Proof.
  unfold decode_v1_currency, decode_usize, decode_uint. cbn [dbind]. apply works_read with (c' := 7); [|lia]. intros x.
  destruct (_ <? _); [chain|]. apply works_read with (c' := 0); [intros; chain|lia].
Qed.
Lemma works_work : Works 0 decode_work.
Proof. unfold decode_work. chain. Qed.
Lemma works_v1_work : Works 0 decode_v1_work.
Proof. unfold decode_v1_work. chain. Qed.
#[local] Hint Resolve works_bool works_odt works_duration works_currency works_v1_currency works_work works_v1_work : works.

Lemma works_string : Works 0 decode_string.
Proof. unfold decode_string. chain. Qed.
Lemma works_chain_index : Works 0 decode_chain_index.
Proof. unfold decode_chain_index. chain. Qed.
Lemma works_siacoin_output : Works 0 decode_siacoin_output.
Proof. unfold decode_siacoin_output. chain. Qed.
Lemma works_siafund_output : Works 0 decode_siafund_output.
Proof. unfold decode_siafund_output. chain. Qed.
Lemma works_v1_siacoin_output : Works 0 decode_v1_siacoin_output.
Proof. unfold decode_v1_siacoin_output. chain. Qed.
Lemma works_v1_siafund_output : Works 0 decode_v1_siafund_output.
Proof. unfold decode_v1_siafund_output. chain. Qed.
Lemma works_state_element : Works 0 decode_state_element.
Proof. unfold decode_state_element. chain. Qed.
Lemma works_unlock_key : Works 0 decode_unlock_key.
Proof. unfold decode_unlock_key. chain. Qed.
#[local] Hint Resolve works_string works_chain_index works_siacoin_output works_siafund_output works_v1_siacoin_output
  works_v1_siafund_output works_state_element works_unlock_key : works.

Lemma works_unlock_conditions : Works 0 decode_unlock_conditions.
Proof. unfold decode_unlock_conditions. chain. Qed.
#[local] Hint Resolve works_unlock_conditions : works.
Lemma works_v1_siacoin_input : Works 0 decode_v1_siacoin_input.
Proof. unfold decode_v1_siacoin_input. chain. Qed.
Lemma works_v1_siafund_input : Works 0 decode_v1_siafund_input.
Proof. unfold decode_v1_siafund_input. chain. Qed.
Lemma works_v1_file_contract : Works 0 decode_v1_file_contract.
Proof. unfold decode_v1_file_contract. chain. Qed.
Lemma works_v1_file_contract_revision : Works 0 decode_v1_file_contract_revision.
Proof. unfold decode_v1_file_contract_revision. chain. Qed.
Lemma works_v1_storage_proof : Works 0 decode_v1_storage_proof.
Proof. unfold decode_v1_storage_proof. chain. Qed.
Lemma works_covered_fields : Works 0 decode_covered_fields.
Proof. unfold decode_covered_fields. chain. Qed.
#[local] Hint Resolve works_v1_siacoin_input works_v1_siafund_input works_v1_file_contract works_v1_file_contract_revision
  works_v1_storage_proof works_covered_fields : works.
Lemma works_transaction_signature : Works 0 decode_transaction_signature.
Proof. unfold decode_transaction_signature. chain. Qed.
#[local] Hint Resolve works_transaction_signature : works.
Lemma works_v1_transaction : Works 0 decode_v1_transaction.
Proof. unfold decode_v1_transaction. chain. Qed.
#[local] Hint Resolve works_v1_transaction : works.
Lemma works_block : Works 0 decode_block.
Proof. unfold decode_block. chain. Qed.

Lemma works_policy_body : forall stack, Works 0 (decode_policy_body stack).
Proof. induction stack as [|stack IH]; cbn [decode_policy_body]; chain. Qed.
#[local] Hint Resolve works_policy_body : works.
Lemma works_policy : forall stack, Works 0 (decode_policy stack).
Proof. intros stack. unfold decode_policy. chain. Qed.
#[local] Hint Resolve works_policy : works.
Lemma works_satisfied_policy : forall stack, Works 0 (decode_satisfied_policy stack).
Proof. intros stack. unfold decode_satisfied_policy. chain. Qed.
#[local] Hint Resolve works_satisfied_policy : works.

Lemma works_attestation : Works 0 decode_attestation.
Proof. unfold decode_attestation. chain. Qed.
Lemma works_v2_file_contract : Works 0 decode_v2_file_contract.
Proof. unfold decode_v2_file_contract. chain. Qed.
#[local] Hint Resolve works_attestation works_v2_file_contract : works.
Lemma works_siacoin_element : Works 0 decode_siacoin_element.
Proof. unfold decode_siacoin_element. chain. Qed.
Lemma works_siafund_element : Works 0 decode_siafund_element.
Proof. unfold decode_siafund_element. chain. Qed.
Lemma works_file_contract_element : Works 0 decode_file_contract_element.
Proof. unfold decode_file_contract_element. chain. Qed.
Lemma works_chain_index_element : Works 0 decode_chain_index_element.
Proof. unfold decode_chain_index_element. chain. Qed.
#[local] Hint Resolve works_siacoin_element works_siafund_element works_file_contract_element works_chain_index_element : works.
Lemma works_v2_siacoin_input : forall stack, Works 0 (decode_v2_siacoin_input stack).
Proof. intros stack. unfold decode_v2_siacoin_input. chain. Qed.
Lemma works_v2_siafund_input : forall stack, Works 0 (decode_v2_siafund_input stack).
Proof. intros stack. unfold decode_v2_siafund_input. chain. Qed.
Lemma works_v2_file_contract_revision : Works 0 decode_v2_file_contract_revision.
Proof. unfold decode_v2_file_contract_revision. chain. Qed.
Lemma works_file_contract_renewal : Works 0 decode_file_contract_renewal.
Proof. unfold decode_file_contract_renewal. chain. Qed.
Lemma works_v2_storage_proof : Works 0 decode_v2_storage_proof.
Proof. unfold decode_v2_storage_proof. chain. Qed.
#[local] Hint Resolve works_v2_siacoin_input works_v2_siafund_input works_v2_file_contract_revision works_file_contract_renewal
  works_v2_storage_proof : works.
Lemma works_file_contract_resolution : Works 0 decode_file_contract_resolution.
Proof. unfold decode_file_contract_resolution. chain. Qed.
#[local] Hint Resolve works_file_contract_resolution : works.
Lemma works_v2_transaction : forall stack, Works 0 (decode_v2_transaction stack).
Proof. intros stack. unfold decode_v2_transaction. cbv zeta. chain. Qed.

Lemma works_trees : forall nl k i, Works 0 (decode_trees nl i k).
Proof. induction k as [|k IH]; intros i; cbn [decode_trees]; chain; apply IH. Qed.
#[local] Hint Resolve works_trees : works.
Lemma works_element_accumulator : Works 0 decode_element_accumulator.
Proof. unfold decode_element_accumulator. chain. Qed.
Lemma works_timestamps : forall k c, Works 0 (decode_timestamps c k).
Proof. induction k as [|k IH]; intros [|c]; cbn [decode_timestamps]; chain; apply IH. Qed.
#[local] Hint Resolve works_element_accumulator works_timestamps : works.
Lemma works_state : forall p, Works 0 (decode_state p).
Proof. intros p. unfold decode_state. chain. Qed.

Lemma works_decoder : forall stack A (d : dec A), Decoder stack A d ->
  Works 0 d \/ (forall bs, reads d bs = 1 /\ exists a, run d bs = ROk a bs).
Proof.
  intros stack A d H. destruct H; try (left; solve [chain]).
  - destruct n as [|n].
    + right. intros bs. split; [reflexivity|]. now eexists.
    + left. apply works_arr. lia.
  - left. apply works_block.
  - left. apply works_v2_transaction.
  - left. apply works_state.
Qed.

Theorem decoder_reads : forall stack A (d : dec A) bs, Decoder stack A d -> reads d bs <= size bs + 1.
Proof.
  intros stack A d bs H. destruct (works_decoder _ _ _ H) as [W|W].
  - specialize (W bs). destruct (run d bs); lia.
  - destruct (W bs) as [-> _]. lia.
Qed.

Theorem decoder_reads_accepted : forall stack A (d : dec A) used rest a, Decoder stack A d ->
  run d (used ++ rest) = ROk a rest -> used <> [] -> reads d (used ++ rest) <= size used.
Proof.
  intros stack A d used rest a H E N'. destruct (works_decoder _ _ _ H) as [W|W].
  - specialize (W (used ++ rest)). rewrite E in W. unfold size in *. rewrite app_length in W. lia.
  - destruct (W (used ++ rest)) as [_ [b B]]. rewrite B in E. injection E as _ E.
    destruct used; [congruence|]. apply (f_equal (@length _)) in E. rewrite app_length in E. cbn in E. lia.
Qed.

Theorem decoder_steps : forall stack A (d : dec A) bs, Decoder stack A d -> 3 * steps d bs <= 4 * size bs + 3.
Proof.
  intros stack A d bs H. unfold steps. pose proof (decoder_reads _ _ _ bs H). pose proof (decoder_count _ _ _ bs H). lia.
Qed.
