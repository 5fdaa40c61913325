(** Lemmas for C62: what decoders ask the allocator for. *)

From Verif Require Import Base Io IoProofs Codec Model_encoding EncodingProofs Model_common Model_v1 Model_policy Model_v2
  Model_consensus SpecMemory.
Local Open Scope N_scope.

Definition total (l : list N) : N := fold_right N.add 0 l.

Lemma total_app : forall a b, total (a ++ b) = total a + total b.
Proof. induction a as [|x a IH]; intros b; cbn [app total fold_right]; [reflexivity|]. fold (total (a ++ b)). fold (total a). rewrite IH. lia. Qed.

Lemma requests_bind : forall A B (m : dec A) (g : A -> dec B) bs,
  requests (dbind m g) bs = requests m bs ++ match run m bs with ROk a rest => requests (g a) rest | _ => [] end.
Proof.
  induction m as [a|e|p|n e k IH|z k IH]; intros g bs; cbn [dbind requests run app]; try reflexivity.
  - destruct (splitn n bs) as [[x r]|]; [apply IH|reflexivity].
  - f_equal. apply IH.
Qed.

Lemma requests_map_err : forall A e' (m : dec A) bs, requests (dmap_err e' m) bs = requests m bs.
Proof.
  induction m as [a|e|p|n e k IH|z k IH]; intros bs; cbn [dmap_err requests]; try reflexivity.
  - destruct (splitn n bs) as [[x r]|]; [apply IH|reflexivity].
  - f_equal. apply IH.
Qed.

Lemma requests_loop_add : forall S (step : S -> dec S) n m s bs,
  requests (dloop_nat (n + m) step s) bs = requests (dbind (dloop_nat n step s) (dloop_nat m step)) bs.
Proof.
  induction n as [|n IH]; intros m s bs; [reflexivity|].
  cbn [dloop_nat plus]. rewrite !requests_bind, run_bind. rewrite <- app_assoc. f_equal.
  destruct (run (step s) bs) as [a r|e|p]; [|reflexivity|reflexivity].
  rewrite IH, requests_bind. reflexivity.
Qed.

Lemma requests_loop : forall S (step : S -> dec S) n s bs,
  requests (dloop n step s) bs = requests (dloop_nat (N.to_nat n) step s) bs.
Proof.
  intros S step [|p] s bs; [reflexivity|]. cbn [dloop]. change (N.to_nat (N.pos p)) with (Pos.to_nat p).
  revert s bs. induction p as [p IH|p IH|]; intros s bs.
  - cbn [dloop_pos]. rewrite Pos2Nat.inj_xI. replace (2 * Pos.to_nat p)%nat with (Pos.to_nat p + Pos.to_nat p)%nat by lia.
    cbn [dloop_nat]. rewrite !requests_bind, run_bind, <- app_assoc. f_equal.
    destruct (run (step s) bs) as [a r|e|q]; [|reflexivity|reflexivity].
    rewrite requests_loop_add, requests_bind, IH, dloop_pos_nat. f_equal.
    destruct (run (dloop_nat (Pos.to_nat p) step a) r) as [b r'|e|q]; [apply IH|reflexivity|reflexivity].
  - cbn [dloop_pos]. rewrite Pos2Nat.inj_xO. replace (2 * Pos.to_nat p)%nat with (Pos.to_nat p + Pos.to_nat p)%nat by lia.
    rewrite requests_loop_add, !requests_bind, IH, dloop_pos_nat. f_equal.
    destruct (run (dloop_nat (Pos.to_nat p) step s) bs) as [b r'|e|q]; [apply IH|reflexivity|reflexivity].
  - cbn [dloop_pos]. change (Pos.to_nat 1) with 1%nat. cbn [dloop_nat]. rewrite requests_bind.
    destruct (run (step s) bs); now rewrite app_nil_r.
Qed.

(** On success the requests are paid for by 16 bytes for each byte read, of which [s] are left
    over; otherwise [f] requests may be unpaid. Each request takes three bytes of input.
    [c] bytes were read before. *)
Definition Costs {A} (c f s : N) (d : dec A) : Prop := forall bs,
  Forall (fun z => z <= isize_max) (requests d bs) /\
  match run d bs with
  | ROk _ rest => total (requests d bs) + s + 16 * size rest <= 16 * (size bs + c) /\
      3 * N.of_nat (length (requests d bs)) + size rest <= size bs + c
  | _ => total (requests d bs) <= 4080 * (size bs + c) + f * isize_max /\
      3 * N.of_nat (length (requests d bs)) <= size bs + c
  end.

Lemma costs_weak : forall A c f s f' s' (d : dec A), Costs c f s d -> f <= f' -> s' <= s -> Costs c f' s' d.
Proof.
  intros A c f s f' s' d H Hf Hs bs. destruct (H bs) as [H1 H2]. split; [exact H1|].
  assert (f * isize_max <= f' * isize_max) by (apply N.mul_le_mono_r; exact Hf).
  destruct (run d bs); lia.
Qed.

Lemma costs_more : forall A c f s j (d : dec A), Costs c f s d -> Costs (c + j) f (s + 16 * j) d.
Proof.
  intros A c f s j d H bs. destruct (H bs) as [H1 H2]. split; [exact H1|]. destruct (run d bs); lia.
Qed.

Lemma costs_ret : forall A (a : A), Costs 0 0 0 (DRet a).
Proof. intros A a bs. cbn [requests run total fold_right length]. split; [constructor|lia]. Qed.
Lemma costs_err : forall A e, Costs 0 0 0 (@DErr A e).
Proof. intros A e bs. cbn [requests run total fold_right length]. split; [constructor|lia]. Qed.
Lemma costs_panic : forall A q, Costs 0 0 0 (@DPanic A q).
Proof. intros A e bs. cbn [requests run total fold_right length]. split; [constructor|lia]. Qed.

Lemma costs_read : forall A c n e (k : bytes -> dec A) f s, (forall x, Costs (c + N.of_nat n) f s (k x)) ->
  Costs c f s (DRead n e k).
Proof.
  intros A c n e k f s H bs. cbn [requests run]. destruct (splitn n bs) as [[x r]|] eqn:E.
  - apply splitn_some in E as [-> L]. destruct (H x r) as [H1 H2]. split; [exact H1|].
    unfold size in *. rewrite app_length, Nat2N.inj_add, L. destruct (run (k x) r); lia.
  - split; [constructor|]. cbn [total fold_right length]. lia.
Qed.

Lemma costs_alloc : forall A f z (k : dec A), Costs 0 f z k -> z <= isize_max -> Costs 3 (f + 1) 48 (DAlloc z k).
Proof.
  intros A f z k H Hz bs. destruct (H bs) as [H1 H2]. cbn [requests run]. split; [now constructor|].
  cbn [total fold_right length]. fold (total (requests k bs)). rewrite N.mul_add_distr_r. destruct (run k bs); lia.
Qed.

Lemma costs_alloc_small : forall A f z (k : dec A), Costs 0 f z k -> z <= 12240 -> Costs 3 f 48 (DAlloc z k).
Proof.
  intros A f z k H Hz bs. destruct (H bs) as [H1 H2]. cbn [requests run].
  split; [constructor; [unfold isize_max; lia|exact H1]|].
  cbn [total fold_right length]. fold (total (requests k bs)). destruct (run k bs); lia.
Qed.

Lemma costs_bind : forall A B c f1 s1 f2 s2 (m : dec A) (g : A -> dec B),
  Costs c f1 s1 m -> (forall a, Costs 0 f2 s2 (g a)) -> Costs c (N.max f1 f2) (s1 + s2) (dbind m g).
Proof.
  intros A B c f1 s1 f2 s2 m g Hm Hg bs. rewrite requests_bind, run_bind, total_app, app_length, Nat2N.inj_add.
  assert (f1 * isize_max <= N.max f1 f2 * isize_max) by (apply N.mul_le_mono_r; lia).
  assert (f2 * isize_max <= N.max f1 f2 * isize_max) by (apply N.mul_le_mono_r; lia).
  destruct (Hm bs) as [M1 M2]. destruct (run m bs) as [a r|e|p] eqn:E.
  - destruct (Hg a r) as [G1 G2]. split; [apply Forall_app; now split|]. destruct (run (g a) r); lia.
  - cbn [total fold_right length]. split; [now rewrite app_nil_r|]. lia.
  - cbn [total fold_right length]. split; [now rewrite app_nil_r|]. lia.
Qed.

Lemma costs_map_err : forall A c f s e (m : dec A), Costs c f s m -> Costs c f s (dmap_err e m).
Proof.
  intros A c f s e m H bs. rewrite requests_map_err. destruct (H bs) as [H1 H2]. split; [exact H1|].
  destruct (run m bs) as [a r|e'|p] eqn:E.
  - now rewrite (run_map_err_ok _ e _ _ _ _ E).
  - assert (E' : run (dmap_err e m) bs = RErr e) by (apply run_map_err_err; now exists e'). now rewrite E'.
  - apply (run_map_err_panic _ e) in E. now rewrite E.
Qed.

Lemma costs_opt : forall A e (o : option A), Costs 0 0 0 (dret_opt e o).
Proof. intros A e [a|]; [apply costs_ret|apply costs_err]. Qed.

(** The elements of a vector. *)
Lemma costs_loop_nat : forall A f s (d : dec A) n acc, Costs 0 f s d ->
  Costs 0 f (N.of_nat n * s) (dloop_nat n (fun acc => dbind d (fun x => DRet (x :: acc))) acc).
Proof.
  intros A f s d n acc H. revert acc. induction n as [|n IH]; intros acc; cbn [dloop_nat].
  - eapply costs_weak; [apply costs_ret|lia|lia].
  - eapply costs_weak; [eapply costs_bind; [eapply costs_bind; [exact H|intros; apply costs_ret]|exact IH]|lia|lia].
Qed.

Lemma costs_loop : forall A f s (d : dec A) n acc, Costs 0 f s d ->
  Costs 0 f (n * s) (dloop n (fun acc => dbind d (fun x => DRet (x :: acc))) acc).
Proof.
  intros A f s d n acc H bs. rewrite requests_loop, dloop_run.
  pose proof (costs_loop_nat A f s d (N.to_nat n) acc H bs) as C. now rewrite N2Nat.id in C.
Qed.

Lemma costs_vec : forall A f s sz (d : dec A), Costs 0 f s d -> sz <= s -> Costs 0 (f + 1) 128 (decode_vec sz d).
Proof.
  intros A f s sz d H Hs. unfold decode_vec, decode_usize, decode_uint. cbn [dbind].
  apply costs_read. intros x. cbn [dbind].
  match goal with |- context [uval ?v * sz] => set (len := v) end.
  change (0 + N.of_nat 8) with (3 + 5). change 128 with (48 + 16 * 5). apply costs_more.
  destruct (N.ltb_spec isize_max (uval len * sz)) as [L|L].
  { eapply costs_weak; [apply (costs_more _ 0 0 0 3), costs_panic|lia|lia]. }
  apply costs_alloc; [|exact L].
  eapply costs_weak; [eapply costs_bind with (f2 := 0) (s2 := 0)| |].
  - apply (costs_loop A f s d (uval len) [] H).
  - intros l. destruct (vec_of sz (rev l)); [apply costs_ret|apply costs_panic].
  - lia.
  - nia.
Qed.

(** Chains of decoders. *)
Create HintDb costs.
Ltac chain := lazymatch goal with
  | |- Costs _ _ _ (DRet _) => apply costs_ret
  | |- Costs _ _ _ (dret_opt _ _) => apply costs_opt
  | |- Costs _ _ _ (dbind _ _) => eapply costs_bind; [chain|intros; chain]
  | |- Costs _ _ _ (decode_vec _ _) => eapply costs_vec; [chain|vm_compute; discriminate]
  | |- _ => solve [eauto 1 with costs nocore]
  end.
Ltac costs := eapply costs_weak; [chain|vm_compute; discriminate|vm_compute; discriminate].

Lemma costs_u8 : Costs 0 0 16 decode_u8.
Proof. apply costs_read. intros x. apply (costs_more _ 0 0 0 1), costs_ret. Qed.
Lemma costs_uint : forall w, Costs 0 0 128 (decode_uint w).
Proof. intros w. apply costs_read. intros x. apply (costs_more _ 0 0 0 8), costs_ret. Qed.
Lemma costs_u64 : Costs 0 0 128 decode_u64.
Proof. apply costs_uint. Qed.
Lemma costs_usize : Costs 0 0 128 decode_usize.
Proof. apply costs_uint. Qed.
Lemma costs_i64 : Costs 0 0 128 decode_i64.
Proof. apply costs_read. intros x. apply (costs_more _ 0 0 0 8), costs_ret. Qed.
Lemma costs_arr : forall n, Costs 0 0 (16 * N.of_nat n) (decode_arr n).
Proof. intros n. apply costs_read. intros x. apply (costs_more _ 0 0 0), costs_ret. Qed.
Lemma costs_hash : Costs 0 0 512 decode_hash.
Proof. apply (costs_arr 32). Qed.
Lemma costs_sig : Costs 0 0 1024 decode_signature.
Proof. apply (costs_arr 64). Qed.
Lemma costs_leaf : Costs 0 0 1024 decode_leaf.
Proof. apply (costs_arr 64). Qed.
Lemma costs_specifier : Costs 0 0 256 decode_specifier.
Proof. apply (costs_arr 16). Qed.
#[local] Hint Resolve costs_u8 costs_u64 costs_usize costs_i64 costs_hash costs_sig costs_leaf costs_specifier : costs.

Lemma costs_bool : Costs 0 0 16 decode_bool.
Proof.
  unfold decode_bool. eapply costs_weak; [eapply costs_bind with (f2 := 0) (s2 := 0); [chain|]|lia|lia].
  intros v. destruct v; first [apply costs_ret|apply costs_err].
Qed.
Lemma costs_odt : Costs 0 0 128 decode_odt.
Proof.
  unfold decode_odt. eapply costs_weak; [eapply costs_bind with (f2 := 0) (s2 := 0); [chain|]|lia|lia].
  intros v. destruct (from_unix_timestamp v); [apply costs_ret|apply costs_panic].
Qed.
Lemma costs_duration : Costs 0 0 128 decode_duration.
Proof.
  unfold decode_duration. eapply costs_weak; [eapply costs_bind with (f2 := 0) (s2 := 0); [chain|]|lia|lia].
  intros v. destruct (_ <? _); [apply costs_err|apply costs_ret].
Qed.
Lemma costs_currency : Costs 0 0 256 decode_currency.
Proof. apply costs_read. intros x. apply (costs_more _ 0 0 0 16), costs_ret. Qed.
Lemma costs_v1_currency : Costs 0 0 128 decode_v1_currency.
Proof.
  unfold decode_v1_currency. eapply costs_weak; [eapply costs_bind with (f2 := 0) (s2 := 0); [chain|]|lia|lia].
  intros v. destruct (_ <? _); [apply costs_err|]. cbn [dbind]. apply costs_read. intros x. 
  eapply costs_weak; [apply (costs_more _ 0 0 0), costs_ret|lia|lia].
Qed.
Lemma costs_work : Costs 0 0 512 decode_work.
Proof. unfold decode_work. eapply costs_weak; [eapply costs_bind; [apply costs_map_err, (costs_arr 32)|intros; chain]|lia|lia]. Qed.
Lemma costs_v1_work : Costs 0 0 512 decode_v1_work.
Proof. unfold decode_v1_work. eapply costs_weak; [eapply costs_bind; [apply (costs_arr 32)|intros; chain]|lia|lia]. Qed.
#[local] Hint Resolve costs_bool costs_odt costs_duration costs_currency costs_v1_currency costs_work costs_v1_work : costs.

Lemma costs_string : Costs 0 1 128 decode_string.
Proof. unfold decode_string. costs. Qed.
Lemma costs_chain_index : Costs 0 0 640 decode_chain_index.
Proof. unfold decode_chain_index. costs. Qed.
Lemma costs_siacoin_output : Costs 0 0 768 decode_siacoin_output.
Proof. unfold decode_siacoin_output. costs. Qed.
Lemma costs_siafund_output : Costs 0 0 640 decode_siafund_output.
Proof. unfold decode_siafund_output. costs. Qed.
Lemma costs_v1_siacoin_output : Costs 0 0 640 decode_v1_siacoin_output.
Proof. unfold decode_v1_siacoin_output. costs. Qed.
Lemma costs_v1_siafund_output : Costs 0 0 768 decode_v1_siafund_output.
Proof. unfold decode_v1_siafund_output. costs. Qed.
Lemma costs_state_element : Costs 0 1 256 decode_state_element.
Proof. unfold decode_state_element. costs. Qed.
Lemma costs_unlock_key : Costs 0 1 384 decode_unlock_key.
Proof. unfold decode_unlock_key. costs. Qed.
#[local] Hint Resolve costs_string costs_chain_index costs_siacoin_output costs_siafund_output costs_v1_siacoin_output
  costs_v1_siafund_output costs_state_element costs_unlock_key : costs.

Lemma costs_unlock_conditions : Costs 0 2 384 decode_unlock_conditions.
Proof. unfold decode_unlock_conditions. costs. Qed.
#[local] Hint Resolve costs_unlock_conditions : costs.
Lemma costs_v1_siacoin_input : Costs 0 2 896 decode_v1_siacoin_input.
Proof. unfold decode_v1_siacoin_input. costs. Qed.
Lemma costs_v1_siafund_input : Costs 0 2 1408 decode_v1_siafund_input.
Proof. unfold decode_v1_siafund_input. costs. Qed.
Lemma costs_v1_file_contract : Costs 0 1 1000 decode_v1_file_contract.
Proof. unfold decode_v1_file_contract. costs. Qed.
Lemma costs_v1_file_contract_revision : Costs 0 2 1000 decode_v1_file_contract_revision.
Proof. unfold decode_v1_file_contract_revision. costs. Qed.
Lemma costs_v1_storage_proof : Costs 0 1 1000 decode_v1_storage_proof.
Proof. unfold decode_v1_storage_proof. costs. Qed.
Lemma costs_covered_fields : Costs 0 1 1000 decode_covered_fields.
Proof. unfold decode_covered_fields. costs. Qed.
#[local] Hint Resolve costs_v1_siacoin_input costs_v1_siafund_input costs_v1_file_contract costs_v1_file_contract_revision
  costs_v1_storage_proof costs_covered_fields : costs.
Lemma costs_transaction_signature : Costs 0 1 1000 decode_transaction_signature.
Proof. unfold decode_transaction_signature. costs. Qed.
#[local] Hint Resolve costs_transaction_signature : costs.
Lemma costs_v1_transaction : Costs 0 3 1280 decode_v1_transaction.
Proof. unfold decode_v1_transaction. costs. Qed.
#[local] Hint Resolve costs_v1_transaction : costs.
Lemma costs_block : Costs 0 4 0 decode_block.
Proof. unfold decode_block. costs. Qed.

(** Policies: at most 255 children of 48 bytes, after three bytes. *)
Lemma costs_policy_body : forall stack, Costs 0 2 48 (decode_policy_body stack).
Proof.
  induction stack as [|stack IH]; cbn [decode_policy_body].
  - intros bs. cbn [requests run total fold_right length]. split; [constructor|lia].
  - unfold decode_u8 at 1. cbn [dbind]. apply costs_read. intros x. generalize (hd x00 x). clear x. intros b.
    change (0 + N.of_nat 1) with 1.
    assert (K : forall d : dec policy, Costs 0 2 32 d -> Costs 1 2 48 d) by (intros d; apply (costs_more _ 0 2 32 1)).
    assert (E : forall e, Costs 1 2 48 (@DErr policy e)).
    { intros e bs. cbn [requests run total fold_right length]. split; [constructor|lia]. }
    destruct b; try apply E.
    1-4, 6, 7: apply K; costs.
    unfold decode_u8 at 1. cbn [dbind]. apply costs_read. intros x. generalize (hd x00 x). clear x. intros o.
    unfold decode_u8 at 1. cbn [dbind]. apply costs_read. intros x. generalize (hd x00 x). clear x. intros n.
    change (1 + N.of_nat 1 + N.of_nat 1) with 3. apply costs_alloc_small.
    + eapply costs_weak; [eapply costs_bind; [apply (costs_loop _ _ _ _ (b2n n) [] IH)|intros; apply costs_ret]|lia|lia].
    + pose proof (b2n_lt n). lia.
Qed.
#[local] Hint Resolve costs_policy_body : costs.

Lemma costs_policy : forall stack, Costs 0 2 64 (decode_policy stack).
Proof.
  intros stack. unfold decode_policy. unfold decode_u8. cbn [dbind]. apply costs_read. intros x.
  generalize (hd x00 x). clear x. intros b. change (0 + N.of_nat 1) with 1.
  assert (E : forall e, Costs 1 2 64 (@DErr policy e)).
  { intros e bs. cbn [requests run total fold_right length]. split; [constructor|lia]. }
  destruct b; try apply E. apply (costs_more _ 0 2 48 1), costs_policy_body.
Qed.
#[local] Hint Resolve costs_policy : costs.
Lemma costs_satisfied_policy : forall stack, Costs 0 2 320 (decode_satisfied_policy stack).
Proof. intros stack. unfold decode_satisfied_policy. costs. Qed.
#[local] Hint Resolve costs_satisfied_policy : costs.

Lemma costs_attestation : Costs 0 1 1000 decode_attestation.
Proof. unfold decode_attestation. costs. Qed.
Lemma costs_v2_file_contract : Costs 0 0 6000 decode_v2_file_contract.
Proof. unfold decode_v2_file_contract. costs. Qed.
#[local] Hint Resolve costs_attestation costs_v2_file_contract : costs.
Lemma costs_siacoin_element : Costs 0 1 1000 decode_siacoin_element.
Proof. unfold decode_siacoin_element. costs. Qed.
Lemma costs_siafund_element : Costs 0 1 1000 decode_siafund_element.
Proof. unfold decode_siafund_element. costs. Qed.
Lemma costs_file_contract_element : Costs 0 1 6000 decode_file_contract_element.
Proof. unfold decode_file_contract_element. costs. Qed.
Lemma costs_chain_index_element : Costs 0 1 1000 decode_chain_index_element.
Proof. unfold decode_chain_index_element. costs. Qed.
#[local] Hint Resolve costs_siacoin_element costs_siafund_element costs_file_contract_element costs_chain_index_element : costs.
Lemma costs_v2_siacoin_input : forall stack, Costs 0 2 1000 (decode_v2_siacoin_input stack).
Proof. intros stack. unfold decode_v2_siacoin_input. costs. Qed.
Lemma costs_v2_siafund_input : forall stack, Costs 0 2 1000 (decode_v2_siafund_input stack).
Proof. intros stack. unfold decode_v2_siafund_input. costs. Qed.
Lemma costs_v2_file_contract_revision : Costs 0 1 6000 decode_v2_file_contract_revision.
Proof. unfold decode_v2_file_contract_revision. costs. Qed.
Lemma costs_file_contract_renewal : Costs 0 0 6000 decode_file_contract_renewal.
Proof. unfold decode_file_contract_renewal. costs. Qed.
Lemma costs_v2_storage_proof : Costs 0 1 1000 decode_v2_storage_proof.
Proof. unfold decode_v2_storage_proof. costs. Qed.
#[local] Hint Resolve costs_v2_siacoin_input costs_v2_siafund_input costs_v2_file_contract_revision costs_file_contract_renewal
  costs_v2_storage_proof : costs.
Lemma costs_file_contract_resolution : Costs 0 1 6000 decode_file_contract_resolution.
Proof.
  unfold decode_file_contract_resolution.
  eapply costs_weak; [eapply costs_bind; [chain|intros; eapply costs_bind; [chain|intros v; eapply costs_bind with (f1 := 1) (s1 := 0)]]| |].
  - destruct v; try (eapply costs_weak; [apply costs_err|lia|lia]); costs.
  - intros. apply costs_ret.
  - vm_compute; discriminate.
  - vm_compute; discriminate.
Qed.
#[local] Hint Resolve costs_file_contract_resolution : costs.

Lemma costs_when : forall A fields mask (a : A) d f s, Costs 0 f s d -> Costs 0 f 0 (decode_when fields mask a d).
Proof.
  intros A fields mask a d f s H. unfold decode_when. destruct (_ =? _).
  - eapply costs_weak; [apply costs_ret|lia|lia].
  - eapply costs_weak; [exact H|lia|lia].
Qed.

Ltac whens := lazymatch goal with
  | |- Costs _ _ _ (dbind (decode_when _ _ _ _) _) => eapply costs_bind; [eapply costs_when; chain|intros; whens]
  | |- Costs _ _ _ (dbind _ _) => eapply costs_bind; [chain|intros; whens]
  | |- _ => chain
  end.

Lemma costs_v2_transaction : forall stack, Costs 0 3 0 (decode_v2_transaction stack).
Proof.
  intros stack. unfold decode_v2_transaction.
  eapply costs_weak; [eapply costs_bind with (f2 := 3) (s2 := 0); [chain|]|vm_compute; discriminate|vm_compute; discriminate].
  intros v. destruct v; try (eapply costs_weak; [apply costs_err|lia|lia]). cbv zeta.
  eapply costs_weak; [whens|vm_compute; discriminate|vm_compute; discriminate].
Qed.

Lemma costs_trees : forall nl k i, Costs 0 0 0 (decode_trees nl i k).
Proof.
  induction k as [|k IH]; intros i; cbn [decode_trees]; [apply costs_ret|].
  eapply costs_weak; [eapply costs_bind with (f1 := 0) (s1 := 0); [|intros; eapply costs_bind; [apply IH|intros; apply costs_ret]]|lia|lia].
  destruct (has_tree_at_height nl i); [costs|apply costs_ret].
Qed.
Lemma costs_element_accumulator : Costs 0 0 128 decode_element_accumulator.
Proof.
  unfold decode_element_accumulator.
  eapply costs_weak; [eapply costs_bind; [chain|intros; eapply costs_bind with (f2 := 0) (s2 := 0); [apply costs_trees|]]|lia|lia].
  intros l. destruct (farr_of 64 l); [apply costs_ret|apply costs_panic].
Qed.
#[local] Hint Resolve costs_element_accumulator : costs.
Lemma costs_timestamps : forall k c, Costs 0 0 0 (decode_timestamps c k).
Proof.
  induction k as [|k IH]; intros [|c]; cbn [decode_timestamps]; try apply costs_ret.
  eapply costs_weak; [eapply costs_bind; [chain|intros; eapply costs_bind; [apply IH|intros; apply costs_ret]]|lia|lia].
Qed.
Lemma costs_state : forall p, Costs 0 0 0 (decode_state p).
Proof.
  intros p. unfold decode_state. eapply costs_weak; [eapply costs_bind with (f2 := 0) (s2 := 0); [chain|]|lia|lia].
  intros i. destruct (timestamps_count p i) as [c|q]; [|apply costs_panic].
  eapply costs_weak; [eapply costs_bind with (f2 := 0) (s2 := 0); [apply costs_timestamps|]|lia|lia].
  intros ts. destruct (farr_of 11 ts); [|apply costs_panic]. costs.
Qed.

Theorem costs_decoder : forall stack A (d : dec A), Decoder stack A d -> Costs 0 4 0 d.
Proof.
  intros stack A d H. destruct H; try (eapply costs_weak; [chain|vm_compute; discriminate|vm_compute; discriminate]).
  - eapply costs_weak; [apply costs_arr|lia|lia].
  - apply costs_block.
  - eapply costs_weak; [apply costs_v2_transaction|lia|lia].
  - eapply costs_weak; [apply costs_state|lia|lia].
Qed.

(** Types without vectors ask for nothing. *)
Definition Quiet {A} (d : dec A) : Prop := forall bs, requests d bs = [].

Lemma quiet_bind : forall A B (m : dec A) (g : A -> dec B), Quiet m -> (forall a, Quiet (g a)) -> Quiet (dbind m g).
Proof. intros A B m g Hm Hg bs. rewrite requests_bind, Hm. destruct (run m bs); [apply Hg|reflexivity|reflexivity]. Qed.
Lemma quiet_read : forall A n e (k : bytes -> dec A), (forall x, Quiet (k x)) -> Quiet (DRead n e k).
Proof. intros A n e k H bs. cbn [requests]. destruct (splitn n bs) as [[x r]|]; [apply H|reflexivity]. Qed.
Lemma quiet_ret : forall A (a : A), Quiet (DRet a).
Proof. intros A a bs. reflexivity. Qed.
Lemma quiet_err : forall A e, Quiet (@DErr A e).
Proof. intros A a bs. reflexivity. Qed.
Lemma quiet_panic : forall A e, Quiet (@DPanic A e).
Proof. intros A a bs. reflexivity. Qed.
Lemma quiet_map_err : forall A e (m : dec A), Quiet m -> Quiet (dmap_err e m).
Proof. intros A e m H bs. rewrite requests_map_err. apply H. Qed.

Ltac quiet := repeat first
  [ apply quiet_ret | apply quiet_err | apply quiet_panic | apply quiet_map_err
  | apply quiet_read; intros | apply quiet_bind; [|intros]
  | progress unfold decode_u8, decode_bool, decode_u64, decode_i64, decode_usize, decode_uint, decode_sint, decode_hash,
      decode_signature, decode_arr, decode_odt, decode_duration, decode_currency, decode_v1_currency, decode_work,
      decode_v1_work, decode_chain_index, decode_siacoin_output, decode_siafund_output, decode_v1_siacoin_output,
      decode_v1_siafund_output, decode_v2_file_contract, decode_file_contract_renewal, dret_opt
  | match goal with |- Quiet (match ?x with _ => _ end) => destruct x end ].

Lemma quiet_trees : forall nl k i, Quiet (decode_trees nl i k).
Proof. induction k as [|k IH]; intros i; cbn [decode_trees]; [apply quiet_ret|]. apply quiet_bind; [quiet|]. intros a. apply quiet_bind; [apply IH|intros; apply quiet_ret]. Qed.
Lemma quiet_timestamps : forall k c, Quiet (decode_timestamps c k).
Proof. induction k as [|k IH]; intros [|c]; cbn [decode_timestamps]; try apply quiet_ret. apply quiet_bind; [quiet|]. intros a. apply quiet_bind; [apply IH|intros; apply quiet_ret]. Qed.
Lemma quiet_accumulator : Quiet decode_element_accumulator.
Proof. unfold decode_element_accumulator. apply quiet_bind; [quiet|]. intros a. apply quiet_bind; [apply quiet_trees|]. intros l. destruct (farr_of 64 l); [apply quiet_ret|apply quiet_panic]. Qed.

Theorem quiet_fixed : forall A (d : dec A), Fixed A d -> Quiet d.
Proof.
  intros A d H. destruct H; try first [apply quiet_accumulator|solve [quiet]].
  - unfold decode_state. apply quiet_bind; [quiet|]. intros i. destruct (timestamps_count p i); [|apply quiet_panic].
    apply quiet_bind; [apply quiet_timestamps|]. intros ts. destruct (farr_of 11 ts); [|apply quiet_panic].
    repeat (apply quiet_bind; [first [apply quiet_accumulator|solve [quiet]]|intros ?]). apply quiet_ret.
Qed.

(** A length prefix alone. *)
Definition prefix (n : N) : bytes := le_bytes 8 n.
Lemma vec_request : forall A sz (d : dec A) B (g : vec sz A -> dec B) n bs, n < 2 ^ 64 -> n * sz <= isize_max ->
  n * sz <= requested (dbind (decode_vec sz d) g) (prefix n ++ bs).
Proof.
  intros A sz d B g n bs Hn Hz. unfold requested. fold (total (requests (dbind (decode_vec sz d) g) (prefix n ++ bs))).
  unfold decode_vec, decode_usize, decode_uint. cbn [dbind requests]. rewrite splitn_app by apply le_bytes_length.
  unfold prefix. rewrite from_le_le_bytes. change (256 ^ N.of_nat 8) with (2 ^ 64). rewrite N.mod_small by exact Hn. rewrite uwrap_small by exact Hn.
  destruct (N.ltb_spec isize_max (n * sz)) as [L|L]; [lia|]. cbn [dbind requests total fold_right]. lia.
Qed.

Lemma total_requested : forall A (d : dec A) bs, total (requests d bs) = requested d bs.
Proof. reflexivity. Qed.

Theorem decoder_success : forall stack A (d : dec A) used rest a, Decoder stack A d ->
  run d (used ++ rest) = ROk a rest -> requested d (used ++ rest) <= 16 * size used.
Proof.
  intros stack A d used rest a H E. pose proof (proj2 (costs_decoder _ _ _ H (used ++ rest))) as C. rewrite E in C.
  rewrite total_requested in C. unfold size in *. rewrite app_length in C. lia.
Qed.

Theorem decoder_request : forall stack A (d : dec A) bs z, Decoder stack A d -> In z (requests d bs) -> z <= isize_max.
Proof. intros stack A d bs z H I. pose proof (proj1 (costs_decoder _ _ _ H bs)) as C. rewrite Forall_forall in C. now apply C. Qed.

Theorem decoder_total : forall stack A (d : dec A) bs, Decoder stack A d ->
  requested d bs <= 4080 * size bs + 4 * isize_max.
Proof.
  intros stack A d bs H. pose proof (proj2 (costs_decoder _ _ _ H bs)) as C. rewrite total_requested in C.
  destruct (run d bs); lia.
Qed.

Theorem decoder_count : forall stack A (d : dec A) bs, Decoder stack A d ->
  3 * N.of_nat (length (requests d bs)) <= size bs.
Proof. intros stack A d bs H. pose proof (proj2 (costs_decoder _ _ _ H bs)) as C. destruct (run d bs); lia. Qed.

Theorem fixed_none : forall A (d : dec A) bs, Fixed A d -> requests d bs = [].
Proof. intros A d bs H. now apply quiet_fixed. Qed.

Theorem string_prefix : forall n, n <= isize_max -> requests decode_string (le_bytes 8 n) = [n].
Proof.
  intros n Hn. assert (L : n < 2 ^ 64) by (unfold isize_max in Hn; lia).
  unfold decode_string, decode_vec, decode_usize, decode_uint. cbn [dbind requests].
  rewrite <- (app_nil_r (le_bytes 8 n)). rewrite splitn_app by apply le_bytes_length.
  rewrite from_le_le_bytes. change (256 ^ N.of_nat 8) with (2 ^ 64). rewrite N.mod_small by exact L.
  rewrite uwrap_small by exact L. rewrite N.mul_1_r. destruct (N.ltb_spec isize_max n) as [X|_]; [lia|].
  cbn [dbind requests]. f_equal.
  match goal with |- requests ?d [] = [] => enough (Q : Quiet d) by apply Q end.
  apply quiet_bind.
  - apply quiet_bind.
    + intros bs. rewrite requests_loop. generalize (@nil u8), bs. induction (N.to_nat n) as [|k IH]; intros acc bs'; cbn [dloop_nat]; [reflexivity|].
      apply quiet_bind; [quiet|]. intros a. exact (IH a).
    + intros l. destruct (vec_of 1 (rev l)); [apply quiet_ret|apply quiet_panic].
  - intros v. unfold dret_opt. destruct (rstring_of v); [apply quiet_ret|apply quiet_err].
Qed.

Theorem string_huge : exists bs, size bs = 8 /\ requested decode_string bs = isize_max.
Proof.
  exists (le_bytes 8 isize_max). split; [reflexivity|]. unfold requested. rewrite string_prefix by lia. reflexivity.
Qed.
Theorem v1_transaction_huge : exists bs, size bs = 8 /\ 2 ^ 62 <= requested decode_v1_transaction bs.
Proof.
  exists (le_bytes 8 (2 ^ 56)). split; [reflexivity|].
  unfold decode_v1_transaction. pose proof (vec_request _ 72 decode_v1_siacoin_input) as V.
  match goal with |- context [requested (dbind _ ?g)] => specialize (V _ g (2 ^ 56) [] eq_refl) end. rewrite app_nil_r in V.
  eapply N.le_trans; [|apply V; discriminate]. discriminate.
Qed.

Theorem v2_transaction_huge : forall stack, exists bs, size bs = 17 /\ 2 ^ 62 <= requested (decode_v2_transaction stack) bs.
Proof.
  intros stack. exists ([x02] ++ le_bytes 8 1 ++ le_bytes 8 (2 ^ 55)). split; [reflexivity|].
  unfold decode_v2_transaction. unfold decode_u8 at 1. cbn [dbind]. unfold requested. cbn [requests splitn app hd dbind].
  unfold decode_u64. unfold decode_uint. cbn [dbind requests]. rewrite splitn_app by apply le_bytes_length.
  rewrite from_le_le_bytes. change (1 mod 256 ^ N.of_nat 8) with 1. rewrite uwrap_small by reflexivity. cbv zeta.
  unfold decode_when at 1. change (N.land 1 1 =? 0) with false. cbv iota.
  pose proof (vec_request _ 224 (decode_v2_siacoin_input stack)) as V.
  match goal with |- context [requests (dbind _ ?g)] => specialize (V _ g (2 ^ 55) [] eq_refl) end. rewrite app_nil_r in V.
  eapply N.le_trans; [|apply V; discriminate]. discriminate.
Qed.

Theorem not_proportional : ~ (exists c, c <= 2 ^ 58 /\
  forall stack A (d : dec A) bs, Decoder stack A d -> requested d bs <= c * (1 + size bs)).
Proof.
  intros (c & Hc & H). destruct v1_transaction_huge as (bs & L & R).
  specialize (H O _ _ bs (D_v1_transaction O)). rewrite L in H. lia.
Qed.
