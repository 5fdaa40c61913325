(** Signature hashes: what they determine and what they ignore. *)

From Verif Require Import Base Io IoProofs Spec SpecWire Codec CodecTac Model_encoding EncodingProofs
  Model_common Blake2b Model_currency Model_v1 Model_policy Model_v2 Model_consensus Model_merkle
  Model_ids CommonProofs V1Proofs PolicyProofs V2Proofs V2TxnProofs ConsensusProofs
  SpecMerkle SpecIds AddressProofs IdsProofs.
Local Open Scope N_scope.

(** ** v1: the whole transaction *)

Lemma prefixed_splits : forall A (e : A -> bytes), Splits always eq e ->
  forall p p' l l' x y, length p = length p' -> length l = length l' ->
  concat (map (fun i => p ++ e i) l) ++ x = concat (map (fun i => p' ++ e i) l') ++ y ->
  l = l' /\ (l <> [] -> p = p') /\ x = y.
Proof.
  intros A e He p p' l. induction l as [|a l IH]; intros [|b l'] x y Hp Hl E; cbn in Hl; try discriminate.
  - split; [reflexivity|]. split; [congruence|exact E].
  - cbn [map concat] in E. rewrite <- !app_assoc in E. apply app_len_inj in E as [-> E]; [|exact Hp].
    apply He in E as [-> E]; [|exact I].
    apply IH in E as (-> & _ & ->); [|exact Hp|congruence]. repeat split; reflexivity.
Qed.

Lemma whole_sig_binding : forall t u cs cs' parent parent' index index' lock lock',
  length (replay_prefix cs) = length (replay_prefix cs') ->
  whole_sig_preimage t cs parent index lock = whole_sig_preimage u cs' parent' index' lock' ->
  SameUnsigned t u /\ parent = parent' /\ index = index' /\ lock = lock' /\
  (has_inputs t -> replay_prefix cs = replay_prefix cs').
Proof.
  intros t u cs cs' parent parent' index index' lock lock' Hp E. unfold whole_sig_preimage in E.
  apply le8_splits in E as [L1 E]; [|apply vec_len_lt|apply vec_len_lt].
  apply (prefixed_splits _ (fun i => wbytes (encode_v1_siacoin_input i)) (rt_splits _ _ _ rt_v1_siacoin_input))
    in E as (E1 & P1 & E); [|exact Hp|lia].
  split_field E rt_sco. split_field E rt_fc. split_field E rt_fcr. split_field E rt_sp.
  apply le8_splits in E as [L2 E]; [|apply vec_len_lt|apply vec_len_lt].
  apply (prefixed_splits _ (fun i => wbytes (encode_v1_siafund_input i)) (rt_splits _ _ _ rt_v1_siafund_input))
    in E as (E6 & P2 & E); [|exact Hp|lia].
  split_field E rt_sfo. split_field E rt_fees. split_field E rt_arb.
  apply hash_splits in E as [-> E]. rewrite !wbytes_u64 in E. apply u64_splits in E as [-> E].
  apply u64_inj in E as ->.
  apply vec_eq in E1, E6.
  split; [now apply same_unsigned|]. repeat (split; [reflexivity|]).
  intros [H|H]; [now apply P1|now apply P2].
Qed.

Lemma whole_sig_ignores : forall t s cs parent index lock,
  whole_sig_hash (with_signatures t s) cs parent index lock = whole_sig_hash t cs parent index lock.
Proof. reflexivity. Qed.

Lemma whole_sig_hash_binding : forall t u cs cs' parent parent' index index' lock lock',
  length (replay_prefix cs) = length (replay_prefix cs') ->
  whole_sig_hash t cs parent index lock = whole_sig_hash u cs' parent' index' lock' ->
  (SameUnsigned t u /\ parent = parent' /\ index = index' /\ lock = lock' /\
   (has_inputs t -> replay_prefix cs = replay_prefix cs')) \/
  Collision [whole_sig_preimage t cs parent index lock] [whole_sig_preimage u cs' parent' index' lock'].
Proof.
  intros t u cs cs' parent parent' index index' lock lock' Hp E. unfold whole_sig_hash in E.
  apply hash_or_collision in E as [E|E]; [|now right]. left. now apply whole_sig_binding.
Qed.

(** ** v1: covered fields *)

Fixpoint all_some {A} (l : list (option A)) : option (list A) :=
  match l with
  | [] => Some []
  | Some a :: r => match all_some r with Some t => Some (a :: t) | None => None end
  | None :: _ => None
  end.

Lemma all_some_length : forall A (l : list (option A)) r, all_some l = Some r -> length r = length l.
Proof.
  induction l as [|[a|] l IH]; intros r H; cbn in *; try discriminate.
  - injection H as <-. reflexivity.
  - destruct (all_some l) as [t|]; [|discriminate]. injection H as <-. cbn. f_equal. now apply IH.
Qed.

Lemma all_some_map : forall A (l : list (option A)) r, all_some l = Some r -> l = map Some r.
Proof.
  induction l as [|[a|] l IH]; intros r H; cbn in *; try discriminate.
  - injection H as <-. reflexivity.
  - destruct (all_some l) as [t|]; [|discriminate]. injection H as <-. cbn. f_equal. now apply IH.
Qed.

Definition section_bytes {A} (msg : string) (enc : A -> bytes) (l : list (option A)) : bytes + error :=
  match all_some l with Some r => inl (concat (map enc r)) | None => inr (ECustom msg) end.

Lemma cover_pick : forall A msg (enc : A -> bytes) items idx,
  cover msg enc items idx = section_bytes msg enc (pick items idx).
Proof.
  intros A msg enc items idx. unfold section_bytes. induction idx as [|i idx IH]; [reflexivity|].
  cbn [cover pick map all_some].
  destruct (N.leb_spec (N.of_nat (length items)) (uval i)) as [H|H].
  - assert (E : nth_error items (N.to_nat (uval i)) = None) by (apply nth_error_None; lia).
    now rewrite E.
  - destruct (nth_error items (N.to_nat (uval i))) as [x|] eqn:E.
    2:{ apply nth_error_None in E. lia. }
    fold (pick items idx). rewrite IH. destruct (all_some (pick items idx)); reflexivity.
Qed.

Lemma section_ok : forall A msg (enc : A -> bytes) items idx,
  (exists x, section_bytes msg enc (pick items idx) = inl x) <-> below items idx.
Proof.
  intros A msg enc items idx. unfold section_bytes, below. split.
  - intros [x H]. destruct (all_some (pick items idx)) as [r|] eqn:E; [|discriminate]. clear H.
    revert r E. induction idx as [|i idx IH]; intros r E; [constructor|].
    cbn [pick map all_some] in E. fold (pick items idx) in E.
    destruct (nth_error items (N.to_nat (uval i))) as [a|] eqn:En; [|discriminate].
    destruct (all_some (pick items idx)) as [t|]; [|discriminate].
    constructor; [|now apply (IH t)].
    assert (nth_error items (N.to_nat (uval i)) <> None) as Hn by congruence.
    apply nth_error_Some in Hn. lia.
  - intros H. induction H as [|i idx Hi H IH]; [eexists; reflexivity|].
    cbn [pick map all_some]. fold (pick items idx).
    destruct (nth_error items (N.to_nat (uval i))) as [a|] eqn:En.
    2:{ apply nth_error_None in En. lia. }
    destruct IH as [x IH]. destruct (all_some (pick items idx)); [eexists; reflexivity|discriminate].
Qed.

Lemma cat_inl : forall a b z, cat_result a b = inl z -> exists x y, a = inl x /\ b = inl y /\ z = x ++ y.
Proof.
  intros [x|e] [y|e'] z H; cbn in H; try discriminate. injection H as <-. eexists _, _. repeat split.
Qed.

Lemma cat_error : forall a b, (exists e, cat_result a b = inr e) <->
  (exists e, a = inr e) \/ (exists e, b = inr e).
Proof.
  intros [x|e] [y|e']; cbn; split; intros H; try (now left; eexists); try (now right; eexists);
    try (eexists; reflexivity).
  - destruct H as [e H]; discriminate.
  - destruct H as [[e H]|[e H]]; discriminate.
Qed.

Lemma section_error : forall A msg (enc : A -> bytes) items idx,
  (exists e, section_bytes msg enc (pick items idx) = inr e) <-> ~ below items idx.
Proof.
  intros A msg enc items idx. rewrite <- (section_ok A msg enc).
  destruct (section_bytes msg enc (pick items idx)) as [x|e]; split.
  - intros [e H]; discriminate.
  - intros H. exfalso. apply H. eexists; reflexivity.
  - intros _ [x H]; discriminate.
  - intros _. eexists; reflexivity.
Qed.

Lemma below_dec : forall A (items : list A) idx, below items idx \/ ~ below items idx.
Proof.
  intros A items idx. pose proof (section_ok A "" (fun _ => []) items idx) as H1.
  pose proof (section_error A "" (fun _ => []) items idx) as H2.
  destruct (section_bytes "" (fun _ => []) (pick items idx)) as [x|e].
  - left. apply H1. eexists; reflexivity.
  - right. apply H2. eexists; reflexivity.
Qed.

Lemma partial_sig_error : forall t cs c,
  (exists e, partial_sig_hash t cs c = inr e) <-> ~ InRange t c.
Proof.
  intros t cs c. unfold partial_sig_hash.
  assert (H : (exists e, partial_sig_preimage t cs c = inr e) <-> ~ InRange t c).
  { unfold partial_sig_preimage. rewrite !cover_pick.
    repeat setoid_rewrite cat_error. rewrite !section_error. unfold InRange.
    set (b1 := below _ (vlist (cf_siacoin_inputs c))). set (b2 := below _ (vlist (cf_siacoin_outputs c))).
    set (b3 := below _ (vlist (cf_file_contracts c))). set (b4 := below _ (vlist (cf_file_contract_revisions c))).
    set (b5 := below _ (vlist (cf_storage_proofs c))). set (b6 := below _ (vlist (cf_siafund_inputs c))).
    set (b7 := below _ (vlist (cf_siafund_outputs c))). set (b8 := below _ (vlist (cf_miner_fees c))).
    set (b9 := below _ (vlist (cf_arbitrary_data c))). set (b10 := below _ (vlist (cf_signatures c))).
    split; [tauto|].
    pose proof (below_dec _ (vlist (v1t_siacoin_inputs t)) (vlist (cf_siacoin_inputs c)) : b1 \/ ~ b1).
    pose proof (below_dec _ (vlist (v1t_siacoin_outputs t)) (vlist (cf_siacoin_outputs c)) : b2 \/ ~ b2).
    pose proof (below_dec _ (vlist (v1t_file_contracts t)) (vlist (cf_file_contracts c)) : b3 \/ ~ b3).
    pose proof (below_dec _ (vlist (v1t_file_contract_revisions t)) (vlist (cf_file_contract_revisions c)) : b4 \/ ~ b4).
    pose proof (below_dec _ (vlist (v1t_storage_proofs t)) (vlist (cf_storage_proofs c)) : b5 \/ ~ b5).
    pose proof (below_dec _ (vlist (v1t_siafund_inputs t)) (vlist (cf_siafund_inputs c)) : b6 \/ ~ b6).
    pose proof (below_dec _ (vlist (v1t_siafund_outputs t)) (vlist (cf_siafund_outputs c)) : b7 \/ ~ b7).
    pose proof (below_dec _ (vlist (v1t_miner_fees t)) (vlist (cf_miner_fees c)) : b8 \/ ~ b8).
    pose proof (below_dec _ (vlist (v1t_arbitrary_data t)) (vlist (cf_arbitrary_data c)) : b9 \/ ~ b9).
    pose proof (below_dec _ (vlist (v1t_signatures t)) (vlist (cf_signatures c)) : b10 \/ ~ b10).
    clearbody b1 b2 b3 b4 b5 b6 b7 b8 b9 b10. tauto. }
  rewrite <- H. destruct (partial_sig_preimage t cs c) as [x|e]; split; intros [e' He]; try discriminate;
    eexists; reflexivity.
Qed.

Lemma partial_sig_depends : forall t u cs cs' c d,
  SameCovered t c u d -> replay_prefix cs = replay_prefix cs' ->
  partial_sig_hash t cs c = partial_sig_hash u cs' d.
Proof.
  intros t u cs cs' c d (H1 & H2 & H3 & H4 & H5 & H6 & H7 & H8 & H9 & H10) Hp.
  unfold partial_sig_hash, partial_sig_preimage. rewrite !cover_pick, Hp.
  now rewrite H1, H2, H3, H4, H5, H6, H7, H8, H9, H10.
Qed.

(** The replay prefix is used only for inputs. *)
Lemma partial_sig_no_inputs : forall t cs cs' c, ~ covers_inputs c ->
  partial_sig_hash t cs c = partial_sig_hash t cs' c.
Proof.
  intros t cs cs' c H. unfold partial_sig_hash, partial_sig_preimage. rewrite !cover_pick.
  assert (H1 : vlist (cf_siacoin_inputs c) = []).
  { destruct (vlist (cf_siacoin_inputs c)) eqn:E; [reflexivity|]. exfalso. apply H. left. congruence. }
  assert (H2 : vlist (cf_siafund_inputs c) = []).
  { destruct (vlist (cf_siafund_inputs c)) eqn:E; [reflexivity|]. exfalso. apply H. right. congruence. }
  now rewrite H1, H2.
Qed.

Lemma section_splits : forall A msg msg' (e : A -> bytes) l l' x x' y y',
  Splits always eq e -> length l = length l' ->
  section_bytes msg e l = inl x -> section_bytes msg' e l' = inl x' ->
  x ++ y = x' ++ y' -> l = l' /\ y = y'.
Proof.
  intros A msg msg' e l l' x x' y y' He Hl H H' E. unfold section_bytes in *.
  destruct (all_some l) as [r|] eqn:R; [|discriminate]. destruct (all_some l') as [r'|] eqn:R'; [|discriminate].
  injection H as <-. injection H' as <-.
  apply (concat_splits _ _ _ _ He) in E as [Hf ->].
  2:{ apply forall2_always. rewrite (all_some_length _ _ _ R), (all_some_length _ _ _ R'). exact Hl. }
  split; [|reflexivity]. rewrite (all_some_map _ _ _ R), (all_some_map _ _ _ R'). f_equal.
  clear - Hf. induction Hf; congruence.
Qed.

Lemma section_prefixed : forall A msg msg' p p' (e : A -> bytes) l l' x x' y y',
  Splits always eq e -> length p = length p' -> length l = length l' ->
  section_bytes msg (fun i => p ++ e i) l = inl x -> section_bytes msg' (fun i => p' ++ e i) l' = inl x' ->
  x ++ y = x' ++ y' -> l = l' /\ (l <> [] -> p = p') /\ y = y'.
Proof.
  intros A msg msg' p p' e l l' x x' y y' He Hp Hl H H' E. unfold section_bytes in *.
  destruct (all_some l) as [r|] eqn:R; [|discriminate]. destruct (all_some l') as [r'|] eqn:R'; [|discriminate].
  injection H as <-. injection H' as <-.
  apply (prefixed_splits _ _ He) in E as (Hf & Hpp & ->); [|exact Hp|].
  2:{ rewrite (all_some_length _ _ _ R), (all_some_length _ _ _ R'). exact Hl. }
  rewrite (all_some_map _ _ _ R), (all_some_map _ _ _ R'). rewrite Hf. split; [reflexivity|].
  split; [|reflexivity]. intros Hne. apply Hpp. intros ->. subst r'. now apply Hne.
Qed.

Lemma pick_length : forall A (items : list A) idx, length (pick items idx) = length idx.
Proof. intros. unfold pick. apply map_length. Qed.

Lemma pick_nonempty : forall A (items : list A) idx, idx <> [] -> pick items idx <> [].
Proof. intros A items [|i idx] H; [contradiction|discriminate]. Qed.

Lemma rt_fields_sig : Splits always eq (fun x => wbytes (encode_transaction_signature x)).
Proof. exact (rt_splits _ _ _ rt_transaction_signature). Qed.
Lemma rt_data : RoundTrip (@encode_vec 1 u8 encode_u8) (decode_vec 1 decode_u8).
Proof. eauto with rt prop. Qed.

Lemma partial_sig_binding : forall t u cs cs' c d x,
  SameShape c d -> length (replay_prefix cs) = length (replay_prefix cs') ->
  partial_sig_preimage t cs c = inl x -> partial_sig_preimage u cs' d = inl x ->
  SameCovered t c u d /\ (covers_inputs c -> replay_prefix cs = replay_prefix cs').
Proof.
  intros t u cs cs' c d x (S1 & S2 & S3 & S4 & S5 & S6 & S7 & S8 & S9 & S10) Hp H H'.
  unfold partial_sig_preimage in H, H'. rewrite !cover_pick in H, H'.
  repeat (apply cat_inl in H; let a := fresh "a" in let r := fresh "r" in let A := fresh "A" in let Z := fresh "Z" in
    destruct H as (a & r & A & H & Z)).
  repeat (apply cat_inl in H'; let a := fresh "b" in let r := fresh "q" in let A := fresh "B" in let Z := fresh "Y" in
    destruct H' as (a & r & A & H' & Z)).
  rewrite Z in Y. clear Z. unfold SameCovered.
  eapply (section_prefixed _ _ _ _ _ (fun i => wbytes (encode_v1_siacoin_input i))) in Y as (E1 & P1 & Y);
    [|exact (rt_splits _ _ _ rt_v1_siacoin_input)|exact Hp|rewrite !pick_length; exact S1|exact A|exact B].
  rewrite Z0, Y0 in Y.
  eapply section_splits in Y as [E2 Y];
    [|exact (rt_splits _ _ _ rt_v1_siacoin_output)|rewrite !pick_length; exact S2|exact A0|exact B0].
  rewrite Z1, Y1 in Y.
  eapply section_splits in Y as [E3 Y];
    [|exact (rt_splits _ _ _ rt_v1_file_contract)|rewrite !pick_length; exact S3|exact A1|exact B1].
  rewrite Z2, Y2 in Y.
  eapply section_splits in Y as [E4 Y];
    [|exact (rt_splits _ _ _ rt_v1_file_contract_revision)|rewrite !pick_length; exact S4|exact A2|exact B2].
  rewrite Z3, Y3 in Y.
  eapply section_splits in Y as [E5 Y];
    [|exact (rt_splits _ _ _ rt_v1_storage_proof)|rewrite !pick_length; exact S5|exact A3|exact B3].
  rewrite Z4, Y4 in Y.
  eapply (section_prefixed _ _ _ _ _ (fun i => wbytes (encode_v1_siafund_input i))) in Y as (E6 & P6 & Y);
    [|exact (rt_splits _ _ _ rt_v1_siafund_input)|exact Hp|rewrite !pick_length; exact S6|exact A4|exact B4].
  rewrite Z5, Y5 in Y.
  eapply section_splits in Y as [E7 Y];
    [|exact (rt_splits _ _ _ rt_v1_siafund_output)|rewrite !pick_length; exact S7|exact A5|exact B5].
  rewrite Z6, Y6 in Y.
  eapply section_splits in Y as [E8 Y];
    [|exact (rt_splits _ _ _ rt_v1_currency)|rewrite !pick_length; exact S8|exact A6|exact B6].
  rewrite Z7, Y7 in Y.
  eapply section_splits in Y as [E9 Y];
    [|exact (rt_splits _ _ _ rt_data)|rewrite !pick_length; exact S9|exact A7|exact B7].
  apply (f_equal (fun l => l ++ [])) in Y.
  eapply section_splits in Y as [E10 _];
    [|exact rt_fields_sig|rewrite !pick_length; exact S10|exact H|exact H'].
  split; [repeat (split; [assumption|]); assumption|].
  intros [Hc|Hc]; [apply P1|apply P6]; now apply pick_nonempty.
Qed.

Lemma partial_sig_hash_binding : forall t u cs cs' c d x y,
  SameShape c d -> length (replay_prefix cs) = length (replay_prefix cs') ->
  partial_sig_preimage t cs c = inl x -> partial_sig_preimage u cs' d = inl y ->
  partial_sig_hash t cs c = partial_sig_hash u cs' d ->
  (SameCovered t c u d /\ (covers_inputs c -> replay_prefix cs = replay_prefix cs')) \/ Collision [x] [y].
Proof.
  intros t u cs cs' c d x y Hs Hp Hx Hy E. unfold partial_sig_hash in E. rewrite Hx, Hy in E.
  apply (f_equal (fun r => match r with inl h => h | inr _ => zero_hash end)) in E. cbv beta iota in E.
  apply hash_or_collision in E as [->|E]; [|now right]. left. eapply partial_sig_binding; eassumption.
Qed.

(** ** v2: the semantic encodings *)

Lemma prop_fc_sem : Propagates fc_encode_semantics.
Proof. prop_struct fc_encode_semantics. Qed.
#[local] Hint Resolve prop_fc_sem : prop.
Lemma prop_ren_sem : Propagates ren_encode_semantics.
Proof. prop_struct ren_encode_semantics. Qed.
Lemma prop_att_sem : Propagates att_encode_semantics.
Proof. prop_struct att_encode_semantics. Qed.
Lemma prop_fcr_sem : Propagates fcr_encode_semantics.
Proof. prop_struct fcr_encode_semantics. Qed.
Lemma prop_cie_sem : Propagates cie_encode_semantics.
Proof. prop_struct cie_encode_semantics. Qed.
#[local] Hint Resolve prop_ren_sem prop_att_sem prop_fcr_sem prop_cie_sem : prop.
Lemma prop_sp_sem : Propagates sp_encode_semantics.
Proof. prop_struct sp_encode_semantics. Qed.
#[local] Hint Resolve prop_sp_sem : prop.
Lemma prop_fcres_sem : Propagates fcres_encode_semantics.
Proof.
  intros r. unfold fcres_encode_semantics. apply propagates_app; [apply prop_hash|].
  destruct (fcres_resolution r); [apply prop_ren_sem|apply prop_sp_sem|apply propagates_nil].
Qed.
Lemma prop_each : forall sz A (e : A -> wprog), Propagates e -> Propagates (@encode_each sz A e).
Proof. intros sz A e H v. exact (prop_slice A e H (vlist v)). Qed.
Lemma prop_sci_id : Propagates (fun i => encode_hash (sce_id (v2sci_parent i))).
Proof. intros i. apply prop_hash. Qed.
Lemma prop_sfi_id : Propagates (fun i => encode_hash (sfe_id (v2sfi_parent i))).
Proof. intros i. apply prop_hash. Qed.
#[local] Hint Resolve prop_fcres_sem prop_each prop_sci_id prop_sfi_id : prop.

(** The contract, with zero signatures. *)
Definition unsigned_contract (c : v2_file_contract) : v2_file_contract :=
  MkV2Fc (v2fc_capacity c) (v2fc_filesize c) (v2fc_file_merkle_root c) (v2fc_proof_height c)
    (v2fc_expiration_height c) (v2fc_renter_output c) (v2fc_host_output c)
    (v2fc_missed_host_value c) (v2fc_total_collateral c) (v2fc_renter_public_key c)
    (v2fc_host_public_key c) (v2fc_revision_number c) zero_signature zero_signature.

Lemma fc_sem_unsigned : forall c, fc_encode_semantics c = encode_v2_file_contract (unsigned_contract c).
Proof. reflexivity. Qed.

Lemma same_contract : forall c d, unsigned_contract c = unsigned_contract d <-> SameContract c d.
Proof.
  intros c d. split.
  - intros H. exists (v2fc_renter_signature d), (v2fc_host_signature d).
    destruct c, d. unfold unsigned_contract in H. cbn in *. inversion H. reflexivity.
  - intros (r & h & ->). reflexivity.
Qed.

Lemma fc_sem_splits : Splits always SameContract (fun c => wbytes (fc_encode_semantics c)).
Proof.
  intros c d x y _ E. rewrite !fc_sem_unsigned in E.
  apply (rt_splits _ _ _ rt_v2_file_contract) in E as [E ->]; [|exact I].
  split; [now apply same_contract|reflexivity].
Qed.

Lemma ren_sem_splits : Splits always SameRenewal (fun r => wbytes (ren_encode_semantics r)).
Proof.
  intros r s x y _ E. unfold ren_encode_semantics in E.
  repeat rewrite wbytes_app_p in E by prop_tac. rewrite <- !app_assoc in E.
  apply fc_sem_splits in E as [E1 E]; [|exact I]. apply fc_sem_splits in E as [E2 E]; [|exact I].
  split_field E rt_currency. split_field E rt_currency. do 2 apply app_inv_head in E.
  split; [|exact E]. repeat split; assumption.
Qed.

Lemma att_sem_splits : Splits always SameAttestation (fun a => wbytes (att_encode_semantics a)).
Proof.
  intros a b x y _ E. unfold att_encode_semantics in E.
  repeat rewrite wbytes_app_p in E by prop_tac. rewrite <- !app_assoc in E.
  split_field E rt_hash. split_field E rt_string. split_field E rt_data. apply app_inv_head in E.
  split; [|exact E]. exists (att_signature b). destruct a, b; cbn in *. congruence.
Qed.

Lemma fcr_sem_splits : Splits always SameRevision (fun r => wbytes (fcr_encode_semantics r)).
Proof.
  intros r s x y _ E. unfold fcr_encode_semantics in E.
  repeat rewrite wbytes_app_p in E by prop_tac. rewrite <- !app_assoc in E.
  split_field E rt_hash. apply fc_sem_splits in E as [E1 E]; [|exact I].
  split; [|exact E]. split; assumption.
Qed.

Lemma rt_hashes : RoundTrip (@encode_vec 32 _ encode_hash) (decode_vec 32 decode_hash).
Proof. eauto with rt prop. Qed.

Lemma sp_sem_splits : Splits always SameProof (fun p => wbytes (sp_encode_semantics p)).
Proof.
  intros p q x y _ E. unfold sp_encode_semantics, cie_encode_semantics in E.
  repeat rewrite wbytes_app_p in E by prop_tac. rewrite <- !app_assoc in E.
  split_field E rt_u64. apply app_inv_head in E. split_field E rt_hash. split_field E rt_chain_index.
  split_field E rt_leaf. split_field E rt_hashes. split; [|exact E]. repeat split; assumption.
Qed.

Lemma fcres_sem_splits : Splits (fun r s => SameKind (fcres_resolution r) (fcres_resolution s)) SameResolution
  (fun r => wbytes (fcres_encode_semantics r)).
Proof.
  intros r s x y HK E. unfold fcres_encode_semantics in E.
  rewrite !wbytes_app_p in E by apply prop_hash. rewrite <- !app_assoc in E. split_field E rt_hash.
  unfold SameResolution.
  destruct HK as [a b|a b|].
  - apply ren_sem_splits in E as [H ->]; [|exact I]. split; [|reflexivity]. split; [assumption|]. now constructor.
  - apply sp_sem_splits in E as [H ->]; [|exact I]. split; [|reflexivity]. split; [assumption|]. now constructor.
  - split; [|exact E]. split; [assumption|]. constructor.
Qed.

Lemma wbytes_each : forall sz A (e : A -> wprog) (v : vec sz A), Propagates e ->
  wbytes (encode_each e v) = le_bytes 8 (N.of_nat (length (vlist v))) ++ concat (map (fun a => wbytes (e a)) (vlist v)).
Proof.
  intros sz A e v H. unfold encode_each. rewrite wbytes_app_p by apply prop_uint.
  rewrite concat_same by exact H. unfold encode_usize. rewrite wbytes_uint by discriminate.
  now rewrite uwrap_small by apply vec_len_lt.
Qed.

Lemma each_splits : forall sz A (Q R : A -> A -> Prop) (e : A -> wprog), Propagates e ->
  Splits Q R (fun a => wbytes (e a)) -> forall (v w : vec sz A) x y,
  (length (vlist v) = length (vlist w) -> Forall2 Q (vlist v) (vlist w)) ->
  wbytes (encode_each e v) ++ x = wbytes (encode_each e w) ++ y ->
  Forall2 R (vlist v) (vlist w) /\ x = y.
Proof.
  intros sz A Q R e Hp H v w x y HQ E. rewrite !wbytes_each in E by exact Hp. rewrite <- !app_assoc in E.
  apply le8_splits in E as [L E]; [|apply vec_len_lt|apply vec_len_lt].
  eapply concat_splits in E; [exact E|exact H|]. apply HQ. lia.
Qed.

Lemma each_always : forall sz A (R : A -> A -> Prop) (e : A -> wprog), Propagates e ->
  Splits always R (fun a => wbytes (e a)) -> forall (v w : vec sz A) x y,
  wbytes (encode_each e v) ++ x = wbytes (encode_each e w) ++ y ->
  Forall2 R (vlist v) (vlist w) /\ x = y.
Proof.
  intros sz A R e Hp H v w x y E. eapply each_splits; [exact Hp|exact H| |exact E].
  intros L. now apply forall2_always.
Qed.

Lemma forall2_map : forall A B (f : A -> B) l l', Forall2 (fun a b => f a = f b) l l' -> map f l = map f l'.
Proof. intros A B f l l' H. induction H; cbn; congruence. Qed.

Lemma map_forall2 : forall A B (f : A -> B) l l', map f l = map f l' -> Forall2 (fun a b => f a = f b) l l'.
Proof.
  induction l as [|a l IH]; intros [|b l'] H; cbn in H; try discriminate; constructor.
  - congruence.
  - apply IH. congruence.
Qed.

Lemma wbytes_txn_sem : forall t, wbytes (txn_encode_semantics t) =
  wbytes (encode_each (fun i => encode_hash (sce_id (v2sci_parent i))) (v2t_siacoin_inputs t)) ++
  wbytes (encode_vec encode_siacoin_output (v2t_siacoin_outputs t)) ++
  wbytes (encode_each (fun i => encode_hash (sfe_id (v2sfi_parent i))) (v2t_siafund_inputs t)) ++
  wbytes (encode_vec encode_siafund_output (v2t_siafund_outputs t)) ++
  wbytes (encode_each fc_encode_semantics (v2t_file_contracts t)) ++
  wbytes (encode_each fcr_encode_semantics (v2t_file_contract_revisions t)) ++
  wbytes (encode_each fcres_encode_semantics (v2t_file_contract_resolutions t)) ++
  wbytes (encode_vec encode_attestation (v2t_attestations t)) ++
  wbytes (encode_vec encode_u8 (v2t_arbitrary_data t)) ++
  wbytes (encode_option encode_hash (v2t_new_foundation_address t)) ++
  wbytes (encode_currency (v2t_miner_fee t)).
Proof. intros t. unfold txn_encode_semantics. split_wbytes. reflexivity. Qed.

Lemma rt_v2_sco : RoundTrip (@encode_vec 48 _ encode_siacoin_output) (decode_vec 48 decode_siacoin_output).
Proof. eauto with rt prop. Qed.
Lemma rt_v2_sfo : RoundTrip (@encode_vec 40 _ encode_siafund_output) (decode_vec 40 decode_siafund_output).
Proof. eauto with rt prop. Qed.
Lemma rt_v2_att : RoundTrip (@encode_vec 144 _ encode_attestation) (decode_vec 144 decode_attestation).
Proof. eauto with rt prop. Qed.
Lemma rt_v2_addr : RoundTrip (encode_option encode_hash) (decode_option decode_hash).
Proof. eauto with rt prop. Qed.

Lemma same_id_splits : forall A (f : A -> hash256), Splits always (fun a b => f a = f b) (fun a => wbytes (encode_hash (f a))).
Proof. intros A f a b x y _ E. rewrite !wbytes_hash in E. now apply hash_splits in E. Qed.

Lemma txn_sem_binding : forall t u, SameKinds t u ->
  wbytes (txn_encode_semantics t) = wbytes (txn_encode_semantics u) -> SameButClaims t u.
Proof.
  intros t u HK E. rewrite !wbytes_txn_sem in E.
  apply (each_always _ _ _ _ prop_sci_id (same_id_splits _ (fun i => sce_id (v2sci_parent i)))) in E as [E1 E].
  split_field E rt_v2_sco.
  apply (each_always _ _ _ _ prop_sfi_id (same_id_splits _ (fun i => sfe_id (v2sfi_parent i)))) in E as [E3 E].
  split_field E rt_v2_sfo.
  apply (each_always _ _ _ _ prop_fc_sem fc_sem_splits) in E as [E5 E].
  apply (each_always _ _ _ _ prop_fcr_sem fcr_sem_splits) in E as [E6 E].
  apply (each_splits _ _ _ _ _ prop_fcres_sem fcres_sem_splits) in E as [E7 E]; [|intros _; exact HK].
  split_field E rt_v2_att. split_field E rt_data. split_field E rt_v2_addr.
  apply (f_equal (fun l => l ++ [])) in E. split_field E rt_currency.
  unfold SameButClaims, siacoin_parents, siafund_parents.
  repeat split; try assumption; now apply forall2_map.
Qed.

Lemma each_same : forall sz A (R : A -> A -> Prop) (e : A -> wprog) (v w : vec sz A),
  (forall a b, R a b -> e a = e b) -> Forall2 R (vlist v) (vlist w) -> encode_each e v = encode_each e w.
Proof.
  intros sz A R e v w He H. unfold encode_each.
  assert (E : map e (vlist v) = map e (vlist w)) by (induction H; cbn; [reflexivity|f_equal; auto]).
  assert (L : length (vlist v) = length (vlist w)) by (clear E; induction H; cbn; congruence).
  now rewrite E, L.
Qed.

Lemma fc_sem_same : forall c d, SameContract c d -> fc_encode_semantics c = fc_encode_semantics d.
Proof. intros c d (r & h & ->). reflexivity. Qed.
Lemma fcr_sem_same : forall r s, SameRevision r s -> fcr_encode_semantics r = fcr_encode_semantics s.
Proof. intros r s [H1 H2]. unfold fcr_encode_semantics. now rewrite H1, (fc_sem_same _ _ H2). Qed.
Lemma ren_sem_same : forall r s, SameRenewal r s -> ren_encode_semantics r = ren_encode_semantics s.
Proof.
  intros r s (H1 & H2 & H3 & H4). unfold ren_encode_semantics.
  now rewrite (fc_sem_same _ _ H1), (fc_sem_same _ _ H2), H3, H4.
Qed.
Lemma att_sem_same : forall a b, SameAttestation a b -> att_encode_semantics a = att_encode_semantics b.
Proof. intros a b [s ->]. reflexivity. Qed.
Lemma sp_sem_same : forall p q, SameProof p q -> sp_encode_semantics p = sp_encode_semantics q.
Proof.
  intros p q (H1 & H2 & H3 & H4 & H5). unfold sp_encode_semantics, cie_encode_semantics.
  now rewrite H1, H2, H3, H4, H5.
Qed.
Lemma fcres_sem_same : forall r s, SameResolution r s -> fcres_encode_semantics r = fcres_encode_semantics s.
Proof.
  intros r s [H1 H2]. unfold fcres_encode_semantics. rewrite H1. f_equal.
  destruct H2; [now apply ren_sem_same|now apply sp_sem_same|reflexivity].
Qed.

Lemma txn_sem_same : forall t u, SameButClaims t u -> txn_encode_semantics t = txn_encode_semantics u.
Proof.
  intros t u (H1 & H2 & H3 & H4 & H5 & H6 & H7 & H8 & H9 & H10 & H11). unfold txn_encode_semantics.
  rewrite H2, H4, H8, H9, H10, H11.
  rewrite (each_same _ _ (fun i j => sce_id (v2sci_parent i) = sce_id (v2sci_parent j)) _
    (v2t_siacoin_inputs t) (v2t_siacoin_inputs u)); [|intros a b ->; reflexivity|now apply map_forall2].
  rewrite (each_same _ _ (fun i j => sfe_id (v2sfi_parent i) = sfe_id (v2sfi_parent j)) _
    (v2t_siafund_inputs t) (v2t_siafund_inputs u)); [|intros a b ->; reflexivity|now apply map_forall2].
  rewrite (each_same _ _ _ _ _ _ fc_sem_same H5), (each_same _ _ _ _ _ _ fcr_sem_same H6),
    (each_same _ _ _ _ _ _ fcres_sem_same H7). reflexivity.
Qed.

(** ** v2: identifiers and signature hashes *)

Lemma txid_binding : forall t u, SameKinds t u -> v2_transaction_id t = v2_transaction_id u ->
  SameButClaims t u \/ Collision [v2_transaction_preimage t] [v2_transaction_preimage u].
Proof.
  intros t u HK E. apply hash_or_collision in E as [E|E]; [|now right]. left. now apply txn_sem_binding.
Qed.

Lemma input_sig_binding : forall t u cs cs', SameKinds t u ->
  length (replay_prefix cs) = length (replay_prefix cs') ->
  input_sig_hash t cs = input_sig_hash u cs' ->
  (SameButClaims t u /\ replay_prefix cs = replay_prefix cs') \/
  Collision [input_sig_preimage t cs] [input_sig_preimage u cs'].
Proof.
  intros t u cs cs' HK Hp E. apply hash_or_collision in E as [E|E]; [|now right]. left.
  unfold input_sig_preimage in E. apply app_inv_head in E. apply app_len_inj in E as [E1 E2]; [|exact Hp].
  split; [now apply txn_sem_binding|exact E1].
Qed.

Lemma txid_ignores : forall t u, SameButClaims t u -> v2_transaction_id t = v2_transaction_id u.
Proof. intros t u H. unfold v2_transaction_id, v2_transaction_preimage. now rewrite (txn_sem_same _ _ H). Qed.
Lemma input_sig_ignores : forall t u cs, SameButClaims t u -> input_sig_hash t cs = input_sig_hash u cs.
Proof. intros t u cs H. unfold input_sig_hash, input_sig_preimage. now rewrite (txn_sem_same _ _ H). Qed.

Lemma fc_sig_ignores : forall c d cs, SameContract c d -> fc_sig_hash c cs = fc_sig_hash d cs.
Proof. intros c d cs H. unfold fc_sig_hash, fc_sig_preimage. now rewrite (fc_sem_same _ _ H). Qed.
Lemma ren_sig_ignores : forall r s cs, SameRenewal r s -> ren_sig_hash r cs = ren_sig_hash s cs.
Proof. intros r s cs H. unfold ren_sig_hash, ren_sig_preimage. now rewrite (ren_sem_same _ _ H). Qed.
Lemma att_sig_ignores : forall a b cs, SameAttestation a b -> att_sig_hash a cs = att_sig_hash b cs.
Proof. intros a b cs H. unfold att_sig_hash, att_sig_preimage. now rewrite (att_sem_same _ _ H). Qed.

Lemma fc_sem_length : forall c d, length (wbytes (fc_encode_semantics c)) = length (wbytes (fc_encode_semantics d)).
Proof.
  intros c d. unfold fc_encode_semantics, encode_siacoin_output, encode_currency, encode_signature, encode_hash, encode_arr.
  repeat rewrite wbytes_app_p by prop_tac.
  repeat rewrite app_length. rewrite !wbytes_u64, !le_bytes_length.
  repeat rewrite wbytes_write_all. rewrite !arr_len. reflexivity.
Qed.
