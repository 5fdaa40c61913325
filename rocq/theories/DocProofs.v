(** Proofs: the documents of the JSON serialisers have the forms of the specification. *)

From Coq Require Import DecimalString.
From Verif Require Import Base Blake2b SpecText SpecBase64 SpecFormat SpecJson Model_encoding Model_currency Model_common
  Model_v1 Model_policy Model_v2 Model_consensus Model_text Model_json Model_jsontypes TextProofs CurrencyProofs
  Base64Spec JsonProofs JsonTypeProofs JsonStateProofs SpecDoc DocTime.
Local Open Scope N_scope.
Local Open Scope jres_scope.

Definition Doc {A} (c : codec A) (f : A -> form) : Prop := forall a j, c_ser c a = JOk j -> f a j.

(** ** Leaves *)

Lemma jok_inj : forall A (a b : A), JOk a = JOk b -> a = b.
Proof. congruence. Qed.

Lemma jbind_ok : forall A B (m : jres A) (f : A -> jres B) b, jbind m f = JOk b ->
  exists a, m = JOk a /\ f a = JOk b.
Proof. intros A B m f b H. destruct m; try discriminate. eauto. Qed.

Lemma doc_u64 : Doc j_u64 is_u64.
Proof. intros a j H. apply jok_inj in H. subst. now exists a. Qed.

Lemma doc_u8 : forall b j, c_ser j_u8 b = JOk j -> is_number (b2n b) j.
Proof.
  intros b j H. apply jok_inj in H. subst. exists (uwrap 64 (b2n b)). split; [reflexivity|].
  apply uwrap_small. pose proof (b2n_lt b). change (2 ^ 64) with 18446744073709551616. lia.
Qed.

Lemma doc_bool : Doc j_bool is_bool.
Proof. intros a j H. apply jok_inj in H. now subst. Qed.

Lemma doc_string : Doc j_string is_string.
Proof. intros a j H. apply jok_inj in H. now subst. Qed.

Lemma doc_hash : Doc j_hash is_hash.
Proof. intros a j H. apply jok_inj in H. subst. unfold is_hash, is_text, hash_text. now rewrite hex_encode_hex. Qed.

Lemma doc_leaf : Doc j_leaf is_leaf.
Proof. intros a j H. apply jok_inj in H. subst. unfold is_leaf, is_text, leaf_text. now rewrite hex_encode_hex. Qed.

Lemma doc_signature : Doc j_signature is_signature.
Proof. intros a j H. apply jok_inj in H. subst. unfold is_signature, is_text, signature_text. now rewrite hex_encode_hex. Qed.

Lemma doc_address : Doc j_address is_address.
Proof. intros a j H. apply jok_inj in H. subst. unfold is_address, is_text, address_text. now rewrite hex_encode_hex. Qed.

Lemma doc_public_key : Doc j_public_key is_public_key.
Proof. intros a j H. apply jok_inj in H. subst. unfold is_public_key, is_text, public_key_text. now rewrite hex_encode_hex. Qed.

Lemma doc_currency : forall p, Doc (j_currency p) is_currency.
Proof. intros p a j H. apply jok_inj in H. subst. unfold is_currency, is_text, currency_text. now rewrite dec_text_decimal. Qed.

Lemma doc_work : Doc j_work is_work.
Proof. intros a j H. apply jok_inj in H. subst. unfold is_work, is_text, work_text. now rewrite dec_text_decimal. Qed.

Lemma ser_text_ok : forall t j, ser_text t = JOk j -> j = JStr t.
Proof. intros t j. unfold ser_text. destruct (_ <=? _); [|discriminate]. intros H. now apply jok_inj in H. Qed.

Lemma doc_base64 : Doc j_base64 is_payload.
Proof. intros a j H. apply ser_text_ok in H. subst. exists (b64_encode (vlist a)). split; [reflexivity|]. apply encode_is_base64. Qed.

Lemma doc_odt : Doc j_odt is_time.
Proof.
  intros a j H. cbn [j_odt c_ser] in H. unfold ser_odt in H. destruct (rfc3339_text a) as [s|] eqn:E; [|discriminate].
  apply jok_inj in H. subst. exists s. split; [reflexivity|]. now apply rfc3339_form.
Qed.

Lemma wrap_mod : forall z, Z.of_N (uval (uwrap 64 (Z.to_N (z mod 2 ^ 64)))) = (z mod 2 ^ 64)%Z.
Proof.
  intros z. pose proof (Z.mod_pos_bound z (2 ^ 64) ltac:(lia)) as B.
  rewrite uwrap_small; [now rewrite Z2N.id|]. change (2 ^ 64)%Z with (Z.of_N (2 ^ 64)) in *. lia.
Qed.

Lemma doc_duration : Doc j_duration is_duration.
Proof.
  intros a j H. apply jok_inj in H. subst. exists (whole_nanoseconds_u64 a). split; [reflexivity|]. apply wrap_mod.
Qed.

Lemma doc_unlock_key : Doc j_unlock_key is_unlock_key.
Proof.
  intros a j H. cbn [j_unlock_key c_ser] in H. apply jbind_ok in H. destruct H as (t & Ht & H). apply ser_text_ok in H. subst.
  destruct (unlock_key_text a) as [t'|] eqn:E; [|discriminate]. apply jok_inj in Ht. subst t'.
  destruct (unlock_key_text_inv _ _ E) as (s & Hs & ->). unfold specifier_text in Hs.
  destruct (utf8_valid _); [|discriminate]. injection Hs as <-.
  destruct (trim_zeros_spec (aval (uk_algorithm a))) as [n Hn]. exists (trim_zeros (aval (uk_algorithm a))), n.
  repeat split; [exact Hn|apply trim_zeros_no_trailing|]. now rewrite hex_encode_hex.
Qed.

(** ** Lists *)

Lemma jmap_forall2 : forall A (ser : jser A) (f : A -> form), (forall a j, ser a = JOk j -> f a j) ->
  forall l js, jmap ser l = JOk js -> Forall2 f l js.
Proof.
  intros A ser f H l. induction l as [|a l IH]; intros js E; cbn [jmap] in E.
  - apply jok_inj in E. subst. constructor.
  - apply jbind_ok in E. destruct E as (x & Ex & E). apply jbind_ok in E. destruct E as (xs & Exs & E).
    apply jok_inj in E. subst. constructor; auto.
Qed.

Lemma doc_list : forall A (c : codec A) f, Doc c f -> Doc (j_list c) (is_list f).
Proof.
  intros A c f H l j E. cbn [j_list c_ser] in E. unfold ser_list in E. apply jbind_ok in E. destruct E as (js & Ej & E).
  apply jok_inj in E. subst. exists js. split; [reflexivity|]. eapply jmap_forall2; eauto.
Qed.

Lemma doc_vec : forall A sz (c : codec A) f, Doc c f -> Doc (j_vec sz c) (is_vec f).
Proof. intros A sz c f H l j E. exact (doc_list A c f H (vlist l) j E). Qed.

Lemma doc_vec_base64 : Doc j_vec_base64 (is_vec is_payload).
Proof.
  intros v j E. exact (doc_list _ j_base64 is_payload doc_base64 (vlist v) j E).
Qed.

Lemma doc_timestamps : Doc j_timestamps is_timestamps.
Proof. intros v j E. exact (doc_list _ j_odt is_time doc_odt (flist v) j E). Qed.

Lemma doc_specifier : Doc j_specifier is_specifier.
Proof. intros v j E. exact (doc_list _ j_u8 (fun b => is_number (b2n b)) doc_u8 (aval v) j E). Qed.

(** ** Objects *)

Definition Entries (es : list entry) (l : list (bytes * json)) : Prop :=
  Forall2 (fun (e : entry) x => fst x = ascii (fst e) /\ snd e (snd x)) es l.

Definition FieldsDoc {T} (fs : fields T) (t : T) (es : list entry) : Prop :=
  forall l, ser_fields fs t = JOk l -> Entries es l.

Lemma fd_nil : forall t, FieldsDoc FNil t [].
Proof. intros t l H. apply jok_inj in H. subst. constructor. Qed.

Lemma fd_plain : forall A T k (c : codec A) (f : A -> form) (fs : fields T) a t es,
  Doc c f -> FieldsDoc fs t es -> FieldsDoc (plain k c #: fs) (a, t) (req k (f a) ++ es).
Proof.
  intros A T k c f fs a t es Hc Hf l H. cbn [ser_fields plain f_skip f_ser f_name fst snd] in H.
  apply jbind_ok in H. destruct H as (v & Hv & H). apply jbind_ok in H. destruct H as (r & Hr & H).
  apply jok_inj in H. subst. constructor; [|now apply Hf]. split; [reflexivity|]. now apply Hc.
Qed.

Lemma fd_vec : forall sz A T k (c : codec (vec sz A)) (f : vec sz A -> form) (fs : fields T) a t es,
  Doc c f -> FieldsDoc fs t es -> FieldsDoc (opt_vec k c #: fs) (a, t) (some k f a ++ es).
Proof.
  intros sz A T k c f fs a t es Hc Hf l H. cbn [ser_fields opt_vec f_skip f_ser f_name fst snd] in H.
  unfold vec_is_empty in H. unfold some. destruct (vlist a); [now apply Hf|].
  apply jbind_ok in H. destruct H as (v & Hv & H). apply jbind_ok in H. destruct H as (r & Hr & H).
  apply jok_inj in H. subst. constructor; [|now apply Hf]. split; [reflexivity|]. now apply Hc.
Qed.

Lemma fd_option : forall A T k (c : codec A) (f : A -> form) (fs : fields T) a t es,
  Doc c f -> FieldsDoc fs t es -> FieldsDoc (opt_option k (j_option c) #: fs) (a, t) (maybe k f a ++ es).
Proof.
  intros A T k c f fs a t es Hc Hf l H. cbn [ser_fields opt_option f_skip f_ser f_name fst snd] in H.
  destruct a as [a|]; [|now apply Hf].
  apply jbind_ok in H. destruct H as (v & Hv & H). apply jbind_ok in H. destruct H as (r & Hr & H).
  apply jok_inj in H. subst. constructor; [|now apply Hf]. split; [reflexivity|]. now apply Hc.
Qed.

Lemma doc_struct : forall T A (fs : fields T) (tuple : A -> T) make (es : A -> list entry),
  (forall a, FieldsDoc fs (tuple a) (es a ++ [])) -> Doc (struct_codec fs tuple make) (fun a => is_object (es a)).
Proof.
  intros T A fs tuple make es H a j E. cbn [struct_codec c_ser] in E. unfold ser_struct in E.
  apply jbind_ok in E. destruct E as (l & El & E). apply jok_inj in E. subst. exists l. split; [reflexivity|].
  specialize (H a l El). now rewrite app_nil_r in H.
Qed.

Lemma doc_indices : Doc (j_vec 8 j_u64) is_indices.
Proof. exact (doc_vec _ 8 j_u64 is_u64 doc_u64). Qed.

Create HintDb doc discriminated.
#[local] Hint Constants Opaque : doc.
#[local] Hint Resolve doc_u64 doc_bool doc_string doc_hash doc_leaf doc_signature doc_address doc_public_key
  doc_currency doc_work doc_base64 doc_odt doc_duration doc_unlock_key doc_list doc_vec doc_vec_base64
  doc_timestamps : doc.
#[local] Hint Extern 1 (Doc _ is_indices) => exact doc_indices : doc.

Ltac fields_doc :=
  repeat rewrite <- app_assoc;
  repeat first
    [ apply fd_nil
    | eapply fd_plain; [solve [eauto with doc nocore]|]
    | eapply fd_vec; [solve [eauto with doc nocore]|]
    | eapply fd_option; [solve [eauto with doc nocore]|] ].
Ltac struct_doc F T := apply doc_struct; intros a; unfold F, T; fields_doc.

Lemma doc_chain_index : Doc j_chain_index is_chain_index.
Proof. struct_doc chain_index_fields chain_index_tuple. Qed.
#[local] Hint Resolve doc_chain_index : doc.

Lemma doc_siacoin_output : forall p, Doc (j_siacoin_output p) is_siacoin_output.
Proof. intros p. struct_doc siacoin_output_fields siacoin_output_tuple. Qed.
#[local] Hint Resolve doc_siacoin_output : doc.

Lemma doc_siafund_output : Doc j_siafund_output is_siafund_output.
Proof. struct_doc siafund_output_fields siafund_output_tuple. Qed.
#[local] Hint Resolve doc_siafund_output : doc.

Lemma doc_state_element : Doc j_state_element is_state_element.
Proof. struct_doc state_element_fields state_element_tuple. Qed.
#[local] Hint Resolve doc_state_element : doc.

Lemma doc_unlock_conditions : Doc j_unlock_conditions is_unlock_conditions.
Proof. struct_doc unlock_conditions_fields unlock_conditions_tuple. Qed.
#[local] Hint Resolve doc_unlock_conditions : doc.

Lemma doc_v1_siacoin_input : Doc j_v1_siacoin_input is_v1_siacoin_input.
Proof. struct_doc v1_siacoin_input_fields v1_siacoin_input_tuple. Qed.
#[local] Hint Resolve doc_v1_siacoin_input : doc.

Lemma doc_v1_siafund_input : Doc j_v1_siafund_input is_v1_siafund_input.
Proof. struct_doc v1_siafund_input_fields v1_siafund_input_tuple. Qed.
#[local] Hint Resolve doc_v1_siafund_input : doc.

Lemma doc_v1_file_contract : forall p, Doc (j_v1_file_contract p) is_v1_contract.
Proof. intros p. struct_doc v1_file_contract_fields v1_file_contract_tuple. Qed.
#[local] Hint Resolve doc_v1_file_contract : doc.

Lemma doc_v1_file_contract_revision : forall p, Doc (j_v1_file_contract_revision p) is_v1_revision.
Proof. intros p. struct_doc v1_file_contract_revision_fields v1_file_contract_revision_tuple. Qed.
#[local] Hint Resolve doc_v1_file_contract_revision : doc.

Lemma doc_v1_storage_proof : Doc j_v1_storage_proof is_v1_storage_proof.
Proof. struct_doc v1_storage_proof_fields v1_storage_proof_tuple. Qed.
#[local] Hint Resolve doc_v1_storage_proof : doc.

Lemma doc_covered_fields : Doc j_covered_fields is_covered_fields.
Proof. struct_doc covered_fields_fields covered_fields_tuple. Qed.
#[local] Hint Resolve doc_covered_fields : doc.

Lemma doc_transaction_signature : Doc j_transaction_signature is_v1_signature.
Proof. struct_doc transaction_signature_fields transaction_signature_tuple. Qed.
#[local] Hint Resolve doc_transaction_signature : doc.

Lemma doc_v1_transaction : forall p, Doc (j_v1_transaction p) is_v1_transaction.
Proof. intros p. struct_doc v1_transaction_fields v1_transaction_tuple. Qed.
#[local] Hint Resolve doc_v1_transaction : doc.

Lemma doc_block : forall p, Doc (j_block p) is_block.
Proof. intros p. struct_doc block_fields block_tuple. Qed.
#[local] Hint Resolve doc_block : doc.

(** ** Spend policies *)

Lemma entries_distinct : forall es l, NoDup (map (fun e : entry => ascii (fst e)) es) ->
  Entries es l -> Forall (fun x => DistinctKeys (snd x)) l -> DistinctKeys (JObj l).
Proof.
  intros es l N E D. constructor; [|exact D].
  replace (map fst l) with (map (fun e : entry => ascii (fst e)) es); [exact N|].
  induction E as [|e x es l [K _] _ IH]; [reflexivity|]. inversion N; inversion D; subst. cbn [map]. rewrite K. f_equal. auto.
Qed.

Lemma names_distinct : forall l : list bytes, distinct_names l = true -> NoDup l.
Proof. exact distinct_names_nodup. Qed.

Lemma unlock_conditions_distinct : forall u j, c_ser j_unlock_conditions u = JOk j -> DistinctKeys j.
Proof.
  intros u j H. apply doc_unlock_conditions in H. destruct H as (l & -> & E).
  eapply entries_distinct; [|exact E|]; [apply names_distinct; reflexivity|].
  cbn [req app] in E.
  assert (H : exists x1 x2 x3, l = [x1; x2; x3] /\ is_u64 (uc_timelock u) (snd x1) /\
    is_vec is_unlock_key (uc_public_keys u) (snd x2) /\ is_u64 (uc_signatures_required u) (snd x3)).
  { inversion E as [|e1 x1 es1 l1 P1 E1]; subst. inversion E1 as [|e2 x2 es2 l2 P2 E2]; subst.
    inversion E2 as [|e3 x3 es3 l3 P3 E3]; subst. inversion E3; subst.
    exists x1, x2, x3. repeat split; [apply P1|apply P2|apply P3]. }
  clear E. destruct H as (x1 & x2 & x3 & -> & (n1 & X1 & _) & (js & X2 & F) & (n3 & X3 & _)).
  repeat constructor; [rewrite X1; constructor| |rewrite X3; constructor].
  rewrite X2. constructor. clear - F. induction F as [|k j ks js (t & n & _ & _ & ->) _ IH]; constructor; [constructor|exact IH].
Qed.

Lemma leaf_distinct : forall A (c : codec A) (x : A) j, (exists n, c_ser c x = JOk (JUint n)) \/ (exists s, c_ser c x = JOk (JStr s)) ->
  c_ser c x = JOk j -> DistinctKeys j.
Proof. intros A c x j [[n H]|[n H]] E; rewrite H in E; apply jok_inj in E; subst; constructor. Qed.

Fixpoint policies_doc (l : list policy) (m : list json) : Prop :=
  match l, m with
  | [], [] => True
  | x :: l', j :: m' => is_policy x j /\ policies_doc l' m'
  | _, _ => False
  end.

Lemma policy_doc_distinct : forall x j, ser_policy x = JOk j -> is_policy x j /\ DistinctKeys j.
Proof.
  fix F 1. intros x j H.
  assert (W : forall t v, is_object (req "type" (is_text (ascii t)) ++ req "policy" (fun j => j = v))
    (JObj [(ascii "type", JStr (ascii t)); (ascii "policy", v)])) by (intros; eexists; repeat constructor).
  assert (D : forall t v, DistinctKeys v -> DistinctKeys (JObj [(ascii "type", JStr t); (ascii "policy", v)])).
  { intros t v Dv. constructor; [apply names_distinct; reflexivity|]. repeat constructor. exact Dv. }
  assert (M : forall t v (f : form), f v -> is_object (req "type" (is_text (ascii t)) ++ req "policy" f)
    (JObj [(ascii "type", JStr (ascii t)); (ascii "policy", v)])).
  { intros t v f Hf. eexists. split; [reflexivity|]. repeat constructor. exact Hf. }
  clear W. destruct x; cbn [ser_policy] in H; apply jbind_ok in H; destruct H as (v & Hv & H); apply jok_inj in H; subst;
    cbn [is_policy type_str].
  - split; [apply M; now apply doc_u64|apply D]. eapply leaf_distinct; [|exact Hv]. left. eexists. reflexivity.
  - split; [apply M|apply D].
    + apply jok_inj in Hv. subst. eexists. split; [reflexivity|]. apply wrap_mod.
    + eapply leaf_distinct; [|exact Hv]. left. eexists. reflexivity.
  - split; [apply M; now apply doc_public_key|apply D]. eapply leaf_distinct; [|exact Hv]. right. eexists. reflexivity.
  - split; [apply M; now apply doc_hash|apply D]. eapply leaf_distinct; [|exact Hv]. right. eexists. reflexivity.
  - apply jbind_ok in Hv. destruct Hv as (vn & Hn & Hv). apply jbind_ok in Hv. destruct Hv as (js & Hl & Hv). apply jok_inj in Hv. subst v.
    assert (Hl' : jmap ser_policy of = JOk js) by (destruct (jmap ser_policy of); try discriminate; exact Hl). clear Hl.
    assert (Hn' : c_ser j_u8 n = JOk vn) by exact Hn. clear Hn.
    assert (G : policies_doc of js /\ Forall DistinctKeys js).
    { revert js Hl'. induction of as [|x of IH]; intros js Hl'; cbn [jmap] in Hl'.
      - apply jok_inj in Hl'. subst. repeat constructor.
      - apply jbind_ok in Hl'. destruct Hl' as (y & Hy & Hl'). apply jbind_ok in Hl'. destruct Hl' as (ys & Hys & Hl').
        apply jok_inj in Hl'. subst. destruct (F x y Hy) as [Fx Dx]. destruct (IH ys Hys) as [Fl Dl].
        split; [split; assumption|constructor; assumption]. }
    destruct G as [G1 G2].
    assert (DT : DistinctKeys (JObj [(ascii "n", vn); (ascii "of", JArr js)])).
    { constructor; [apply names_distinct; reflexivity|]. repeat constructor; [|exact G2].
      eapply leaf_distinct; [|exact Hn']. left. eexists. reflexivity. }
    split; [apply M|apply D].
    + exists (JObj [(ascii "n", vn); (ascii "of", JArr js)]). split.
      * eexists. split; [reflexivity|]. repeat constructor; [now apply doc_u8|]. exists js. split; [reflexivity|]. exact G1.
      * now apply value_of_reordered.
    + eapply reordered_distinct; [apply value_of_reordered; exact DT|exact DT].
  - split; [apply M; now apply doc_address|apply D]. eapply leaf_distinct; [|exact Hv]. right. eexists. reflexivity.
  - split; [apply M; now apply doc_unlock_conditions|apply D]. eapply unlock_conditions_distinct; exact Hv.
Qed.

Lemma doc_policy : forall stack, Doc (j_policy stack) is_policy.
Proof. intros stack x j H. now apply policy_doc_distinct. Qed.
#[local] Hint Resolve doc_policy : doc.

(** ** Version 2 *)

Lemma doc_satisfied_policy : forall stack, Doc (j_satisfied_policy stack) is_satisfied_policy.
Proof. intros stack. struct_doc satisfied_policy_fields satisfied_policy_tuple. Qed.
#[local] Hint Resolve doc_satisfied_policy : doc.

Lemma doc_attestation : Doc j_attestation is_attestation.
Proof. struct_doc attestation_fields attestation_tuple. Qed.
#[local] Hint Resolve doc_attestation : doc.

Lemma doc_v2_file_contract : forall p, Doc (j_v2_file_contract p) is_v2_contract.
Proof. intros p. struct_doc v2_file_contract_fields v2_file_contract_tuple. Qed.
#[local] Hint Resolve doc_v2_file_contract : doc.

Lemma doc_siacoin_element : forall p, Doc (j_siacoin_element p) is_siacoin_element.
Proof. intros p. struct_doc siacoin_element_fields siacoin_element_tuple. Qed.
#[local] Hint Resolve doc_siacoin_element : doc.

Lemma doc_siafund_element : forall p, Doc (j_siafund_element p) is_siafund_element.
Proof. intros p. struct_doc siafund_element_fields siafund_element_tuple. Qed.
#[local] Hint Resolve doc_siafund_element : doc.

Lemma doc_file_contract_element : forall p, Doc (j_file_contract_element p) is_contract_element.
Proof. intros p. struct_doc file_contract_element_fields file_contract_element_tuple. Qed.
#[local] Hint Resolve doc_file_contract_element : doc.

Lemma doc_chain_index_element : Doc j_chain_index_element is_chain_index_element.
Proof. struct_doc chain_index_element_fields chain_index_element_tuple. Qed.
#[local] Hint Resolve doc_chain_index_element : doc.

Lemma doc_v2_siacoin_input : forall p stack, Doc (j_v2_siacoin_input p stack) is_v2_siacoin_input.
Proof. intros p stack. struct_doc v2_siacoin_input_fields v2_siacoin_input_tuple. Qed.
#[local] Hint Resolve doc_v2_siacoin_input : doc.

Lemma doc_v2_siafund_input : forall p stack, Doc (j_v2_siafund_input p stack) is_v2_siafund_input.
Proof. intros p stack. struct_doc v2_siafund_input_fields v2_siafund_input_tuple. Qed.
#[local] Hint Resolve doc_v2_siafund_input : doc.

Lemma doc_v2_file_contract_revision : forall p, Doc (j_v2_file_contract_revision p) is_v2_revision.
Proof. intros p. struct_doc v2_file_contract_revision_fields v2_file_contract_revision_tuple. Qed.
#[local] Hint Resolve doc_v2_file_contract_revision : doc.

Lemma doc_file_contract_renewal : forall p, Doc (j_file_contract_renewal p) is_renewal.
Proof. intros p. struct_doc file_contract_renewal_fields file_contract_renewal_tuple. Qed.
#[local] Hint Resolve doc_file_contract_renewal : doc.

Lemma doc_v2_storage_proof : Doc j_v2_storage_proof is_v2_storage_proof.
Proof. struct_doc v2_storage_proof_fields v2_storage_proof_tuple. Qed.
#[local] Hint Resolve doc_v2_storage_proof : doc.

Lemma doc_contract_resolution : forall p, Doc (j_contract_resolution p) is_resolution_alone.
Proof.
  intros p r j H. destruct r; cbn [j_contract_resolution c_ser] in H; cbn [is_resolution_alone].
  - apply jbind_ok in H. destruct H as (v & Hv & H). apply jok_inj in H. subst. eexists. split; [reflexivity|].
    repeat constructor. eapply doc_file_contract_renewal; exact Hv.
  - apply jbind_ok in H. destruct H as (v & Hv & H). apply jok_inj in H. subst. eexists. split; [reflexivity|].
    repeat constructor. eapply doc_v2_storage_proof; exact Hv.
  - apply jok_inj in H. subst. eexists. split; [reflexivity|]. repeat constructor. exists []. repeat constructor.
Qed.

Lemma doc_file_contract_resolution : forall p, Doc (j_file_contract_resolution p) is_resolution.
Proof.
  intros p [parent r] j H. cbn [j_file_contract_resolution c_ser] in H. unfold ser_file_contract_resolution in H.
  apply jbind_ok in H. destruct H as (vp & Hp & H). apply jbind_ok in H. destruct H as (v & Hv & H). apply jok_inj in H. subst.
  apply doc_file_contract_element in Hp. unfold is_resolution. eexists. split; [reflexivity|].
  constructor; [split; [reflexivity|exact Hp]|]. cbn [fcres_resolution] in *. destruct r as [x|x|].
  - apply jbind_ok in Hv. destruct Hv as (w & Hw & Hv). apply jok_inj in Hv. subst.
    repeat constructor. exists w. split; [eapply doc_file_contract_renewal; exact Hw|]. apply value_of_reordered.
    destruct (ok_file_contract_renewal p x) as (w' & E & D & _). rewrite Hw in E. apply jok_inj in E. now subst.
  - apply jbind_ok in Hv. destruct Hv as (w & Hw & Hv). apply jok_inj in Hv. subst.
    repeat constructor. exists w. split; [eapply doc_v2_storage_proof; exact Hw|]. apply value_of_reordered.
    destruct (ok_v2_storage_proof x) as (w' & E & D & _). rewrite Hw in E. apply jok_inj in E. now subst.
  - apply jok_inj in Hv. subst. repeat constructor. exists []. repeat constructor.
Qed.
#[local] Hint Resolve doc_file_contract_resolution : doc.

Lemma doc_v2_transaction : forall p stack, Doc (j_v2_transaction p stack) is_v2_transaction.
Proof. intros p stack. struct_doc v2_transaction_fields v2_transaction_tuple. Qed.
#[local] Hint Resolve doc_v2_transaction : doc.

(** ** Consensus *)

Lemma doc_element_accumulator : Doc j_element_accumulator is_accumulator.
Proof.
  intros a j H. rewrite accumulator_json in H. apply jok_inj in H. subst. eexists. split; [reflexivity|].
  repeat constructor; [exists (ea_num_leaves a); split; reflexivity|].
  eexists. split; [reflexivity|]. induction (present _ _); constructor; [|assumption].
  unfold is_hash, is_text, hash_text. now rewrite hex_encode_hex.
Qed.
#[local] Hint Resolve doc_element_accumulator : doc.

Lemma doc_hardfork_dev_addr : Doc j_hardfork_dev_addr is_hardfork_dev_addr.
Proof. struct_doc hardfork_dev_addr_fields hardfork_dev_addr_tuple. Qed.
#[local] Hint Resolve doc_hardfork_dev_addr : doc.

Lemma doc_hardfork_tax : Doc j_hardfork_tax is_hardfork_tax.
Proof. struct_doc hardfork_tax_fields hardfork_tax_tuple. Qed.
#[local] Hint Resolve doc_hardfork_tax : doc.

Lemma doc_hardfork_storage_proof : Doc j_hardfork_storage_proof is_hardfork_storage_proof.
Proof. struct_doc hardfork_storage_proof_fields hardfork_storage_proof_tuple. Qed.
#[local] Hint Resolve doc_hardfork_storage_proof : doc.

Lemma doc_hardfork_oak : Doc j_hardfork_oak is_hardfork_oak.
Proof. struct_doc hardfork_oak_fields hardfork_oak_tuple. Qed.
#[local] Hint Resolve doc_hardfork_oak : doc.

Lemma doc_hardfork_asic : Doc j_hardfork_asic is_hardfork_asic.
Proof. struct_doc hardfork_asic_fields hardfork_asic_tuple. Qed.
#[local] Hint Resolve doc_hardfork_asic : doc.

Lemma doc_hardfork_foundation : Doc j_hardfork_foundation is_hardfork_foundation.
Proof. struct_doc hardfork_foundation_fields hardfork_foundation_tuple. Qed.
#[local] Hint Resolve doc_hardfork_foundation : doc.

Lemma doc_hardfork_v2 : Doc j_hardfork_v2 is_hardfork_v2.
Proof. struct_doc hardfork_v2_fields hardfork_v2_tuple. Qed.
#[local] Hint Resolve doc_hardfork_v2 : doc.

Lemma doc_network : forall p, Doc (j_network p) is_network.
Proof. intros p. struct_doc network_fields network_tuple. Qed.
#[local] Hint Resolve doc_network : doc.

Lemma doc_state : forall p, Doc (j_state p) is_state.
Proof. intros p. struct_doc state_fields state_tuple. Qed.
#[local] Hint Resolve doc_state : doc.

Lemma doc_chain_state : forall p, Doc (j_chain_state p) is_chain_state.
Proof. intros p. struct_doc chain_state_fields chain_state_tuple. Qed.
#[local] Hint Resolve doc_chain_state : doc.
