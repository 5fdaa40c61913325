(** Proofs: what the library writes are plain documents. *)

From Verif Require Import Base Io SpecText SpecUtf8 SpecPolicy Model_encoding Model_common Model_v1 Model_policy Model_v2 Model_consensus
  Model_currency CurrencyProofs Model_text TextProofs Model_json Model_jsontypes
  SpecJson BasicProofs PolicyProofs Base64Proofs TimeProofs JsonProofs JsonLeafProofs Model_jsontext SpecJsonText JsonTextLex JsonTextProofs JsonTextPrint JsonTextUtf8.
Local Open Scope N_scope.
Local Open Scope jres_scope.

Definition plain_ser {A} (ser : jser A) : Prop := forall a j, ser a = JOk j -> PlainDoc j.
Definition writes_plain {A} (c : codec A) : Prop := plain_ser (c_ser c).

Lemma jbind_ok : forall A B (m : jres A) (f : A -> jres B) b, (x <- m ;; f x) = JOk b -> exists a, m = JOk a /\ f a = JOk b.
Proof. intros A B [a| |p] f b H; cbn [jbind] in H; [eauto|discriminate|discriminate]. Qed.

Lemma jmap_ok : forall A B (f : A -> jres B) (P : B -> Prop) l r, Forall (fun a => forall b, f a = JOk b -> P b) l ->
  jmap f l = JOk r -> Forall P r.
Proof.
  intros A B f P l r H. revert r. induction H as [|a l Ha H IH]; intros r E; cbn [jmap] in E.
  - injection E as <-. constructor.
  - apply jbind_ok in E as (b & Eb & E). apply jbind_ok in E as (bs & Ebs & E). injection E as <-. constructor; auto.
Qed.

Lemma plain_str : forall s, ascii_only s -> PlainDoc (JStr s).
Proof. intros s H. constructor. now apply utf8_of_ascii. Qed.

Lemma plain_uint : forall n, PlainDoc (JUint n).
Proof. intros n. constructor. exact I. Qed.

Lemma plain_text : forall A (text : A -> bytes), (forall a, ascii_only (text a)) -> plain_ser (fun a => JOk (JStr (text a))).
Proof. intros A text H a j E. injection E as <-. apply plain_str, H. Qed.

Lemma ser_text_plain : forall s j, Utf8 s -> ser_text s = JOk j -> PlainDoc j.
Proof.
  intros s j H E. unfold ser_text in E. destruct (_ <=? _); [|discriminate]. injection E as <-. now constructor.
Qed.

Lemma plain_list : forall A (ser : jser A), plain_ser ser -> plain_ser (ser_list ser).
Proof.
  intros A ser H l j E. unfold ser_list in E. apply jbind_ok in E as (r & Er & E). injection E as <-. constructor.
  eapply jmap_ok; [|exact Er]. apply Forall_forall. intros a _ b. apply H.
Qed.

Lemma plain_vec : forall A sz (c : codec A), writes_plain c -> writes_plain (j_vec sz c).
Proof. intros A sz c H v j E. exact (plain_list A _ H (vlist v) j E). Qed.

Lemma plain_listc : forall A (c : codec A), writes_plain c -> writes_plain (j_list c).
Proof. intros A c H v j E. exact (plain_list A _ H v j E). Qed.

Lemma plain_option : forall A (c : codec A), writes_plain c -> writes_plain (j_option c).
Proof.
  intros A c H o j E. cbn [j_option c_ser] in E. unfold ser_option in E. destruct o as [a|]; [now apply (H a)|].
  injection E as <-. constructor. exact I.
Qed.

(** ** Structs *)

Inductive plain_fields : forall T, fields T -> Prop :=
| plain_nil : plain_fields _ FNil
| plain_cons : forall A R (f : field A) (fs : fields R), ascii_only (f_name f) -> plain_ser (f_ser f) ->
    plain_fields R fs -> plain_fields _ (FCons f fs).

Lemma plain_ser_fields : forall T (fs : fields T), plain_fields T fs -> forall t l, ser_fields fs t = JOk l ->
  Forall (fun kv => Utf8 (fst kv) /\ PlainDoc (snd kv)) l.
Proof.
  intros T fs H. induction H as [|A R f fs Hn Hf H IH]; intros t l E; cbn [ser_fields] in E.
  - injection E as <-. constructor.
  - destruct (f_skip f (fst t)); [now apply (IH (snd t))|].
    apply jbind_ok in E as (v & Ev & E). apply jbind_ok in E as (r & Er & E). injection E as <-.
    constructor; [|now apply (IH (snd t))]. split; [now apply utf8_of_ascii|now apply (Hf (fst t))].
Qed.

Lemma plain_struct : forall T A (fs : fields T) (tuple : A -> T) make, plain_fields T fs ->
  writes_plain (struct_codec fs tuple make).
Proof.
  intros T A fs tuple make H a j E. cbn [struct_codec c_ser] in E. unfold ser_struct in E.
  apply jbind_ok in E as (l & El & E). injection E as <-. constructor. now apply (plain_ser_fields T fs H (tuple a)).
Qed.

Lemma plain_object : forall l, Forall (fun kv => ascii_only (fst kv) /\ PlainDoc (snd kv)) l -> PlainDoc (JObj l).
Proof. intros l H. constructor. eapply Forall_impl; [|exact H]. intros kv [K V]. split; [now apply utf8_of_ascii|exact V]. Qed.

(** [serde_json::Value] *)
Lemma insert_plain : forall (Q : bytes * json -> Prop) k v m, Q (k, v) -> Forall Q m -> Forall Q (map_insert k v m).
Proof.
  intros Q k v m Hq H. induction H as [|[k' v'] m Hk H IH]; cbn [map_insert]; [repeat constructor; exact Hq|].
  destruct (bytes_compare k k'); repeat constructor; auto.
Qed.

Lemma map_of_all : forall (Q : bytes * json -> Prop) l, Forall Q l -> Forall Q (map_of l).
Proof.
  intros Q l H. unfold map_of. assert (G : forall m, Forall Q m -> Forall Q (fold_left (fun m kv => map_insert (fst kv) (snd kv) m) l m)).
  { induction H as [|kv l Hk H IH]; intros m Hm; cbn [fold_left]; [exact Hm|]. apply IH. apply insert_plain; [|exact Hm].
    now destruct kv. }
  apply G. constructor.
Qed.

Lemma value_of_plain : forall j, PlainDoc j -> PlainDoc (value_of j).
Proof.
  intros j. induction j as [|b0|n0|z0| |s0|l IH|l IH] using json_rect'; intros H; try exact H.
  - cbn [value_of]. inversion H as [| | | | | |? F|]; subst. constructor. apply Forall_map.
    rewrite Forall_forall in *. intros x I. exact (IH x I (F x I)).
  - cbn [value_of]. inversion H as [| | | | | | |? F]; subst. constructor. apply map_of_all, Forall_map.
    rewrite Forall_forall in *. intros x I. destruct (F x I) as [K V]. split; [exact K|exact (IH x I V)].
Qed.

(** ** The leaves *)

Lemma dec_text_ascii : forall n, ascii_only (dec_text n).
Proof. intros n. apply digits_ascii. apply (dec_text_spec n). Qed.

Lemma plain_bool : writes_plain j_bool.
Proof. intros b j E. injection E as <-. constructor. exact I. Qed.
Lemma plain_u8 : writes_plain j_u8.
Proof. intros b j E. injection E as <-. apply plain_uint. Qed.
Lemma plain_u64 : writes_plain j_u64.
Proof. intros b j E. injection E as <-. apply plain_uint. Qed.
Lemma plain_string : writes_plain j_string.
Proof. intros s j E. injection E as <-. constructor. apply utf8_spec, sbytes_ok. Qed.
Lemma plain_b64 : forall sz, plain_ser (@ser_base64 sz).
Proof. intros sz v j E. apply ser_text_plain in E; [exact E|]. apply utf8_of_ascii, b64_ascii. Qed.
Lemma plain_base64 : writes_plain j_base64.
Proof. exact (plain_b64 1). Qed.
Lemma plain_vec_base64 : writes_plain j_vec_base64.
Proof. intros v j E. exact (plain_list _ _ (plain_b64 1) (vlist v) j E). Qed.
Lemma plain_odt : writes_plain j_odt.
Proof.
  intros t j E. cbn [j_odt c_ser] in E. unfold ser_odt in E. destruct (rfc3339_text t) as [s|] eqn:Es; [|discriminate].
  injection E as <-. apply plain_str. now apply rfc3339_ascii in Es.
Qed.
Lemma plain_timestamps : writes_plain j_timestamps.
Proof. intros a j E. exact (plain_list _ _ plain_odt (flist a) j E). Qed.
Lemma plain_duration : writes_plain j_duration.
Proof. intros d j E. injection E as <-. apply plain_uint. Qed.
Lemma plain_hash : writes_plain j_hash.
Proof. apply (plain_text _ hash_text). intros a. apply hex_encode_ascii. Qed.
Lemma plain_address : writes_plain j_address.
Proof. apply (plain_text _ address_text). intros a. apply hex_encode_ascii. Qed.
Lemma plain_leaf : writes_plain j_leaf.
Proof. apply (plain_text _ leaf_text). intros a. apply hex_encode_ascii. Qed.
Lemma plain_public_key : writes_plain j_public_key.
Proof.
  apply (plain_text _ public_key_text). intros a. apply Forall_app. split; [repeat constructor|apply hex_encode_ascii].
Qed.
Lemma plain_signature : writes_plain j_signature.
Proof. apply (plain_text _ signature_text). intros a. apply hex_encode_ascii. Qed.
Lemma plain_work : writes_plain j_work.
Proof. apply (plain_text _ work_text). intros a. apply dec_text_ascii. Qed.
Lemma plain_currency : forall p, writes_plain (j_currency p).
Proof. intros p. apply (plain_text _ currency_text). intros a. apply dec_text_ascii. Qed.
Lemma plain_specifier : writes_plain j_specifier.
Proof. intros s j E. exact (plain_list _ _ plain_u8 (aval s) j E). Qed.
Lemma plain_unlock_key : writes_plain j_unlock_key.
Proof.
  intros k j E. cbn [j_unlock_key c_ser] in E. apply jbind_ok in E as (t & Et & E). apply ser_text_plain in E; [exact E|].
  unfold unlock_key_text, specifier_text in Et. destruct (utf8_valid _) eqn:V; cbn [obind joutcome] in Et; [|discriminate].
  injection Et as <-. apply utf8_app; [now apply utf8_spec|]. apply utf8_of_ascii.
  constructor; [reflexivity|apply hex_encode_ascii].
Qed.

(** ** The types *)

Lemma pf_plain : forall A R name (c : codec A) (fs : fields R), ascii_only (ascii name) -> writes_plain c ->
  plain_fields R fs -> plain_fields _ (FCons (plain name c) fs).
Proof. intros A R name c fs Hn Hc H. now apply plain_cons. Qed.
Lemma pf_vec : forall sz A R name (c : codec (vec sz A)) (fs : fields R), ascii_only (ascii name) -> writes_plain c ->
  plain_fields R fs -> plain_fields _ (FCons (opt_vec name c) fs).
Proof. intros sz A R name c fs Hn Hc H. now apply plain_cons. Qed.
Lemma pf_option : forall A R name (c : codec (option A)) (fs : fields R), ascii_only (ascii name) -> writes_plain c ->
  plain_fields R fs -> plain_fields _ (FCons (opt_option name c) fs).
Proof. intros A R name c fs Hn Hc H. now apply plain_cons. Qed.

Ltac by_fields :=
  apply plain_struct;
  repeat (apply plain_nil || ((apply pf_plain || apply pf_vec || apply pf_option); [repeat constructor| |]));
  repeat apply plain_vec; repeat apply plain_option; auto with plain.

#[local] Hint Resolve plain_bool plain_u8 plain_u64 plain_string plain_base64 plain_vec_base64 plain_odt plain_timestamps plain_duration
  plain_hash plain_address plain_leaf plain_public_key plain_signature plain_work plain_currency plain_specifier plain_unlock_key : plain.

Lemma plain_chain_index : writes_plain j_chain_index.
Proof. unfold j_chain_index, chain_index_fields. by_fields. Qed.
#[local] Hint Resolve plain_chain_index : plain.
Lemma plain_siacoin_output : forall p, writes_plain (j_siacoin_output p).
Proof. intros p. unfold j_siacoin_output. unfold siacoin_output_fields. by_fields. Qed.
#[local] Hint Resolve plain_siacoin_output : plain.
Lemma plain_siafund_output : writes_plain j_siafund_output.
Proof. unfold j_siafund_output, siafund_output_fields. by_fields. Qed.
#[local] Hint Resolve plain_siafund_output : plain.
Lemma plain_state_element : writes_plain j_state_element.
Proof. unfold j_state_element, state_element_fields. by_fields. Qed.
#[local] Hint Resolve plain_state_element : plain.
Lemma plain_unlock_conditions : writes_plain j_unlock_conditions.
Proof. unfold j_unlock_conditions, unlock_conditions_fields. by_fields. Qed.
#[local] Hint Resolve plain_unlock_conditions : plain.
Lemma plain_v1_siacoin_input : writes_plain j_v1_siacoin_input.
Proof. unfold j_v1_siacoin_input, v1_siacoin_input_fields. by_fields. Qed.
#[local] Hint Resolve plain_v1_siacoin_input : plain.
Lemma plain_v1_siafund_input : writes_plain j_v1_siafund_input.
Proof. unfold j_v1_siafund_input, v1_siafund_input_fields. by_fields. Qed.
#[local] Hint Resolve plain_v1_siafund_input : plain.
Lemma plain_v1_file_contract : forall p, writes_plain (j_v1_file_contract p).
Proof. intros p. unfold j_v1_file_contract. unfold v1_file_contract_fields. by_fields. Qed.
#[local] Hint Resolve plain_v1_file_contract : plain.
Lemma plain_v1_file_contract_revision : forall p, writes_plain (j_v1_file_contract_revision p).
Proof. intros p. unfold j_v1_file_contract_revision. unfold v1_file_contract_revision_fields. by_fields. Qed.
#[local] Hint Resolve plain_v1_file_contract_revision : plain.
Lemma plain_v1_storage_proof : writes_plain j_v1_storage_proof.
Proof. unfold j_v1_storage_proof, v1_storage_proof_fields. by_fields. Qed.
#[local] Hint Resolve plain_v1_storage_proof : plain.
Lemma plain_covered_fields : writes_plain j_covered_fields.
Proof. unfold j_covered_fields, covered_fields_fields. by_fields. Qed.
#[local] Hint Resolve plain_covered_fields : plain.
Lemma plain_transaction_signature : writes_plain j_transaction_signature.
Proof. unfold j_transaction_signature, transaction_signature_fields. by_fields. Qed.
#[local] Hint Resolve plain_transaction_signature : plain.
Lemma plain_v1_transaction : forall p, writes_plain (j_v1_transaction p).
Proof. intros p. unfold j_v1_transaction. unfold v1_transaction_fields. by_fields. Qed.
#[local] Hint Resolve plain_v1_transaction : plain.
Lemma plain_block : forall p, writes_plain (j_block p).
Proof. intros p. unfold j_block. unfold block_fields. by_fields. Qed.
#[local] Hint Resolve plain_block : plain.
Lemma plain_ser_policy : plain_ser ser_policy.
Proof.
  intros x. induction x as [h|t|k|h|n of IH|a|u] using policy_ind'; intros j E; cbn [ser_policy] in E;
    apply jbind_ok in E as (v & Ev & E); injection E as <-;
    (apply plain_object; constructor; [split; [repeat constructor|apply plain_str; repeat constructor]|];
     constructor; [split; [repeat constructor|cbn [snd]]|constructor]).
  - now apply plain_u64 in Ev.
  - now apply plain_u64 in Ev.
  - now apply plain_public_key in Ev.
  - now apply plain_hash in Ev.
  - apply jbind_ok in Ev as (vn & En & Ev). apply jbind_ok in Ev as (l & El & Ev).
    assert (Ej : value_of (JObj [(ascii "n", vn); (ascii "of", JArr l)]) = v) by congruence.
    rewrite <- Ej. apply value_of_plain, plain_object.
    assert (U : forall A (r : jres A) x, junwrap r = JOk x -> r = JOk x) by (intros A [] x' H; [exact H|discriminate|exact H]).
    apply U in En. apply U in El. constructor; [split; [repeat constructor|now apply plain_u8 in En]|].
    constructor; [split; [repeat constructor|]|constructor]. constructor. eapply jmap_ok; [|exact El].
    eapply Forall_impl; [|exact IH]. auto.
  - now apply plain_address in Ev.
  - now apply plain_unlock_conditions in Ev.
Qed.
Lemma plain_policy : forall stack, writes_plain (j_policy stack).
Proof. intros stack. exact plain_ser_policy. Qed.
#[local] Hint Resolve plain_policy : plain.
Lemma plain_satisfied_policy : forall stack, writes_plain (j_satisfied_policy stack).
Proof. intros stack. unfold j_satisfied_policy. unfold satisfied_policy_fields. by_fields. Qed.
#[local] Hint Resolve plain_satisfied_policy : plain.
Lemma plain_attestation : writes_plain j_attestation.
Proof. unfold j_attestation, attestation_fields. by_fields. Qed.
#[local] Hint Resolve plain_attestation : plain.
Lemma plain_v2_file_contract : forall p, writes_plain (j_v2_file_contract p).
Proof. intros p. unfold j_v2_file_contract. unfold v2_file_contract_fields. by_fields. Qed.
#[local] Hint Resolve plain_v2_file_contract : plain.
Lemma plain_siacoin_element : forall p, writes_plain (j_siacoin_element p).
Proof. intros p. unfold j_siacoin_element. unfold siacoin_element_fields. by_fields. Qed.
#[local] Hint Resolve plain_siacoin_element : plain.
Lemma plain_siafund_element : forall p, writes_plain (j_siafund_element p).
Proof. intros p. unfold j_siafund_element. unfold siafund_element_fields. by_fields. Qed.
#[local] Hint Resolve plain_siafund_element : plain.
Lemma plain_file_contract_element : forall p, writes_plain (j_file_contract_element p).
Proof. intros p. unfold j_file_contract_element. unfold file_contract_element_fields. by_fields. Qed.
#[local] Hint Resolve plain_file_contract_element : plain.
Lemma plain_chain_index_element : writes_plain j_chain_index_element.
Proof. unfold j_chain_index_element, chain_index_element_fields. by_fields. Qed.
#[local] Hint Resolve plain_chain_index_element : plain.
Lemma plain_v2_siacoin_input : forall p stack, writes_plain (j_v2_siacoin_input p stack).
Proof. intros p stack. unfold j_v2_siacoin_input. unfold v2_siacoin_input_fields. by_fields. Qed.
#[local] Hint Resolve plain_v2_siacoin_input : plain.
Lemma plain_v2_siafund_input : forall p stack, writes_plain (j_v2_siafund_input p stack).
Proof. intros p stack. unfold j_v2_siafund_input. unfold v2_siafund_input_fields. by_fields. Qed.
#[local] Hint Resolve plain_v2_siafund_input : plain.
Lemma plain_v2_file_contract_revision : forall p, writes_plain (j_v2_file_contract_revision p).
Proof. intros p. unfold j_v2_file_contract_revision. unfold v2_file_contract_revision_fields. by_fields. Qed.
#[local] Hint Resolve plain_v2_file_contract_revision : plain.
Lemma plain_file_contract_renewal : forall p, writes_plain (j_file_contract_renewal p).
Proof. intros p. unfold j_file_contract_renewal. unfold file_contract_renewal_fields. by_fields. Qed.
#[local] Hint Resolve plain_file_contract_renewal : plain.
Lemma plain_v2_storage_proof : writes_plain j_v2_storage_proof.
Proof. unfold j_v2_storage_proof, v2_storage_proof_fields. by_fields. Qed.
#[local] Hint Resolve plain_v2_storage_proof : plain.
Lemma plain_contract_resolution : forall p, writes_plain (j_contract_resolution p).
Proof.
  intros p [x|x|] j E; cbn [j_contract_resolution c_ser] in E.
  - apply jbind_ok in E as (v & Ev & E). injection E as <-. apply plain_object.
    constructor; [split; [repeat constructor|now apply plain_file_contract_renewal in Ev]|constructor].
  - apply jbind_ok in E as (v & Ev & E). injection E as <-. apply plain_object.
    constructor; [split; [repeat constructor|now apply plain_v2_storage_proof in Ev]|constructor].
  - injection E as <-. apply plain_object. constructor; [split; [repeat constructor|]|constructor]. constructor. constructor.
Qed.
#[local] Hint Resolve plain_contract_resolution : plain.
Lemma plain_file_contract_resolution : forall p, writes_plain (j_file_contract_resolution p).
Proof.
  intros p [parent res] j E. cbn [j_file_contract_resolution c_ser] in E. unfold ser_file_contract_resolution in E.
  cbn [fcres_parent fcres_resolution] in E.
  apply jbind_ok in E as (vp & Ep & E). apply jbind_ok in E as (vr & Er & E). injection E as <-. apply plain_object.
  apply plain_file_contract_element in Ep.
  constructor; [split; [repeat constructor|exact Ep]|].
  constructor; [split; [repeat constructor|apply plain_str; destruct res; repeat constructor]|].
  constructor; [split; [repeat constructor|]|constructor]. cbn [snd]. destruct res as [x|x|].
  - apply jbind_ok in Er as (v & Ev & E'). injection E' as <-. apply value_of_plain. now apply plain_file_contract_renewal in Ev.
  - apply jbind_ok in Er as (v & Ev & E'). injection E' as <-. apply value_of_plain. now apply plain_v2_storage_proof in Ev.
  - injection Er as <-. constructor. constructor.
Qed.
#[local] Hint Resolve plain_file_contract_resolution : plain.
Lemma plain_v2_transaction : forall p stack, writes_plain (j_v2_transaction p stack).
Proof. intros p stack. unfold j_v2_transaction. unfold v2_transaction_fields. by_fields. Qed.
#[local] Hint Resolve plain_v2_transaction : plain.
Lemma plain_element_accumulator : writes_plain j_element_accumulator.
Proof.
  intros a j E. cbn [j_element_accumulator c_ser] in E. unfold ser_element_accumulator in E.
  apply jbind_ok in E as (n & En & E). apply jbind_ok in E as (t & Et & E). injection E as <-. apply plain_object.
  apply plain_u64 in En. apply (plain_listc _ _ plain_hash) in Et.
  constructor; [split; [repeat constructor|exact En]|]. constructor; [split; [repeat constructor|exact Et]|constructor].
Qed.
#[local] Hint Resolve plain_element_accumulator : plain.
Lemma plain_hardfork_dev_addr : writes_plain j_hardfork_dev_addr.
Proof. unfold j_hardfork_dev_addr, hardfork_dev_addr_fields. by_fields. Qed.
#[local] Hint Resolve plain_hardfork_dev_addr : plain.
Lemma plain_hardfork_tax : writes_plain j_hardfork_tax.
Proof. unfold j_hardfork_tax, hardfork_tax_fields. by_fields. Qed.
#[local] Hint Resolve plain_hardfork_tax : plain.
Lemma plain_hardfork_storage_proof : writes_plain j_hardfork_storage_proof.
Proof. unfold j_hardfork_storage_proof, hardfork_storage_proof_fields. by_fields. Qed.
#[local] Hint Resolve plain_hardfork_storage_proof : plain.
Lemma plain_hardfork_oak : writes_plain j_hardfork_oak.
Proof. unfold j_hardfork_oak, hardfork_oak_fields. by_fields. Qed.
#[local] Hint Resolve plain_hardfork_oak : plain.
Lemma plain_hardfork_asic : writes_plain j_hardfork_asic.
Proof. unfold j_hardfork_asic, hardfork_asic_fields. by_fields. Qed.
#[local] Hint Resolve plain_hardfork_asic : plain.
Lemma plain_hardfork_foundation : writes_plain j_hardfork_foundation.
Proof. unfold j_hardfork_foundation, hardfork_foundation_fields. by_fields. Qed.
#[local] Hint Resolve plain_hardfork_foundation : plain.
Lemma plain_hardfork_v2 : writes_plain j_hardfork_v2.
Proof. unfold j_hardfork_v2, hardfork_v2_fields. by_fields. Qed.
#[local] Hint Resolve plain_hardfork_v2 : plain.
Lemma plain_network : forall p, writes_plain (j_network p).
Proof. intros p. unfold j_network. unfold network_fields. by_fields. Qed.
#[local] Hint Resolve plain_network : plain.
Lemma plain_state : forall p, writes_plain (j_state p).
Proof. intros p. unfold j_state. unfold state_fields. by_fields. Qed.
#[local] Hint Resolve plain_state : plain.
Lemma plain_chain_state : forall p, writes_plain (j_chain_state p).
Proof. intros p. unfold j_chain_state. unfold chain_state_fields. by_fields. Qed.
#[local] Hint Resolve plain_chain_state : plain.

Theorem library_plain : forall A (c : codec A), LibraryJson c -> writes_plain c.
Proof.
  intros A c H. induction H; auto using plain_vec, plain_option, plain_listc with plain.
Qed.
