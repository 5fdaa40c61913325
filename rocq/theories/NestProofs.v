(** What is read from JSON is not nested more deeply when it is written again. *)

From Coq Require Import Lia.
From Verif Require Import Base Io SpecUtf8 SpecText SpecWire Model_encoding Model_currency Model_common Model_v1 Model_policy
  Model_v2 Model_consensus Model_text Model_json Model_jsontypes SpecJson Model_jsontext SpecJsonText PolicyProofs JsonProofs StackProofs DocProofs AcceptProofs AcceptMore SpecAccept.
Local Open Scope N_scope.
Local Open Scope jres_scope.

Definition tame {A} (c : codec A) : Prop := forall j a j', c_de c j = JOk a -> c_ser c a = JOk j' -> json_depth j' <= json_depth j.
Definition flat {A} (ser : jser A) : Prop := forall a j, ser a = JOk j -> json_depth j = 0.

Lemma flat_tame : forall A (c : codec A), flat (c_ser c) -> tame c.
Proof. intros A c F j a j' _ E. rewrite (F a j' E). lia. Qed.

Lemma in_arr_depth : forall l v, In v l -> 1 + json_depth v <= json_depth (JArr l).
Proof.
  intros l v. cbn [json_depth]. induction l as [|x l IH]; intros []; cbn [fold_right].
  - subst. lia.
  - specialize (IH H). lia.
Qed.
Lemma in_obj_depth : forall (l : list (bytes * json)) k v, In (k, v) l -> 1 + json_depth v <= json_depth (JObj l).
Proof.
  intros l k v. cbn [json_depth]. induction l as [|x l IH]; intros []; cbn [fold_right].
  - subst. cbn [snd]. lia.
  - specialize (IH H). lia.
Qed.
Lemma arr_positive : forall l, 1 <= json_depth (JArr l).
Proof. intros l. cbn [json_depth]. lia. Qed.
Lemma obj_positive : forall l, 1 <= json_depth (JObj l).
Proof. intros l. cbn [json_depth]. lia. Qed.
Lemma obj_depth : forall (l : list (bytes * json)) d, 1 <= d -> Forall (fun kv => 1 + json_depth (snd kv) <= d) l -> json_depth (JObj l) <= d.
Proof.
  intros l d P F. replace d with (1 + (d - 1)) by lia. apply depth_obj. eapply Forall_impl; [|exact F]. intros kv H. cbv beta in H. lia.
Qed.
Lemma arr_depth : forall l d, 1 <= d -> Forall (fun v => 1 + json_depth v <= d) l -> json_depth (JArr l) <= d.
Proof.
  intros l d P F. replace d with (1 + (d - 1)) by lia. apply depth_arr. eapply Forall_impl; [|exact F]. intros v H. cbv beta in H. lia.
Qed.

(** ** Lists *)

Lemma jmap_forall2 : forall A (ser : jser A) l js, jmap ser l = JOk js -> Forall2 (fun a j => ser a = JOk j) l js.
Proof.
  intros A ser l. induction l as [|a l IH]; intros js E; cbn [jmap] in E.
  - apply jok_inj in E. subst. constructor.
  - apply jbind_ok in E as (v & Ev & E). apply jbind_ok in E as (r & Er & E). apply jok_inj in E. subst. constructor; auto.
Qed.

Lemma ser_list_inv : forall A (ser : jser A) l j, ser_list ser l = JOk j -> exists js, j = JArr js /\ Forall2 (fun a j => ser a = JOk j) l js.
Proof.
  intros A ser l j E. unfold ser_list in E. apply jbind_ok in E as (js & Ej & E). apply jok_inj in E. exists js.
  split; [now symmetry|]. now apply jmap_forall2.
Qed.

Lemma both_depth : forall A (c : codec A) l js js' d, tame c -> Forall2 (reads c) l js -> Forall2 (fun a j => c_ser c a = JOk j) l js' ->
  Forall (fun v => 1 + json_depth v <= d) js -> Forall (fun v => 1 + json_depth v <= d) js'.
Proof.
  intros A c l js js' d T R. revert js'. induction R as [|a j l js R1 R IH]; intros js' S D.
  - inversion S. constructor.
  - inversion S as [|? j' ? s' S1 S2]; subst. inversion D; subst. constructor; [|now apply IH].
    pose proof (T j a j' R1 S1). lia.
Qed.

Lemma all_inside : forall l, Forall (fun v => 1 + json_depth v <= json_depth (JArr l)) l.
Proof. intros l. apply Forall_forall. intros v. apply in_arr_depth. Qed.

Lemma tame_list : forall A (c : codec A), tame c -> tame (j_list c).
Proof.
  intros A c T j l j' R S. apply list_iff in R. destruct R as (js & -> & R). apply ser_list_inv in S. destruct S as (js' & -> & S).
  apply arr_depth; [apply arr_positive|]. apply (both_depth _ c l js js' _ T R S). apply all_inside.
Qed.
Lemma tame_vec : forall A sz (c : codec A), tame c -> tame (j_vec sz c).
Proof.
  intros A sz c T j v j' R S. apply vec_iff in R. destruct R as (js & -> & R). apply ser_list_inv in S. destruct S as (js' & -> & S).
  apply arr_depth; [apply arr_positive|]. apply (both_depth _ c _ js js' _ T R S). apply all_inside.
Qed.
Lemma tame_option : forall A (c : codec A), tame c -> tame (j_option c).
Proof.
  intros A c T j [a|] j' R S; cbn [j_option c_ser c_de ser_option de_option] in *.
  - apply (T j a j'); [|exact S]. destruct j; try discriminate; apply jbind_ok in R as (y & Ry & R); apply jok_inj in R; congruence.
  - apply jok_inj in S. subst j'. cbn. lia.
Qed.
Lemma flat_list : forall A (ser : jser A) l j, flat ser -> ser_list ser l = JOk j -> json_depth j <= 1.
Proof.
  intros A ser l j F S. apply ser_list_inv in S. destruct S as (js & -> & S). apply arr_depth; [lia|].
  induction S as [|a j l js S1 S IH]; constructor; auto. rewrite (F a j S1). lia.
Qed.

(** ** Structs *)

Definition field_tame {A} (f : field A) : Prop :=
  (forall v a j, f_de f v = JOk a -> f_skip f a = false -> f_ser f a = JOk j -> json_depth j <= json_depth v) /\
  (forall a, f_default f = Some a -> f_skip f a = true).
Inductive fields_tame : forall T, fields T -> Prop :=
| tame_nil : fields_tame _ FNil
| tame_cons : forall A R (f : field A) (fs : fields R), field_tame f -> fields_tame R fs -> fields_tame _ (FCons f fs).

Fixpoint sees {T} (d : N) (fs : fields T) : T -> Prop :=
  match fs with
  | FNil => fun _ => True
  | FCons f r => fun t => ((exists v, f_de f v = JOk (fst t) /\ 1 + json_depth v <= d) \/ f_default f = Some (fst t)) /\ sees d r (snd t)
  end.

Lemma object_sees : forall T (fs : fields T) t l, fields_read fs t l -> sees (json_depth (JObj l)) fs t.
Proof.
  intros T fs t l. induction fs as [|A R f r IH]; intros H; [exact I|]. cbn [fields_read sees] in *. destruct H as [H H']. split; [|auto].
  destruct H as [(l1 & v & l2 & -> & _ & E)|[_ E]]; [left|right; exact E]. exists v. split; [exact E|].
  apply in_obj_depth with (f_name f), in_elt.
Qed.
Lemma array_sees : forall T (fs : fields T) t l0 l, incl l l0 -> collect_seq fs l = JOk t -> sees (json_depth (JArr l0)) fs t.
Proof.
  intros T fs t l0. induction fs as [|A R f r IH]; intros l L H; [exact I|]. cbn [collect_seq sees] in *. destruct l as [|v l].
  - apply jbind_ok in H as (a & Ha & H). apply jbind_ok in H as (t' & Ht & H). apply jok_inj in H. subst t. cbn [fst snd]. split.
    + right. destruct (f_default f); [|discriminate]. apply jok_inj in Ha. now subst.
    + exact (IH t' [] L Ht).
  - apply jbind_ok in H as (a & Ha & H). apply jbind_ok in H as (t' & Ht & H). apply jok_inj in H. subst t. cbn [fst snd]. split.
    + left. exists v. split; [exact Ha|]. apply in_arr_depth, L. now left.
    + apply (IH t' l); [|exact Ht]. intros x Hx. apply L. now right.
Qed.

Lemma de_struct_sees : forall T (fs : fields T) j t, de_struct fs j = JOk t -> sees (json_depth j) fs t /\ 1 <= json_depth j.
Proof.
  intros T fs j t H. destruct j as [| | | | | |l|l]; try discriminate.
  - split; [|apply arr_positive]. cbn [de_struct] in H. apply (array_sees T fs t l l); [intros x Hx; exact Hx|exact H].
  - split; [|apply obj_positive]. apply object_iff in H. now apply object_sees.
Qed.

Lemma sees_depth : forall T (fs : fields T) d t l, fields_tame T fs -> sees d fs t -> ser_fields fs t = JOk l ->
  Forall (fun kv => 1 + json_depth (snd kv) <= d) l.
Proof.
  intros T fs d t l H. revert t l. induction H as [|A R f fs [Hf Hd] H IH]; intros t l W E; cbn [ser_fields sees] in *.
  - apply jok_inj in E. subst. constructor.
  - destruct W as [W W']. destruct (f_skip f (fst t)) eqn:K; [now apply (IH (snd t))|].
    apply jbind_ok in E as (v & Ev & E). apply jbind_ok in E as (r & Er & E). apply jok_inj in E. subst l.
    constructor; [|now apply (IH (snd t))]. cbn [snd]. destruct W as [(w & Ew & D)|W].
    + pose proof (Hf w (fst t) v Ew K Ev). lia.
    + rewrite (Hd _ W) in K. discriminate.
Qed.

Lemma tame_struct : forall T A (fs : fields T) (tuple : A -> T) make, (forall t, tuple (make t) = t) -> fields_tame T fs ->
  tame (struct_codec fs tuple make).
Proof.
  intros T A fs tuple make TM F j a j' R S. cbn [struct_codec c_ser c_de] in *. unfold ser_struct in S.
  apply jbind_ok in S as (l & El & S). apply jok_inj in S. subst j'. apply jbind_ok in R as (t & Et & R). apply jok_inj in R. subst a.
  rewrite TM in El. destruct (de_struct_sees _ _ _ _ Et) as [W P]. apply obj_depth; [exact P|].
  now apply (sees_depth T fs _ t).
Qed.

Lemma tf_plain : forall A R name (c : codec A) (fs : fields R), tame c -> fields_tame R fs -> fields_tame _ (FCons (plain name c) fs).
Proof. intros A R name c fs Hc H. apply tame_cons; [|exact H]. split; [intros v a j D _ S; exact (Hc v a j D S)|discriminate]. Qed.
Lemma tf_vec : forall sz A R name (c : codec (vec sz A)) (fs : fields R), tame c -> fields_tame R fs -> fields_tame _ (FCons (opt_vec name c) fs).
Proof.
  intros sz A R name c fs Hc H. apply tame_cons; [|exact H]. split; [intros v a j D _ S; exact (Hc v a j D S)|].
  cbn [opt_vec f_default f_skip]. intros a E. injection E as <-. reflexivity.
Qed.
Lemma tf_option : forall A R name (c : codec (option A)) (fs : fields R), tame c -> fields_tame R fs -> fields_tame _ (FCons (opt_option name c) fs).
Proof.
  intros A R name c fs Hc H. apply tame_cons; [|exact H]. split; [intros v a j D _ S; exact (Hc v a j D S)|].
  cbn [opt_option f_default f_skip]. intros a E. injection E as <-. reflexivity.
Qed.

(** ** The leaves *)

Lemma text_flat : forall t j, ser_text t = JOk j -> json_depth j = 0.
Proof. intros t j E. unfold ser_text in E. destruct (_ <=? _); [|discriminate]. apply jok_inj in E. now subst. Qed.

Ltac by_flat := apply flat_tame; intros a j E; cbn [c_ser] in E; apply jok_inj in E; now subst.
Lemma tame_bool : tame j_bool. Proof. by_flat. Qed.
Lemma tame_u8 : tame j_u8. Proof. by_flat. Qed.
Lemma tame_u64 : tame j_u64. Proof. by_flat. Qed.
Lemma tame_string : tame j_string. Proof. by_flat. Qed.
Lemma tame_duration : tame j_duration. Proof. by_flat. Qed.
Lemma tame_hash : tame j_hash. Proof. by_flat. Qed.
Lemma tame_address : tame j_address. Proof. by_flat. Qed.
Lemma tame_leaf : tame j_leaf. Proof. by_flat. Qed.
Lemma tame_public_key : tame j_public_key. Proof. by_flat. Qed.
Lemma tame_signature : tame j_signature. Proof. by_flat. Qed.
Lemma tame_work : tame j_work. Proof. by_flat. Qed.
Lemma tame_currency : forall p, tame (j_currency p). Proof. intros p. by_flat. Qed.
Lemma flat_odt : flat ser_odt.
Proof. intros a j E. unfold ser_odt in E. destruct (rfc3339_text a); [|discriminate]. apply jok_inj in E. now subst. Qed.
Lemma tame_odt : tame j_odt.
Proof. apply flat_tame. exact flat_odt. Qed.
Lemma flat_base64 : forall sz, flat (@ser_base64 sz).
Proof. intros sz v j E. exact (text_flat _ _ E). Qed.
Lemma tame_base64 : tame j_base64.
Proof. apply flat_tame. exact (flat_base64 1). Qed.
Lemma tame_unlock_key : tame j_unlock_key.
Proof. apply flat_tame. intros k j E. cbn [j_unlock_key c_ser] in E. apply jbind_ok in E as (t & _ & E). exact (text_flat _ _ E). Qed.
Lemma de_list_positive : forall A (de : jde A) j l, de_list de j = JOk l -> 1 <= json_depth j.
Proof. intros A de j l H. destruct j; try discriminate. apply arr_positive. Qed.
Lemma tame_vec_base64 : tame j_vec_base64.
Proof.
  intros j a j' R S. cbn [j_vec_base64 c_ser c_de] in *. unfold de_vec_base64 in R. apply jbind_ok in R as (l & El & _).
  apply de_list_positive in El. pose proof (flat_list _ _ (vlist a) j' (flat_base64 1) S). lia.
Qed.
Lemma tame_timestamps : tame j_timestamps.
Proof.
  intros j a j' R S. cbn [j_timestamps c_ser c_de] in *. unfold de_timestamps in R. destruct j as [| | | | | |l|l]; try discriminate.
  pose proof (arr_positive l). pose proof (flat_list _ _ (flist a) j' flat_odt S). lia.
Qed.
Lemma tame_specifier : tame j_specifier.
Proof.
  intros j a j' R S. cbn [j_specifier c_ser c_de] in *. apply jbind_ok in R as (l & El & _).
  apply de_list_positive in El. assert (F : flat ser_u8) by (intros b x E; apply jok_inj in E; now subst).
  pose proof (flat_list _ _ (aval a) j' F S). lia.
Qed.

(** ** The types *)

Ltac by_fields T :=
  apply tame_struct;
  [intros t; unfold T; repeat match goal with x : (_ * _)%type |- _ => destruct x end;
   repeat match goal with x : unit |- _ => destruct x end; reflexivity|];
  repeat (apply tame_nil || apply tf_plain || apply tf_vec || apply tf_option);
  repeat apply tame_vec; repeat apply tame_option; auto with tame.

#[local] Hint Resolve tame_bool tame_u8 tame_u64 tame_string tame_base64 tame_vec_base64 tame_odt tame_timestamps tame_duration
  tame_hash tame_address tame_leaf tame_public_key tame_signature tame_work tame_currency tame_specifier tame_unlock_key : tame.

Lemma tame_chain_index : tame j_chain_index.
Proof. unfold j_chain_index, chain_index_fields. by_fields chain_index_tuple. Qed.
#[local] Hint Resolve tame_chain_index : tame.
Lemma tame_siacoin_output : forall p, tame (j_siacoin_output p).
Proof. intros p. unfold j_siacoin_output, siacoin_output_fields. by_fields siacoin_output_tuple. Qed.
#[local] Hint Resolve tame_siacoin_output : tame.
Lemma tame_siafund_output : tame j_siafund_output.
Proof. unfold j_siafund_output, siafund_output_fields. by_fields siafund_output_tuple. Qed.
#[local] Hint Resolve tame_siafund_output : tame.
Lemma tame_state_element : tame j_state_element.
Proof. unfold j_state_element, state_element_fields. by_fields state_element_tuple. Qed.
#[local] Hint Resolve tame_state_element : tame.
Lemma tame_unlock_conditions : tame j_unlock_conditions.
Proof. unfold j_unlock_conditions, unlock_conditions_fields. by_fields unlock_conditions_tuple. Qed.
#[local] Hint Resolve tame_unlock_conditions : tame.
Lemma tame_v1_siacoin_input : tame j_v1_siacoin_input.
Proof. unfold j_v1_siacoin_input, v1_siacoin_input_fields. by_fields v1_siacoin_input_tuple. Qed.
#[local] Hint Resolve tame_v1_siacoin_input : tame.
Lemma tame_v1_siafund_input : tame j_v1_siafund_input.
Proof. unfold j_v1_siafund_input, v1_siafund_input_fields. by_fields v1_siafund_input_tuple. Qed.
#[local] Hint Resolve tame_v1_siafund_input : tame.
Lemma tame_v1_file_contract : forall p, tame (j_v1_file_contract p).
Proof. intros p. unfold j_v1_file_contract, v1_file_contract_fields. by_fields v1_file_contract_tuple. Qed.
#[local] Hint Resolve tame_v1_file_contract : tame.
Lemma tame_v1_file_contract_revision : forall p, tame (j_v1_file_contract_revision p).
Proof. intros p. unfold j_v1_file_contract_revision, v1_file_contract_revision_fields. by_fields v1_file_contract_revision_tuple. Qed.
#[local] Hint Resolve tame_v1_file_contract_revision : tame.
Lemma tame_v1_storage_proof : tame j_v1_storage_proof.
Proof. unfold j_v1_storage_proof, v1_storage_proof_fields. by_fields v1_storage_proof_tuple. Qed.
#[local] Hint Resolve tame_v1_storage_proof : tame.
Lemma tame_covered_fields : tame j_covered_fields.
Proof. unfold j_covered_fields, covered_fields_fields. by_fields covered_fields_tuple. Qed.
#[local] Hint Resolve tame_covered_fields : tame.
Lemma tame_transaction_signature : tame j_transaction_signature.
Proof. unfold j_transaction_signature, transaction_signature_fields. by_fields transaction_signature_tuple. Qed.
#[local] Hint Resolve tame_transaction_signature : tame.
Lemma tame_v1_transaction : forall p, tame (j_v1_transaction p).
Proof. intros p. unfold j_v1_transaction, v1_transaction_fields. by_fields v1_transaction_tuple. Qed.
#[local] Hint Resolve tame_v1_transaction : tame.
Lemma tame_block : forall p, tame (j_block p).
Proof. intros p. unfold j_block, block_fields. by_fields block_tuple. Qed.
#[local] Hint Resolve tame_block : tame.
Lemma last_inside : forall k l v, last_is k l v -> 1 + json_depth v <= json_depth (JObj l).
Proof. intros k l v (l1 & l2 & -> & _). apply in_obj_depth with (ascii k), in_elt. Qed.

Lemma two_depth : forall a b t v d, 1 <= d -> 1 + json_depth v <= d -> json_depth (JObj [(a, JStr t); (b, v)]) <= d.
Proof. intros a b t v d P D. apply obj_depth; [exact P|]. repeat constructor; cbn [snd]; [cbn; lia|exact D]. Qed.

Lemma junwrap_ok : forall A (r : jres A) x, junwrap r = JOk x -> r = JOk x.
Proof. intros A [] x H; [exact H|discriminate|exact H]. Qed.

Lemma thresh_fields_tame : forall c : codec policy, tame c -> fields_tame _ (plain "n" j_u8 #: plain "of" (j_list c) #: FNil).
Proof. intros c T. repeat (apply tame_nil || apply tf_plain); auto using tame_list with tame. Qed.

Lemma tame_policy : forall stack, tame (j_policy stack).
Proof.
  induction stack as [|stack IH]; intros j x j' R S.
  { cbn [j_policy c_de de_policy] in R. destruct j; discriminate. }
  apply (read_policy stack) in R. destruct R as (l & t & v & -> & _ & _ & V & R). cbv zeta in R.
  assert (DV : 1 + json_depth (value_of v) <= json_depth (JObj l)).
  { pose proof (value_of_depth v). pose proof (last_inside _ _ _ V). lia. }
  pose proof (obj_positive l) as P. set (d := json_depth (JObj l)) in *. clearbody d. clear V.
  cbn [j_policy c_ser] in S.
  destruct x as [h|tm|k|h|n of|a|u]; cbn [ser_policy] in S; apply jbind_ok in S as (w & Ew & S); apply jok_inj in S; subst j'; apply two_depth; try exact P.
  - destruct R as [_ R]. pose proof (tame_u64 _ _ _ R Ew). lia.
  - apply jok_inj in Ew. subst w. cbn. lia.
  - destruct R as [_ R]. pose proof (tame_public_key _ _ _ R Ew). lia.
  - destruct R as [_ R]. pose proof (tame_hash _ _ _ R Ew). lia.
  - destruct R as [_ R]. apply jbind_ok in Ew as (vn & En & Ew). apply jbind_ok in Ew as (m & Em & Ew).
    assert (Ej : value_of (JObj [(ascii "n", vn); (ascii "of", JArr m)]) = w) by congruence. clear Ew. subst w.
    apply junwrap_ok in En. apply junwrap_ok in Em.
    assert (G : exists u, 1 + json_depth u <= json_depth (value_of v) /\ reads (j_list (j_policy stack)) of u).
    { destruct R as [(o & -> & R)|(o & -> & R)].
      - pose proof (Forall_inv (Forall_inv_tail R)) as X. destruct X as [(l1 & u & l2 & -> & _ & X)|[_ []]]. exists u. split; [|exact X].
        apply in_obj_depth with (ascii "of"), in_elt.
      - destruct o as [|x [|u o]]; cbn [lists must] in R; [destruct R as [[] _]|destruct R as (_ & [] & _)|]. exists u.
        destruct R as (_ & R & _). split; [|exact R]. apply in_arr_depth. right. now left. }
    destruct G as (u & Du & G).
    assert (T : c_ser (j_list (j_policy stack)) of = JOk (JArr m)).
    { cbn [j_list c_ser]. unfold ser_list. cbn [j_policy c_ser]. rewrite Em. reflexivity. }
    pose proof (tame_list _ _ IH _ _ _ G T) as L. pose proof (value_of_depth (JObj [(ascii "n", vn); (ascii "of", JArr m)])) as Q.
    assert (Dn : json_depth vn = 0) by (apply jok_inj in En; now subst).
    assert (Z : json_depth (JObj [(ascii "n", vn); (ascii "of", JArr m)]) <= json_depth (value_of v)).
    { apply obj_depth; [lia|]. repeat constructor; cbn [snd]; lia. }
    lia.
  - destruct R as [_ R]. pose proof (tame_address _ _ _ R Ew). lia.
  - destruct R as [_ R]. pose proof (tame_unlock_conditions _ _ _ R Ew). lia.
Qed.
#[local] Hint Resolve tame_policy : tame.
Lemma tame_satisfied_policy : forall stack, tame (j_satisfied_policy stack).
Proof. intros stack. unfold j_satisfied_policy, satisfied_policy_fields. by_fields satisfied_policy_tuple. Qed.
#[local] Hint Resolve tame_satisfied_policy : tame.
Lemma tame_attestation : tame j_attestation.
Proof. unfold j_attestation, attestation_fields. by_fields attestation_tuple. Qed.
#[local] Hint Resolve tame_attestation : tame.
Lemma tame_v2_file_contract : forall p, tame (j_v2_file_contract p).
Proof. intros p. unfold j_v2_file_contract, v2_file_contract_fields. by_fields v2_file_contract_tuple. Qed.
#[local] Hint Resolve tame_v2_file_contract : tame.
Lemma tame_siacoin_element : forall p, tame (j_siacoin_element p).
Proof. intros p. unfold j_siacoin_element, siacoin_element_fields. by_fields siacoin_element_tuple. Qed.
#[local] Hint Resolve tame_siacoin_element : tame.
Lemma tame_siafund_element : forall p, tame (j_siafund_element p).
Proof. intros p. unfold j_siafund_element, siafund_element_fields. by_fields siafund_element_tuple. Qed.
#[local] Hint Resolve tame_siafund_element : tame.
Lemma tame_file_contract_element : forall p, tame (j_file_contract_element p).
Proof. intros p. unfold j_file_contract_element, file_contract_element_fields. by_fields file_contract_element_tuple. Qed.
#[local] Hint Resolve tame_file_contract_element : tame.
Lemma tame_chain_index_element : tame j_chain_index_element.
Proof. unfold j_chain_index_element, chain_index_element_fields. by_fields chain_index_element_tuple. Qed.
#[local] Hint Resolve tame_chain_index_element : tame.
Lemma tame_v2_siacoin_input : forall p stack, tame (j_v2_siacoin_input p stack).
Proof. intros p stack. unfold j_v2_siacoin_input, v2_siacoin_input_fields. by_fields v2_siacoin_input_tuple. Qed.
#[local] Hint Resolve tame_v2_siacoin_input : tame.
Lemma tame_v2_siafund_input : forall p stack, tame (j_v2_siafund_input p stack).
Proof. intros p stack. unfold j_v2_siafund_input, v2_siafund_input_fields. by_fields v2_siafund_input_tuple. Qed.
#[local] Hint Resolve tame_v2_siafund_input : tame.
Lemma tame_v2_file_contract_revision : forall p, tame (j_v2_file_contract_revision p).
Proof. intros p. unfold j_v2_file_contract_revision, v2_file_contract_revision_fields. by_fields v2_file_contract_revision_tuple. Qed.
#[local] Hint Resolve tame_v2_file_contract_revision : tame.
Lemma tame_file_contract_renewal : forall p, tame (j_file_contract_renewal p).
Proof. intros p. unfold j_file_contract_renewal, file_contract_renewal_fields. by_fields file_contract_renewal_tuple. Qed.
#[local] Hint Resolve tame_file_contract_renewal : tame.
Lemma tame_v2_storage_proof : tame j_v2_storage_proof.
Proof. unfold j_v2_storage_proof, v2_storage_proof_fields. by_fields v2_storage_proof_tuple. Qed.
#[local] Hint Resolve tame_v2_storage_proof : tame.
Lemma tame_contract_resolution : forall p, tame (j_contract_resolution p).
Proof.
  intros p j x j' R S. cbn [j_contract_resolution c_ser c_de] in *. destruct j as [| | | | | | |[|[k v] [|y l]]]; try discriminate.
  pose proof (in_obj_depth [(k, v)] k v (or_introl eq_refl)) as D.
  set (d := json_depth (JObj [(k, v)])) in *. clearbody d.
  destruct (bytes_eqb k (ascii "renewal")).
  { apply jbind_ok in R as (r & Er & R). apply jok_inj in R. subst x. apply jbind_ok in S as (w & Ew & S). apply jok_inj in S. subst j'.
    pose proof (tame_file_contract_renewal p _ _ _ Er Ew). apply obj_depth; [lia|]. repeat constructor. cbn [snd]. lia. }
  destruct (bytes_eqb k (ascii "storageProof")).
  { apply jbind_ok in R as (r & Er & R). apply jok_inj in R. subst x. apply jbind_ok in S as (w & Ew & S). apply jok_inj in S. subst j'.
    pose proof (tame_v2_storage_proof _ _ _ Er Ew). apply obj_depth; [lia|]. repeat constructor. cbn [snd]. lia. }
  destruct (bytes_eqb k (ascii "expiration")); [|discriminate].
  destruct v as [| | | | | |[|]|]; try discriminate. apply jok_inj in R. subst x. apply jok_inj in S. subst j'. cbn in D |- *. lia.
Qed.
#[local] Hint Resolve tame_contract_resolution : tame.
Lemma file_contract_element_deep : forall p j e, c_de (j_file_contract_element p) j = JOk e -> 1 <= json_depth j.
Proof.
  intros p j e H. unfold j_file_contract_element in H. cbn [struct_codec c_de] in H. apply jbind_ok in H as (t & Et & _).
  now apply de_struct_sees in Et.
Qed.
Lemma tame_file_contract_resolution : forall p, tame (j_file_contract_resolution p).
Proof.
  intros p j x j' R S. apply read_resolution in R. destruct R as (l & w & t & v & -> & _ & Lp & Rp & _ & Lr & R).
  pose proof (last_inside _ _ _ Lp) as Dp. pose proof (last_inside _ _ _ Lr) as Dr. pose proof (file_contract_element_deep _ _ _ Rp) as De.
  pose proof (value_of_depth v) as Dv. set (d := json_depth (JObj l)) in *. clearbody d.
  destruct x as [parent res]. cbn [j_file_contract_resolution c_ser] in S. unfold ser_file_contract_resolution in S.
  cbn [fcres_parent fcres_resolution] in *. apply jbind_ok in S as (a & Ea & S). apply jbind_ok in S as (b & Eb & S). apply jok_inj in S. subst j'.
  pose proof (tame_file_contract_element _ _ _ _ Rp Ea) as Ta.
  assert (Tb : 1 + json_depth b <= d).
  { destruct res as [r|r|].
    - apply jbind_ok in Eb as (c & Ec & Eb). apply jok_inj in Eb. subst b. destruct R as [_ R].
      pose proof (tame_file_contract_renewal _ _ _ _ R Ec). pose proof (value_of_depth c). lia.
    - apply jbind_ok in Eb as (c & Ec & Eb). apply jok_inj in Eb. subst b. destruct R as [_ R].
      pose proof (tame_v2_storage_proof _ _ _ R Ec). pose proof (value_of_depth c). lia.
    - apply jok_inj in Eb. subst b. cbn. lia. }
  apply obj_depth; [lia|]. repeat constructor; cbn [snd]; [lia|cbn; lia|exact Tb].
Qed.
#[local] Hint Resolve tame_file_contract_resolution : tame.
Lemma tame_v2_transaction : forall p stack, tame (j_v2_transaction p stack).
Proof. intros p stack. unfold j_v2_transaction, v2_transaction_fields. by_fields v2_transaction_tuple. Qed.
#[local] Hint Resolve tame_v2_transaction : tame.
Lemma tame_element_accumulator : tame j_element_accumulator.
Proof.
  intros j a j' R S. cbn [j_element_accumulator c_ser c_de] in *. unfold de_element_accumulator in R. apply jbind_ok in R as (t & Et & R).
  apply de_struct_sees in Et. destruct Et as [W P]. unfold inter_fields in W. cbn [sees plain f_de f_default fst snd] in W.
  destruct W as (_ & W & _). destruct W as [(v & Ev & Dv)|W]; [|discriminate].
  apply vec_iff in Ev. destruct Ev as (js & -> & _). pose proof (arr_positive js) as Q.
  unfold ser_element_accumulator in S. apply jbind_ok in S as (n & En & S). apply jbind_ok in S as (b & Eb & S). apply jok_inj in S. subst j'.
  apply jok_inj in En. subst n.
  assert (F : flat (c_ser j_hash)) by (intros h x E; apply jok_inj in E; now subst).
  pose proof (flat_list _ _ _ _ F Eb) as L. apply obj_depth; [lia|]. repeat constructor; cbn [snd]; [cbn; lia|lia].
Qed.
#[local] Hint Resolve tame_element_accumulator : tame.
Lemma tame_hardfork_dev_addr : tame j_hardfork_dev_addr.
Proof. unfold j_hardfork_dev_addr, hardfork_dev_addr_fields. by_fields hardfork_dev_addr_tuple. Qed.
#[local] Hint Resolve tame_hardfork_dev_addr : tame.
Lemma tame_hardfork_tax : tame j_hardfork_tax.
Proof. unfold j_hardfork_tax, hardfork_tax_fields. by_fields hardfork_tax_tuple. Qed.
#[local] Hint Resolve tame_hardfork_tax : tame.
Lemma tame_hardfork_storage_proof : tame j_hardfork_storage_proof.
Proof. unfold j_hardfork_storage_proof, hardfork_storage_proof_fields. by_fields hardfork_storage_proof_tuple. Qed.
#[local] Hint Resolve tame_hardfork_storage_proof : tame.
Lemma tame_hardfork_oak : tame j_hardfork_oak.
Proof. unfold j_hardfork_oak, hardfork_oak_fields. by_fields hardfork_oak_tuple. Qed.
#[local] Hint Resolve tame_hardfork_oak : tame.
Lemma tame_hardfork_asic : tame j_hardfork_asic.
Proof. unfold j_hardfork_asic, hardfork_asic_fields. by_fields hardfork_asic_tuple. Qed.
#[local] Hint Resolve tame_hardfork_asic : tame.
Lemma tame_hardfork_foundation : tame j_hardfork_foundation.
Proof. unfold j_hardfork_foundation, hardfork_foundation_fields. by_fields hardfork_foundation_tuple. Qed.
#[local] Hint Resolve tame_hardfork_foundation : tame.
Lemma tame_hardfork_v2 : tame j_hardfork_v2.
Proof. unfold j_hardfork_v2, hardfork_v2_fields. by_fields hardfork_v2_tuple. Qed.
#[local] Hint Resolve tame_hardfork_v2 : tame.
Lemma tame_network : forall p, tame (j_network p).
Proof. intros p. unfold j_network, network_fields. by_fields network_tuple. Qed.
#[local] Hint Resolve tame_network : tame.
Lemma tame_state : forall p, tame (j_state p).
Proof. intros p. unfold j_state, state_fields. by_fields state_tuple. Qed.
#[local] Hint Resolve tame_state : tame.
Lemma tame_chain_state : forall p, tame (j_chain_state p).
Proof. intros p. unfold j_chain_state, chain_state_fields. by_fields chain_state_tuple. Qed.
#[local] Hint Resolve tame_chain_state : tame.

Theorem library_tame : forall A (c : codec A), LibraryJson c -> tame c.
Proof. intros A c H. induction H; auto using tame_vec, tame_option, tame_list with tame. Qed.
