(** What is read in a binary serde format, compared with JSON. *)

From Verif Require Import Base Io Model_encoding Model_common Model_v1 Model_currency
  Model_policy Model_v2 Model_consensus Model_text Model_json Model_jsontypes Model_binary SpecBinary Samples JsonExamples.
Local Open Scope N_scope.
Local Open Scope jres_scope.

Lemma same_reading_refl : forall A (c : codec A), SameReading c c.
Proof. intros A c j. reflexivity. Qed.

Lemma reading_list : forall A (c b : codec A), SameReading c b -> forall j, de_list (c_de c) j = de_list (c_de b) j.
Proof.
  intros A c b H j. unfold de_list. destruct j as [| | | | | |l|]; try reflexivity.
  induction l as [|x l IH]; [reflexivity|]. cbn [jmap]. fold (jmap (c_de c)). fold (jmap (c_de b)). now rewrite H, IH.
Qed.
Lemma reading_vec : forall A sz (c b : codec A), SameReading c b -> SameReading (j_vec sz c) (j_vec sz b).
Proof. intros A sz c b H j. cbn [j_vec c_de]. unfold de_vec. now rewrite (reading_list A c b H). Qed.

Inductive fields_read : forall T, fields T -> fields T -> Prop :=
| fr_nil : fields_read unit FNil FNil
| fr_cons : forall A R (f g : field A) (r s : fields R), f_name f = f_name g -> f_default f = f_default g ->
    (forall j, f_de f j = f_de g j) -> fields_read R r s -> fields_read (A * R) (FCons f r) (FCons g s).

Lemma read_entry : forall T (fs gs : fields T), fields_read T fs gs -> forall k v, check_entry fs k v = check_entry gs k v.
Proof.
  intros T fs gs H k v. induction H as [|A R f g r s N D V H IH]; [reflexivity|]. cbn [check_entry]. now rewrite N, V, IH.
Qed.
Lemma read_entries : forall T (fs gs : fields T), fields_read T fs gs -> forall l seen,
  check_entries fs seen l = check_entries gs seen l.
Proof.
  intros T fs gs H l. induction l as [|[k v] l IH]; intros seen; [reflexivity|]. cbn [check_entries].
  rewrite (read_entry T fs gs H). destruct (check_entry gs k v); [|apply IH]. now rewrite IH.
Qed.
Lemma read_fields : forall T (fs gs : fields T), fields_read T fs gs -> forall l, collect_fields fs l = collect_fields gs l.
Proof.
  intros T fs gs H l. induction H as [|A R f g r s N D V H IH]; [reflexivity|]. cbn [collect_fields]. rewrite N, D, IH.
  destruct (find_entry (f_name g) l); [now rewrite V|reflexivity].
Qed.
Lemma read_seq : forall T (fs gs : fields T), fields_read T fs gs -> forall l, collect_seq fs l = collect_seq gs l.
Proof.
  intros T fs gs H. induction H as [|A R f g r s N D V H IH]; intros l; [reflexivity|]. cbn [collect_seq]. rewrite D.
  destruct l; now rewrite ?V, IH.
Qed.
Lemma read_struct : forall T (fs gs : fields T), fields_read T fs gs -> forall j, de_struct fs j = de_struct gs j.
Proof.
  intros T fs gs H j. unfold de_struct. destruct j; try reflexivity.
  - now apply read_seq.
  - now rewrite (read_entries T fs gs H), (read_fields T fs gs H).
Qed.
Lemma reading_struct : forall T A (fs gs : fields T) (tuple tuple' : A -> T) make make', fields_read T fs gs ->
  (forall t, make t = make' t) -> SameReading (struct_codec fs tuple make) (struct_codec gs tuple' make').
Proof.
  intros T A fs gs tuple tuple' make make' H M j. cbn [struct_codec c_de]. rewrite (read_struct T fs gs H).
  destruct (de_struct gs j); cbn [jbind]; now rewrite ?M.
Qed.

Create HintDb bread.
#[local] Hint Constants Opaque : bread.

Lemma reading_hash : SameReading j_hash b_hash.
Proof. intros j. reflexivity. Qed.
#[global] Hint Resolve reading_hash : bread.

Lemma read_plain : forall A R n m (c b : codec A) (r s : fields R), n = m -> SameReading c b ->
  fields_read R r s -> fields_read (A * R) (FCons (plain n c) r) (FCons (plain m b) s).
Proof. intros A R n m c b r s <- H1 H2. apply fr_cons; [reflexivity|reflexivity|exact H1|exact H2]. Qed.
Lemma read_opt_vec : forall A R sz n m (c b : codec (vec sz A)) (r s : fields R), n = m -> SameReading c b ->
  fields_read R r s -> fields_read (vec sz A * R) (FCons (opt_vec n c) r) (FCons (opt_vec m b) s).
Proof. intros A R sz n m c b r s <- H1 H2. apply fr_cons; [reflexivity|reflexivity|exact H1|exact H2]. Qed.
Lemma read_opt_option : forall A R n m (c b : codec (option A)) (r s : fields R), n = m -> SameReading c b ->
  fields_read R r s -> fields_read (option A * R) (FCons (opt_option n c) r) (FCons (opt_option m b) s).
Proof. intros A R n m c b r s <- H1 H2. apply fr_cons; [reflexivity|reflexivity|exact H1|exact H2]. Qed.

Ltac rcodec :=
  lazymatch goal with
  | |- SameReading ?c ?b =>
    first [ constr_eq c b; exact (same_reading_refl _ c) | solve [auto with bread nocore]
          | apply reading_vec; solve [auto with bread nocore] ]
  end.
Ltac head_of t := match t with ?f _ => head_of f | _ => t end.
Ltac rstruct :=
  match goal with |- SameReading ?c ?b => let c := head_of c in let b := head_of b in unfold c, b end;
  apply reading_struct;
  [ match goal with |- fields_read _ ?f ?g => let f := head_of f in let g := head_of g in unfold f, g end;
    repeat first [ apply read_plain; [reflexivity|rcodec|] | apply read_opt_vec; [reflexivity|rcodec|]
                 | apply read_opt_option; [reflexivity|rcodec|] ];
    apply fr_nil
  | intros t; reflexivity ].

Lemma reading_chain_index : SameReading j_chain_index b_chain_index.
Proof. rstruct. Qed.
#[global] Hint Resolve reading_chain_index : bread.

Lemma reading_state_element : SameReading j_state_element b_state_element.
Proof. rstruct. Qed.
#[global] Hint Resolve reading_state_element : bread.

Lemma reading_v1_storage_proof : SameReading j_v1_storage_proof b_v1_storage_proof.
Proof. rstruct. Qed.
#[global] Hint Resolve reading_v1_storage_proof : bread.

Lemma reading_transaction_signature : SameReading j_transaction_signature b_transaction_signature.
Proof. rstruct. Qed.
#[global] Hint Resolve reading_transaction_signature : bread.

Lemma reading_v1_file_contract : forall p, SameReading (j_v1_file_contract p) (b_v1_file_contract p).
Proof. intros p. rstruct. Qed.
#[global] Hint Resolve reading_v1_file_contract : bread.

Lemma reading_policy : forall stack, SameReading (j_policy stack) (b_policy stack).
Proof. intros stack j. reflexivity. Qed.
#[global] Hint Resolve reading_policy : bread.

Lemma reading_satisfied_policy : forall stack, SameReading (j_satisfied_policy stack) (b_satisfied_policy stack).
Proof. intros stack. rstruct. Qed.
#[global] Hint Resolve reading_satisfied_policy : bread.

Lemma reading_v2_file_contract : forall p, SameReading (j_v2_file_contract p) (b_v2_file_contract p).
Proof. intros p. rstruct. Qed.
#[global] Hint Resolve reading_v2_file_contract : bread.

Lemma reading_siacoin_element : forall p, SameReading (j_siacoin_element p) (b_siacoin_element p).
Proof. intros p. rstruct. Qed.
#[global] Hint Resolve reading_siacoin_element : bread.

Lemma reading_siafund_element : forall p, SameReading (j_siafund_element p) (b_siafund_element p).
Proof. intros p. rstruct. Qed.
#[global] Hint Resolve reading_siafund_element : bread.

Lemma reading_file_contract_element : forall p, SameReading (j_file_contract_element p) (b_file_contract_element p).
Proof. intros p. rstruct. Qed.
#[global] Hint Resolve reading_file_contract_element : bread.

Lemma reading_chain_index_element : SameReading j_chain_index_element b_chain_index_element.
Proof. rstruct. Qed.
#[global] Hint Resolve reading_chain_index_element : bread.

Lemma reading_v2_siacoin_input : forall p stack, SameReading (j_v2_siacoin_input p stack) (b_v2_siacoin_input p stack).
Proof. intros p stack. rstruct. Qed.
#[global] Hint Resolve reading_v2_siacoin_input : bread.

Lemma reading_v2_siafund_input : forall p stack, SameReading (j_v2_siafund_input p stack) (b_v2_siafund_input p stack).
Proof. intros p stack. rstruct. Qed.
#[global] Hint Resolve reading_v2_siafund_input : bread.

Lemma reading_v2_file_contract_revision : forall p, SameReading (j_v2_file_contract_revision p) (b_v2_file_contract_revision p).
Proof. intros p. rstruct. Qed.
#[global] Hint Resolve reading_v2_file_contract_revision : bread.

Lemma reading_file_contract_renewal : forall p, SameReading (j_file_contract_renewal p) (b_file_contract_renewal p).
Proof. intros p. rstruct. Qed.
#[global] Hint Resolve reading_file_contract_renewal : bread.

Lemma reading_v2_storage_proof : SameReading j_v2_storage_proof b_v2_storage_proof.
Proof. rstruct. Qed.
#[global] Hint Resolve reading_v2_storage_proof : bread.

Lemma reading_contract_resolution : forall p, SameReading (j_contract_resolution p) (b_contract_resolution p).
Proof.
  intros p j. cbn [j_contract_resolution b_contract_resolution c_de].
  destruct j as [| | | | | | |l]; try reflexivity. destruct l as [|[k v] [|q l]]; try reflexivity.
  now rewrite (reading_file_contract_renewal p v), (reading_v2_storage_proof v).
Qed.
#[global] Hint Resolve reading_contract_resolution : bread.

Lemma reading_file_contract_resolution : forall p, SameReading (j_file_contract_resolution p) (b_file_contract_resolution p).
Proof.
  intros p j. cbn [j_file_contract_resolution b_file_contract_resolution c_de].
  unfold de_file_contract_resolution, b_de_file_contract_resolution.
  destruct j as [| | | | | | |l]; try reflexivity.
  assert (E : forall l a t v, visit_resolution p a t v l = b_visit_resolution p a t v l).
  { clear l. intros l. induction l as [|[k x] l IH]; intros a t v; [reflexivity|]. cbn [visit_resolution b_visit_resolution].
    rewrite (reading_file_contract_element p x), IH. destruct (c_de (b_file_contract_element p) x); cbn [jbind]; rewrite ?IH;
    destruct (de_string x); cbn [jbind]; now rewrite ?IH. }
  now rewrite E.
Qed.
#[global] Hint Resolve reading_file_contract_resolution : bread.

Lemma reading_v2_transaction : forall p stack, SameReading (j_v2_transaction p stack) (b_v2_transaction p stack).
Proof. intros p stack. rstruct. Qed.
#[global] Hint Resolve reading_v2_transaction : bread.

Lemma reading_element_accumulator : SameReading j_element_accumulator b_element_accumulator.
Proof.
  intros j. cbn [j_element_accumulator b_element_accumulator c_de]. unfold de_element_accumulator, b_de_element_accumulator.
  assert (E : de_struct inter_fields j = de_struct b_inter_fields j).
  { apply read_struct. unfold inter_fields, b_inter_fields. apply read_plain; [reflexivity|rcodec|].
    apply read_plain; [reflexivity|rcodec|]. apply fr_nil. }
  now rewrite E.
Qed.
#[global] Hint Resolve reading_element_accumulator : bread.

Lemma reading_hardfork_asic : SameReading j_hardfork_asic b_hardfork_asic.
Proof. rstruct. Qed.
#[global] Hint Resolve reading_hardfork_asic : bread.

Lemma reading_network : forall p, SameReading (j_network p) (b_network p).
Proof. intros p. rstruct. Qed.
#[global] Hint Resolve reading_network : bread.

Lemma reading_state : forall p, SameReading (j_state p) (b_state p).
Proof. intros p. rstruct. Qed.
#[global] Hint Resolve reading_state : bread.

Lemma reading_chain_state : forall p, SameReading (j_chain_state p) (b_chain_state p).
Proof. intros p. rstruct. Qed.
#[global] Hint Resolve reading_chain_state : bread.

Lemma documents_read : forall p stack,
  SameReading j_hash b_hash /\
  SameReading j_chain_index b_chain_index /\
  SameReading j_state_element b_state_element /\
  SameReading j_v1_storage_proof b_v1_storage_proof /\
  SameReading j_transaction_signature b_transaction_signature /\
  SameReading (j_v1_file_contract p) (b_v1_file_contract p) /\
  SameReading (j_policy stack) (b_policy stack) /\
  SameReading (j_satisfied_policy stack) (b_satisfied_policy stack) /\
  SameReading (j_v2_file_contract p) (b_v2_file_contract p) /\
  SameReading (j_siacoin_element p) (b_siacoin_element p) /\
  SameReading (j_siafund_element p) (b_siafund_element p) /\
  SameReading (j_file_contract_element p) (b_file_contract_element p) /\
  SameReading j_chain_index_element b_chain_index_element /\
  SameReading (j_v2_siacoin_input p stack) (b_v2_siacoin_input p stack) /\
  SameReading (j_v2_siafund_input p stack) (b_v2_siafund_input p stack) /\
  SameReading (j_v2_file_contract_revision p) (b_v2_file_contract_revision p) /\
  SameReading (j_file_contract_renewal p) (b_file_contract_renewal p) /\
  SameReading j_v2_storage_proof b_v2_storage_proof /\
  SameReading (j_contract_resolution p) (b_contract_resolution p) /\
  SameReading (j_file_contract_resolution p) (b_file_contract_resolution p) /\
  SameReading (j_v2_transaction p stack) (b_v2_transaction p stack) /\
  SameReading j_element_accumulator b_element_accumulator /\
  SameReading j_hardfork_asic b_hardfork_asic /\
  SameReading (j_network p) (b_network p) /\
  SameReading (j_state p) (b_state p) /\
  SameReading (j_chain_state p) (b_chain_state p).
Proof.
  intros p stack. exact (conj reading_hash
    (conj reading_chain_index
    (conj reading_state_element
    (conj reading_v1_storage_proof
    (conj reading_transaction_signature
    (conj (reading_v1_file_contract p)
    (conj (reading_policy stack)
    (conj (reading_satisfied_policy stack)
    (conj (reading_v2_file_contract p)
    (conj (reading_siacoin_element p)
    (conj (reading_siafund_element p)
    (conj (reading_file_contract_element p)
    (conj reading_chain_index_element
    (conj (reading_v2_siacoin_input p stack)
    (conj (reading_v2_siafund_input p stack)
    (conj (reading_v2_file_contract_revision p)
    (conj (reading_file_contract_renewal p)
    (conj reading_v2_storage_proof
    (conj (reading_contract_resolution p)
    (conj (reading_file_contract_resolution p)
    (conj (reading_v2_transaction p stack)
    (conj reading_element_accumulator
    (conj reading_hardfork_asic
    (conj (reading_network p)
    (conj (reading_state p)
    (reading_chain_state p)))))))))))))))))))))))))).
Qed.
