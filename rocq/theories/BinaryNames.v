(** What is written in a binary serde format, compared with JSON. *)

From Verif Require Import Base Io SpecUtf8 SpecText SpecWire SpecFormat Model_encoding Model_common Model_v1 Model_currency
  Model_policy Model_v2 Model_consensus Model_text
  TextProofs TextMore Model_json Model_jsontypes Model_binary SpecJson SpecBinary Samples JsonExamples BinaryProofs.
Local Open Scope N_scope.
Local Open Scope jres_scope.

Definition same_res (r r' : jres json) : Prop :=
  match r, r' with
  | JOk j, JOk j' => HashForms j j'
  | JErr, JErr => True
  | JPanic q, JPanic q' => q = q'
  | _, _ => False
  end.

Lemma same_refl : forall r, same_res r r.
Proof. intros [j| |q]; [constructor|exact I|reflexivity]. Qed.
Lemma codec_refl : forall A (c : codec A) a, SameUpToHashes c c a.
Proof. intros A c a. exact (same_refl (c_ser c a)). Qed.

Lemma same_list : forall A (c b : codec A) l, (forall a, SameUpToHashes c b a) -> SameUpToHashes (j_list c) (j_list b) l.
Proof.
  intros A c b l H. unfold SameUpToHashes. cbn [j_list c_ser]. unfold ser_list.
  enough (E : match jmap (c_ser c) l, jmap (c_ser b) l with
    | JOk m, JOk m' => Forall2 HashForms m m'
    | JErr, JErr => True
    | JPanic q, JPanic q' => q = q'
    | _, _ => False
    end).
  { destruct (jmap (c_ser c) l), (jmap (c_ser b) l); cbn [jbind]; try exact E; try contradiction. now constructor. }
  induction l as [|a l IH]; [constructor|]. cbn [jmap]. fold (jmap (c_ser c)). fold (jmap (c_ser b)).
  pose proof (H a) as Ha. unfold SameUpToHashes in Ha.
  destruct (c_ser c a), (c_ser b a); cbn [jbind]; try exact Ha; try contradiction.
  all: destruct (jmap (c_ser c) l), (jmap (c_ser b) l); cbn [jbind]; try exact IH; try contradiction.
  all: repeat constructor; assumption.
Qed.

Lemma same_vec : forall A sz (c b : codec A) (v : vec sz A), (forall a, SameUpToHashes c b a) ->
  SameUpToHashes (j_vec sz c) (j_vec sz b) v.
Proof. intros A sz c b v H. exact (same_list A c b (vlist v) H). Qed.

(** ** Structs *)

Inductive fields_same : forall T, fields T -> fields T -> T -> Prop :=
| fs_nil : forall t, fields_same unit FNil FNil t
| fs_cons : forall A R (f g : field A) (r s : fields R) t, f_name f = f_name g -> f_skip f = f_skip g ->
    same_res (f_ser f (fst t)) (f_ser g (fst t)) -> fields_same R r s (snd t) ->
    fields_same (A * R) (FCons f r) (FCons g s) t.

Lemma same_struct : forall T A (fs gs : fields T) (tuple : A -> T) make make' a, fields_same T fs gs (tuple a) ->
  SameUpToHashes (struct_codec fs tuple make) (struct_codec gs tuple make') a.
Proof.
  intros T A fs gs tuple make make' a H. unfold SameUpToHashes. cbn [struct_codec c_ser]. unfold ser_struct.
  generalize dependent (tuple a). intros t H.
  enough (E : match ser_fields fs t, ser_fields gs t with
    | JOk m, JOk m' => Forall2 (fun x y => fst x = fst y /\ HashForms (snd x) (snd y)) m m'
    | JErr, JErr => True
    | JPanic q, JPanic q' => q = q'
    | _, _ => False
    end).
  { destruct (ser_fields fs t), (ser_fields gs t); cbn [jbind]; try exact E; try contradiction. now constructor. }
  clear a tuple make make'. induction H as [t|X R f g r s t N K V H IH]; [constructor|]. cbn [ser_fields]. rewrite <- K.
  destruct (f_skip f (fst t)); [exact IH|].
  destruct (f_ser f (fst t)), (f_ser g (fst t)); cbn [same_res] in V; cbn [jbind]; try exact V; try contradiction.
  all: destruct (ser_fields r (snd t)), (ser_fields s (snd t)); cbn [jbind]; try exact IH; try contradiction.
  all: repeat (constructor; try assumption).
Qed.

Create HintDb bsame.
#[local] Hint Constants Opaque : bsame.

Lemma same_hash : forall h, SameUpToHashes j_hash b_hash h.
Proof.
  intros h. unfold SameUpToHashes. rewrite hash_form. cbn [j_hash c_ser]. apply forms_hash; [apply hash_text_spec|apply arr_len].
Qed.
#[global] Hint Resolve same_hash : bsame.

Lemma same_key : forall k, SameUpToHashes j_unlock_key b_unlock_key k.
Proof. intros k. exact (same_refl _). Qed.
#[global] Hint Resolve same_key : bsame.

Lemma cons_plain : forall A R n m (c b : codec A) (r s : fields R) t, n = m -> SameUpToHashes c b (fst t) ->
  fields_same R r s (snd t) -> fields_same (A * R) (FCons (plain n c) r) (FCons (plain m b) s) t.
Proof. intros A R n m c b r s t <- H1 H2. apply fs_cons; [reflexivity|reflexivity|exact H1|exact H2]. Qed.
Lemma cons_opt_vec : forall A R sz n m (c b : codec (vec sz A)) (r s : fields R) t, n = m -> SameUpToHashes c b (fst t) ->
  fields_same R r s (snd t) -> fields_same (vec sz A * R) (FCons (opt_vec n c) r) (FCons (opt_vec m b) s) t.
Proof. intros A R sz n m c b r s t <- H1 H2. apply fs_cons; [reflexivity|reflexivity|exact H1|exact H2]. Qed.
Lemma cons_opt_option : forall A R n m (c b : codec (option A)) (r s : fields R) t, n = m -> SameUpToHashes c b (fst t) ->
  fields_same R r s (snd t) -> fields_same (option A * R) (FCons (opt_option n c) r) (FCons (opt_option m b) s) t.
Proof. intros A R n m c b r s t <- H1 H2. apply fs_cons; [reflexivity|reflexivity|exact H1|exact H2]. Qed.

Ltac scodec :=
  lazymatch goal with
  | |- SameUpToHashes ?c ?b ?a => generalize a;
    first [ constr_eq c b; exact (codec_refl _ c) | solve [auto with bsame nocore]
          | intros ?; apply same_vec; solve [auto with bsame nocore] ]
  end.
Ltac head_of t := match t with ?f _ => head_of f | _ => t end.
Ltac sstruct :=
  match goal with |- SameUpToHashes ?c ?b _ => let c := head_of c in let b := head_of b in unfold c, b end;
  apply same_struct;
  match goal with |- fields_same _ ?f ?g _ => let f := head_of f in let g := head_of g in unfold f, g end;
  repeat first [ apply cons_plain; [reflexivity|scodec|] | apply cons_opt_vec; [reflexivity|scodec|]
               | apply cons_opt_option; [reflexivity|scodec|] ];
  apply fs_nil.

Lemma same_chain_index : forall a, SameUpToHashes j_chain_index b_chain_index a.
Proof. intros a. sstruct. Qed.
#[global] Hint Resolve same_chain_index : bsame.

Lemma same_state_element : forall a, SameUpToHashes j_state_element b_state_element a.
Proof. intros a. sstruct. Qed.
#[global] Hint Resolve same_state_element : bsame.

Lemma same_unlock_conditions : forall a, SameUpToHashes j_unlock_conditions b_unlock_conditions a.
Proof. intros a. sstruct. Qed.
#[global] Hint Resolve same_unlock_conditions : bsame.

Lemma same_v1_siacoin_input : forall a, SameUpToHashes j_v1_siacoin_input b_v1_siacoin_input a.
Proof. intros a. sstruct. Qed.
#[global] Hint Resolve same_v1_siacoin_input : bsame.

Lemma same_v1_siafund_input : forall a, SameUpToHashes j_v1_siafund_input b_v1_siafund_input a.
Proof. intros a. sstruct. Qed.
#[global] Hint Resolve same_v1_siafund_input : bsame.

Lemma same_v1_file_contract : forall p a, SameUpToHashes (j_v1_file_contract p) (b_v1_file_contract p) a.
Proof. intros p a. sstruct. Qed.
#[global] Hint Resolve same_v1_file_contract : bsame.

Lemma same_v1_file_contract_revision : forall p a, SameUpToHashes (j_v1_file_contract_revision p) (b_v1_file_contract_revision p) a.
Proof. intros p a. sstruct. Qed.
#[global] Hint Resolve same_v1_file_contract_revision : bsame.

Lemma same_v1_storage_proof : forall a, SameUpToHashes j_v1_storage_proof b_v1_storage_proof a.
Proof. intros a. sstruct. Qed.
#[global] Hint Resolve same_v1_storage_proof : bsame.

Lemma same_transaction_signature : forall a, SameUpToHashes j_transaction_signature b_transaction_signature a.
Proof. intros a. sstruct. Qed.
#[global] Hint Resolve same_transaction_signature : bsame.

Lemma same_v1_transaction : forall p a, SameUpToHashes (j_v1_transaction p) (b_v1_transaction p) a.
Proof. intros p a. sstruct. Qed.
#[global] Hint Resolve same_v1_transaction : bsame.

Lemma same_block : forall p a, SameUpToHashes (j_block p) (b_block p) a.
Proof. intros p a. sstruct. Qed.
#[global] Hint Resolve same_block : bsame.


Lemma same_policy : forall stack x, SameUpToHashes (j_policy stack) (b_policy stack) x.
Proof.
  intros stack x. unfold SameUpToHashes. cbn [j_policy b_policy c_ser].
  destruct x as [h|t|k|h|n l|a|u]; cbn [b_ser_policy].
  1, 2, 3, 5, 6: match goal with |- match ?r with _ => _ end => exact (same_refl r) end.
  all: cbn [ser_policy].
  - pose proof (same_hash h) as H. unfold SameUpToHashes in H.
    destruct (c_ser j_hash h), (c_ser b_hash h); cbn [jbind]; try exact H; try contradiction.
    all: apply forms_object; repeat (constructor; cbn [fst snd]; try assumption).
  - pose proof (same_unlock_conditions u) as H. unfold SameUpToHashes in H.
    destruct (c_ser j_unlock_conditions u), (c_ser b_unlock_conditions u); cbn [jbind]; try exact H; try contradiction.
    all: apply forms_object; repeat (constructor; cbn [fst snd]; try assumption).
Qed.
#[global] Hint Resolve same_policy : bsame.

Lemma same_satisfied_policy : forall stack a, SameUpToHashes (j_satisfied_policy stack) (b_satisfied_policy stack) a.
Proof. intros stack a. sstruct. Qed.
#[global] Hint Resolve same_satisfied_policy : bsame.

Lemma same_v2_file_contract : forall p a, SameUpToHashes (j_v2_file_contract p) (b_v2_file_contract p) a.
Proof. intros p a. sstruct. Qed.
#[global] Hint Resolve same_v2_file_contract : bsame.

Lemma same_siacoin_element : forall p a, SameUpToHashes (j_siacoin_element p) (b_siacoin_element p) a.
Proof. intros p a. sstruct. Qed.
#[global] Hint Resolve same_siacoin_element : bsame.

Lemma same_siafund_element : forall p a, SameUpToHashes (j_siafund_element p) (b_siafund_element p) a.
Proof. intros p a. sstruct. Qed.
#[global] Hint Resolve same_siafund_element : bsame.

Lemma same_file_contract_element : forall p a, SameUpToHashes (j_file_contract_element p) (b_file_contract_element p) a.
Proof. intros p a. sstruct. Qed.
#[global] Hint Resolve same_file_contract_element : bsame.

Lemma same_chain_index_element : forall a, SameUpToHashes j_chain_index_element b_chain_index_element a.
Proof. intros a. sstruct. Qed.
#[global] Hint Resolve same_chain_index_element : bsame.

Lemma same_v2_siacoin_input : forall p stack a, SameUpToHashes (j_v2_siacoin_input p stack) (b_v2_siacoin_input p stack) a.
Proof. intros p stack a. sstruct. Qed.
#[global] Hint Resolve same_v2_siacoin_input : bsame.

Lemma same_v2_siafund_input : forall p stack a, SameUpToHashes (j_v2_siafund_input p stack) (b_v2_siafund_input p stack) a.
Proof. intros p stack a. sstruct. Qed.
#[global] Hint Resolve same_v2_siafund_input : bsame.

Lemma same_v2_file_contract_revision : forall p a, SameUpToHashes (j_v2_file_contract_revision p) (b_v2_file_contract_revision p) a.
Proof. intros p a. sstruct. Qed.
#[global] Hint Resolve same_v2_file_contract_revision : bsame.

Lemma same_file_contract_renewal : forall p a, SameUpToHashes (j_file_contract_renewal p) (b_file_contract_renewal p) a.
Proof. intros p a. sstruct. Qed.
#[global] Hint Resolve same_file_contract_renewal : bsame.

Lemma same_v2_storage_proof : forall a, SameUpToHashes j_v2_storage_proof b_v2_storage_proof a.
Proof. intros a. sstruct. Qed.
#[global] Hint Resolve same_v2_storage_proof : bsame.


Lemma same_contract_resolution : forall p r, SameUpToHashes (j_contract_resolution p) (b_contract_resolution p) r.
Proof.
  intros p r. unfold SameUpToHashes. cbn [j_contract_resolution b_contract_resolution c_ser]. destruct r as [x|x|].
  - pose proof (same_file_contract_renewal p x) as H. unfold SameUpToHashes in H.
    destruct (c_ser (j_file_contract_renewal p) x), (c_ser (b_file_contract_renewal p) x); cbn [jbind]; try exact H; try contradiction.
    all: apply forms_object; repeat (constructor; cbn [fst snd]; try assumption).
  - pose proof (same_v2_storage_proof x) as H. unfold SameUpToHashes in H.
    destruct (c_ser j_v2_storage_proof x), (c_ser b_v2_storage_proof x); cbn [jbind]; try exact H; try contradiction.
    all: apply forms_object; repeat (constructor; cbn [fst snd]; try assumption).
  - constructor.
Qed.
#[global] Hint Resolve same_contract_resolution : bsame.

Lemma same_file_contract_resolution : forall p r, SameUpToHashes (j_file_contract_resolution p) (b_file_contract_resolution p) r.
Proof.
  intros p r. unfold SameUpToHashes. cbn [j_file_contract_resolution b_file_contract_resolution c_ser].
  unfold ser_file_contract_resolution, b_ser_file_contract_resolution.
  pose proof (same_file_contract_element p (fcres_parent r)) as H. unfold SameUpToHashes in H.
  destruct (c_ser (j_file_contract_element p) (fcres_parent r)), (c_ser (b_file_contract_element p) (fcres_parent r));
    cbn [jbind]; try exact H; try contradiction.
  all: match goal with |- match (_ <- ?x ;; _) with _ => _ end => destruct x end; cbn [jbind]; try exact I; try reflexivity.
  all: apply forms_object; repeat (constructor; cbn [fst snd]; try assumption).
Qed.
#[global] Hint Resolve same_file_contract_resolution : bsame.

Lemma same_v2_transaction : forall p stack a, SameUpToHashes (j_v2_transaction p stack) (b_v2_transaction p stack) a.
Proof. intros p stack a. sstruct. Qed.
#[global] Hint Resolve same_v2_transaction : bsame.


Lemma same_element_accumulator : forall a, SameUpToHashes j_element_accumulator b_element_accumulator a.
Proof.
  intros a. unfold SameUpToHashes. cbn [j_element_accumulator b_element_accumulator c_ser].
  unfold ser_element_accumulator, b_ser_element_accumulator. destruct (c_ser j_u64 (ea_num_leaves a)); cbn [jbind]; try exact I; try reflexivity.
  pose proof (same_list _ j_hash b_hash (present_trees (ea_num_leaves a) 0 (flist (ea_trees a))) same_hash) as H. unfold SameUpToHashes in H.
  destruct (c_ser (j_list j_hash) _), (c_ser (j_list b_hash) _); cbn [jbind]; try exact H; try contradiction.
  all: apply forms_object; repeat (constructor; cbn [fst snd]; try assumption).
Qed.
#[global] Hint Resolve same_element_accumulator : bsame.

Lemma same_hardfork_asic : forall a, SameUpToHashes j_hardfork_asic b_hardfork_asic a.
Proof. intros a. sstruct. Qed.
#[global] Hint Resolve same_hardfork_asic : bsame.

Lemma same_network : forall p a, SameUpToHashes (j_network p) (b_network p) a.
Proof. intros p a. sstruct. Qed.
#[global] Hint Resolve same_network : bsame.

Lemma same_state : forall p a, SameUpToHashes (j_state p) (b_state p) a.
Proof. intros p a. sstruct. Qed.
#[global] Hint Resolve same_state : bsame.

Lemma same_chain_state : forall p a, SameUpToHashes (j_chain_state p) (b_chain_state p) a.
Proof. intros p a. sstruct. Qed.
#[global] Hint Resolve same_chain_state : bsame.


Lemma documents_same : forall p stack,
  (forall a, SameUpToHashes j_hash b_hash a) /\
  (forall a, SameUpToHashes j_chain_index b_chain_index a) /\
  (forall a, SameUpToHashes j_state_element b_state_element a) /\
  (forall a, SameUpToHashes j_unlock_key b_unlock_key a) /\
  (forall a, SameUpToHashes j_unlock_conditions b_unlock_conditions a) /\
  (forall a, SameUpToHashes j_v1_siacoin_input b_v1_siacoin_input a) /\
  (forall a, SameUpToHashes j_v1_siafund_input b_v1_siafund_input a) /\
  (forall a, SameUpToHashes (j_v1_file_contract p) (b_v1_file_contract p) a) /\
  (forall a, SameUpToHashes (j_v1_file_contract_revision p) (b_v1_file_contract_revision p) a) /\
  (forall a, SameUpToHashes j_v1_storage_proof b_v1_storage_proof a) /\
  (forall a, SameUpToHashes j_transaction_signature b_transaction_signature a) /\
  (forall a, SameUpToHashes (j_v1_transaction p) (b_v1_transaction p) a) /\
  (forall a, SameUpToHashes (j_block p) (b_block p) a) /\
  (forall a, SameUpToHashes (j_policy stack) (b_policy stack) a) /\
  (forall a, SameUpToHashes (j_satisfied_policy stack) (b_satisfied_policy stack) a) /\
  (forall a, SameUpToHashes (j_v2_file_contract p) (b_v2_file_contract p) a) /\
  (forall a, SameUpToHashes (j_siacoin_element p) (b_siacoin_element p) a) /\
  (forall a, SameUpToHashes (j_siafund_element p) (b_siafund_element p) a) /\
  (forall a, SameUpToHashes (j_file_contract_element p) (b_file_contract_element p) a) /\
  (forall a, SameUpToHashes j_chain_index_element b_chain_index_element a) /\
  (forall a, SameUpToHashes (j_v2_siacoin_input p stack) (b_v2_siacoin_input p stack) a) /\
  (forall a, SameUpToHashes (j_v2_siafund_input p stack) (b_v2_siafund_input p stack) a) /\
  (forall a, SameUpToHashes (j_v2_file_contract_revision p) (b_v2_file_contract_revision p) a) /\
  (forall a, SameUpToHashes (j_file_contract_renewal p) (b_file_contract_renewal p) a) /\
  (forall a, SameUpToHashes j_v2_storage_proof b_v2_storage_proof a) /\
  (forall a, SameUpToHashes (j_contract_resolution p) (b_contract_resolution p) a) /\
  (forall a, SameUpToHashes (j_file_contract_resolution p) (b_file_contract_resolution p) a) /\
  (forall a, SameUpToHashes (j_v2_transaction p stack) (b_v2_transaction p stack) a) /\
  (forall a, SameUpToHashes j_element_accumulator b_element_accumulator a) /\
  (forall a, SameUpToHashes j_hardfork_asic b_hardfork_asic a) /\
  (forall a, SameUpToHashes (j_network p) (b_network p) a) /\
  (forall a, SameUpToHashes (j_state p) (b_state p) a) /\
  (forall a, SameUpToHashes (j_chain_state p) (b_chain_state p) a).
Proof.
  intros p stack. exact (conj same_hash
    (conj same_chain_index
    (conj same_state_element
    (conj same_key
    (conj same_unlock_conditions
    (conj same_v1_siacoin_input
    (conj same_v1_siafund_input
    (conj (same_v1_file_contract p)
    (conj (same_v1_file_contract_revision p)
    (conj same_v1_storage_proof
    (conj same_transaction_signature
    (conj (same_v1_transaction p)
    (conj (same_block p)
    (conj (same_policy stack)
    (conj (same_satisfied_policy stack)
    (conj (same_v2_file_contract p)
    (conj (same_siacoin_element p)
    (conj (same_siafund_element p)
    (conj (same_file_contract_element p)
    (conj same_chain_index_element
    (conj (same_v2_siacoin_input p stack)
    (conj (same_v2_siafund_input p stack)
    (conj (same_v2_file_contract_revision p)
    (conj (same_file_contract_renewal p)
    (conj same_v2_storage_proof
    (conj (same_contract_resolution p)
    (conj (same_file_contract_resolution p)
    (conj (same_v2_transaction p stack)
    (conj same_element_accumulator
    (conj same_hardfork_asic
    (conj (same_network p)
    (conj (same_state p)
    (same_chain_state p))))))))))))))))))))))))))))))))).
Qed.

Lemma documents_example : exists j b, c_ser j_chain_index (MkChainIndex (uwrap 64 7) (s_hash 1)) = JOk j /\
  c_ser b_chain_index (MkChainIndex (uwrap 64 7) (s_hash 1)) = JOk b /\ HashForms j b /\ j <> b.
Proof.
  pose proof (same_chain_index (MkChainIndex (uwrap 64 7) (s_hash 1))) as H. unfold SameUpToHashes in H.
  destruct (c_ser j_chain_index _) as [j| |] eqn:E; try discriminate E.
  destruct (c_ser b_chain_index _) as [b| |] eqn:F; try discriminate F.
  exists j, b. repeat split; [exact H|]. intros <-. rewrite <- F in E. discriminate E.
Qed.
