(** Which values survive a binary serde format. *)

From Verif Require Import Base Io SpecUtf8 SpecText SpecWire SpecFormat Model_encoding Model_common Model_v1 Model_currency
  Model_policy Model_v2 Model_consensus Model_text
  TextProofs Model_json Model_jsontypes Model_binary SpecJson SpecBinary JsonProofs JsonLeafProofs JsonTypeProofs JsonStateProofs.
Local Open Scope N_scope.
Local Open Scope jres_scope.

Lemma ok_kept : forall A (c : codec A) d a, ok c d a -> Kept c a.
Proof. intros A c d a (j & S & _ & _ & R). exists j. split; [exact S|]. apply R. constructor. Qed.

(** ** Structs *)

Definition field_kept {A} (f : field A) (a : A) : Prop :=
  f_skip f a = true \/ exists j b, f_ser f a = JOk j /\ f_de f j = JOk b.
Definition field_lost {A} (f : field A) (a : A) : Prop :=
  f_skip f a = false /\ exists j, f_ser f a = JOk j /\ f_de f j = JErr.
Fixpoint fields_fine {T} (fs : fields T) : T -> Prop :=
  match fs with
  | FNil => fun _ => True
  | FCons f r => fun t => (field_kept f (fst t) \/ field_lost f (fst t)) /\ fields_fine r (snd t)
  end.
Fixpoint some_lost {T} (fs : fields T) : T -> Prop :=
  match fs with
  | FNil => fun _ => False
  | FCons f r => fun t => field_lost f (fst t) \/ some_lost r (snd t)
  end.

Lemma fine_written : forall T (fs : fields T) t, fields_fine fs t -> exists l, ser_fields fs t = JOk l.
Proof.
  intros T fs. induction fs as [|A R f r IH]; intros t H; [now exists []|].
  destruct H as [H1 H2]. destruct (IH _ H2) as [l Hl]. cbn [ser_fields].
  destruct (f_skip f (fst t)) eqn:K; [now exists l|].
  assert (E : exists j, f_ser f (fst t) = JOk j).
  { destruct H1 as [[E|(j & b & E & _)]|(_ & j & E & _)]; [congruence|eauto|eauto]. }
  destruct E as [j ->]. cbn [jbind]. rewrite Hl. cbn [jbind]. eauto.
Qed.

(** Some field is written and cannot be read, and no field before it panics. *)
Lemma struct_fields_lost : forall T (fs : fields T) t, NoDup (names fs) -> fields_fine fs t -> some_lost fs t ->
  exists l, ser_fields fs t = JOk l /\ forall U (FS : fields U) seen,
    (forall k v, In k (names fs) -> check_entry FS k v = check_entry fs k v) ->
    (forall k, In k (names fs) -> ~ In k seen) ->
    check_entries FS seen l = JErr.
Proof.
  intros T fs. induction fs as [|A R f r IH]; intros t N H L; [destruct L|].
  cbn [names] in N. inversion N as [|? ? N1 N2]; subst. cbn [fields_fine some_lost] in H, L. destruct H as [H1 H2].
  cbn [ser_fields].
  assert (Sub : forall U (FS : fields U), (forall k v, In k (names (FCons f r)) -> check_entry FS k v = check_entry (FCons f r) k v) ->
    forall k v, In k (names r) -> check_entry FS k v = check_entry r k v).
  { intros U FS E k v Hk. rewrite E by now right. cbn [check_entry].
    rewrite bytes_eqb_ne; [reflexivity|]. intros ->. contradiction. }
  assert (NS : forall seen, (forall k, In k (names (FCons f r)) -> ~ In k seen) -> seen_before (f_name f) seen = false).
  { intros seen D. unfold seen_before. destruct (existsb _ seen) eqn:E; [|reflexivity].
    apply existsb_exists in E. destruct E as (k & Hk & Ek). apply bytes_eqb_eq in Ek. subst k.
    exfalso. apply (D (f_name f)); [now left|exact Hk]. }
  assert (Head : forall U (FS : fields U) v, (forall k v, In k (names (FCons f r)) -> check_entry FS k v = check_entry (FCons f r) k v) ->
    check_entry FS (f_name f) v = Some (_ <- f_de f v ;; JOk tt)).
  { intros U FS v E. rewrite E by now left. cbn [check_entry]. now rewrite bytes_eqb_refl. }
  destruct H1 as [[K|(j & b & S & D)]|(K & j & S & D)].
  - rewrite K. destruct L as [[K' _]|L]; [congruence|]. destruct (IH _ N2 H2 L) as (l & Hl & C).
    exists l. split; [exact Hl|]. intros U FS seen E Dj. apply C; [now apply Sub|]. intros k Hk. apply Dj. now right.
  - destruct (f_skip f (fst t)) eqn:K.
    { destruct L as [[K' _]|L]; [congruence|]. destruct (IH _ N2 H2 L) as (l & Hl & C).
      exists l. split; [exact Hl|]. intros U FS seen E Dj. apply C; [now apply Sub|]. intros k Hk. apply Dj. now right. }
    assert (L' : some_lost r (snd t)).
    { destruct L as [(_ & j' & S' & D')|L]; [|exact L]. rewrite S in S'. injection S' as <-. congruence. }
    destruct (IH _ N2 H2 L') as (l & Hl & C). exists ((f_name f, j) :: l). rewrite S. cbn [jbind]. rewrite Hl.
    split; [reflexivity|]. intros U FS seen E Dj. cbn [check_entries]. rewrite (Head _ _ _ E), D, (NS _ Dj). cbn [jbind].
    apply C; [now apply Sub|]. intros k Hk [<-|Hs]; [contradiction|]. apply (Dj k); [now right|exact Hs].
  - rewrite K. destruct (fine_written _ _ _ H2) as [l Hl]. exists ((f_name f, j) :: l). rewrite S. cbn [jbind]. rewrite Hl.
    split; [reflexivity|]. intros U FS seen E Dj. cbn [check_entries]. rewrite (Head _ _ _ E), D, (NS _ Dj). reflexivity.
Qed.

Lemma de_struct_lost : forall T (fs : fields T) t, distinct_names (names fs) = true -> fields_fine fs t -> some_lost fs t ->
  exists j, ser_struct fs t = JOk j /\ de_struct fs j = JErr.
Proof.
  intros T fs t N H L. apply distinct_names_nodup in N. destruct (struct_fields_lost _ _ _ N H L) as (l & Hl & C).
  exists (JObj l). unfold ser_struct. rewrite Hl. split; [reflexivity|]. cbn [de_struct].
  rewrite C; [reflexivity|auto|intros k _ []].
Qed.

Lemma struct_lost : forall T A (fs : fields T) (tuple : A -> T) make a,
  distinct_names (names fs) = true -> fields_fine fs (tuple a) -> some_lost fs (tuple a) ->
  Lost (struct_codec fs tuple make) a.
Proof.
  intros T A fs tuple make a N H L. destruct (de_struct_lost _ _ _ N H L) as (j & S & D).
  exists j. cbn [struct_codec c_ser c_de]. rewrite D. now split.
Qed.

(** ** Fields *)

Lemma plain_kept : forall A (c : codec A) n a, Kept c a -> field_kept (plain n c) a.
Proof. intros A c n a (j & S & D). right. exists j, a. now split. Qed.
Lemma plain_lost : forall A (c : codec A) n a, Lost c a -> field_lost (plain n c) a.
Proof. intros A c n a (j & S & D). split; [reflexivity|]. exists j. now split. Qed.
Lemma opt_vec_kept : forall sz A (c : codec (vec sz A)) n a, Kept c a -> field_kept (opt_vec n c) a.
Proof. intros sz A c n a (j & S & D). right. exists j, a. now split. Qed.
Lemma opt_vec_lost : forall sz A (c : codec (vec sz A)) n a, vlist a <> [] -> Lost c a -> field_lost (opt_vec n c) a.
Proof.
  intros sz A c n a H (j & S & D). split; [|exists j; now split]. cbn [opt_vec f_skip]. unfold vec_is_empty.
  destruct (vlist a); [contradiction|reflexivity].
Qed.

(** A vector of values none of which can be read back. *)
Lemma lost_list : forall A (c : codec A) l, Forall (Lost c) l -> l <> [] -> Lost (j_list c) l.
Proof.
  intros A c l H E.
  assert (W : forall m, Forall (Lost c) m -> exists js, jmap (c_ser c) m = JOk js).
  { induction 1 as [|a m (j & S & _) _ (js & Sm)]; [now exists []|]. exists (j :: js). cbn [jmap]. rewrite S. cbn [jbind].
    fold (jmap (c_ser c)). now rewrite Sm. }
  destruct H as [|a l (j & S & D) H]; [contradiction|]. destruct (W _ H) as [js Sm]. exists (JArr (j :: js)).
  cbn [j_list c_ser c_de]. unfold ser_list, de_list. cbn [jmap]. rewrite S. cbn [jbind]. fold (jmap (c_ser c)). rewrite Sm.
  cbn [jbind]. split; [reflexivity|]. now rewrite D.
Qed.

Lemma lost_vec : forall A (c : codec A) sz (v : vec sz A), VecAll (Lost c) v -> vlist v <> [] -> Lost (j_vec sz c) v.
Proof.
  intros A c sz v H E. destruct (lost_list _ _ _ H E) as (j & S & D). exists j. split; [exact S|].
  cbn [j_vec c_de j_list] in *. unfold de_vec. now rewrite D.
Qed.

Lemma empty_ok : forall A (c : codec A) sz d (v : vec sz A), vlist v = [] -> ok (j_vec sz c) (1 + d) v.
Proof. intros A c sz d v E. apply jvec_ok. unfold VecAll. rewrite E. constructor. Qed.

Lemma empty_dec : forall A sz (v : vec sz A), vlist v = [] \/ vlist v <> [].
Proof. intros A sz v. destruct (vlist v); [now left|now right]. Qed.

(** ** Hashes and keys *)

Lemma hash_form : forall h : hash256, c_ser b_hash h = JOk (JArr (map (fun b => JUint (uwrap 64 (b2n b))) (aval h))).
Proof.
  intros h. cbn [b_hash c_ser]. unfold ser_list. enough (E : jmap ser_u8 (aval h) = JOk (map (fun b => JUint (uwrap 64 (b2n b))) (aval h)))
    by now rewrite E.
  induction (aval h) as [|b l IH]; [reflexivity|]. cbn [jmap map]. unfold ser_u8 at 1. cbn [jbind]. fold (jmap ser_u8). now rewrite IH.
Qed.

Lemma lost_hash : forall h, Lost b_hash h.
Proof. intros h. eexists. split; [apply hash_form|reflexivity]. Qed.

Lemma lost_key : forall k, json_key k -> Lost b_unlock_key k.
Proof.
  intros k H. destruct (ok_unlock_key k H) as (j & S & _). exists j. split; [exact S|].
  cbn [j_unlock_key c_ser] in S. destruct (joutcome (unlock_key_text k)) as [t| |q]; try discriminate S. cbn [jbind] in S.
  unfold ser_text in S. destruct (_ <=? _); [|discriminate S]. injection S as <-. reflexivity.
Qed.

(** The form that is read. *)
Lemma key_read : forall k, exists a l, c_ser j_specifier (uk_algorithm k) = JOk a /\ c_ser (j_vec 1 j_u8) (uk_key k) = JOk l /\
  c_de b_unlock_key (JArr [a; l]) = JOk k.
Proof.
  intros k. destruct (ok_kept _ _ _ _ (ok_specifier (uk_algorithm k))) as (a & Sa & Da).
  destruct (ok_kept _ _ _ _ (vec_plain _ _ 1 0 (uk_key k) ok_u8)) as (l & Sl & Dl).
  exists a, l. split; [exact Sa|]. split; [exact Sl|]. cbn [b_unlock_key c_de]. rewrite Da. cbn [jbind].
  cbn [j_vec c_de j_u8] in Dl. rewrite Dl. cbn [jbind]. now destruct k.
Qed.

(** ** Types *)

Create HintDb blost.
#[local] Hint Constants Opaque : jok.
#[local] Hint Constants Opaque : blost.
#[global] Hint Resolve lost_hash lost_key : blost.

Ltac lelem := first
  [ solve [eauto with blost]
  | lazymatch goal with |- Lost (j_vec _ _) _ => idtac end;
    first [ apply lost_vec; [apply Forall_forall; solve [eauto with blost]|assumption]
          | apply lost_vec; [eapply Forall_impl; [|eassumption]; solve [eauto with blost]|assumption] ] ].

Ltac kelem := first
  [ solve [eauto with jok]
  | lazymatch goal with |- ok (j_vec _ _) _ _ => idtac end;
    first [ apply (empty_ok _ _ _ 0); assumption
          | apply vec_plain; solve [eauto with jok]
          | eapply vec_cond; [|eassumption]; solve [eauto with jok] ] ].

(** A field, decided by whether its vector is empty where that matters. *)
Ltac bfield_now :=
  lazymatch goal with
  | |- field_kept (plain _ _) _ \/ _ =>
    first [right; apply plain_lost; solve [lelem] | left; apply plain_kept; eapply ok_kept; solve [kelem]]
  | |- field_kept (opt_vec _ _) _ \/ _ =>
    first [ right; apply opt_vec_lost; [assumption|solve [lelem]]
          | left; apply opt_vec_kept; eapply ok_kept; solve [kelem] ]
  end.
Ltac bfield := first
  [ bfield_now
  | match goal with
    | |- field_kept _ ?a \/ _ => destruct (empty_dec _ _ a); solve [bfield_now]
    end ].

Lemma plain_fate : forall A (c : codec A) n a, Kept c a \/ Lost c a -> field_kept (plain n c) a \/ field_lost (plain n c) a.
Proof. intros A c n a [H|H]; [left; now apply plain_kept|right; now apply plain_lost]. Qed.
Create HintDb bfate.
#[local] Hint Constants Opaque : bfate.

Ltac bfine fs tup :=
  unfold fs, tup; cbn [fields_fine fst snd];
  repeat match goal with |- _ /\ _ => split | |- True => exact I end;
  try first [apply plain_fate; solve [eauto 3 with bfate nocore] | bfield].

Ltac bsome_at := first [left; apply plain_lost; solve [eauto with blost] | left; apply plain_lost; solve [lelem] | right; bsome_at].

Ltac bstruct fs tup :=
  apply struct_lost; [reflexivity|bfine fs tup|unfold fs, tup; cbn [some_lost fst snd]; bsome_at].

Lemma lost_chain_index : forall a, Lost b_chain_index a.
Proof. intros a. unfold b_chain_index. bstruct b_chain_index_fields chain_index_tuple. Qed.
#[global] Hint Resolve lost_chain_index : blost.

Lemma state_element_fate : forall a,
  (vlist (se_merkle_proof a) = [] -> Kept b_state_element a) /\
  (vlist (se_merkle_proof a) <> [] -> Lost b_state_element a).
Proof.
  intros a. split; intros H.
  - apply (ok_kept _ _ (1 + 1)). unfold b_state_element. apply struct_ok; [reflexivity| |now destruct a].
    unfold b_state_element_fields, state_element_tuple. cbn [fields_ok fst snd].
    split; [apply plain_ok, (ok_weaken _ _ 0); [apply ok_u64|lia]|].
    split; [|exact I]. apply plain_ok. apply (ok_weaken _ _ (1 + 0)); [now apply empty_ok|lia].
  - unfold b_state_element. bstruct b_state_element_fields state_element_tuple.
Qed.

Lemma fate_state_element : forall a, Kept b_state_element a \/ Lost b_state_element a.
Proof. intros a. destruct (empty_dec _ _ (se_merkle_proof a)) as [E|E]; [left|right]; now apply state_element_fate. Qed.
#[global] Hint Resolve fate_state_element : bfate.

Lemma conditions_fate : forall a, json_conditions a ->
  (vlist (uc_public_keys a) = [] -> Kept b_unlock_conditions a) /\
  (vlist (uc_public_keys a) <> [] -> Lost b_unlock_conditions a).
Proof.
  intros a C. unfold json_conditions in C. split; intros H.
  - apply (ok_kept _ _ (1 + 1)). unfold b_unlock_conditions. apply struct_ok; [reflexivity| |now destruct a].
    unfold b_unlock_conditions_fields, unlock_conditions_tuple. cbn [fields_ok fst snd].
    repeat split; apply plain_ok; [apply (ok_weaken _ _ 0); [apply ok_u64|lia]
      |apply (ok_weaken _ _ (1 + 0)); [now apply empty_ok|lia]|apply (ok_weaken _ _ 0); [apply ok_u64|lia]].
  - unfold b_unlock_conditions. bstruct b_unlock_conditions_fields unlock_conditions_tuple.
Qed.
Lemma fate_conditions : forall a, json_conditions a -> Kept b_unlock_conditions a \/ Lost b_unlock_conditions a.
Proof. intros a H. destruct (empty_dec _ _ (uc_public_keys a)) as [E|E]; [left|right]; now apply conditions_fate. Qed.
#[global] Hint Resolve fate_conditions : bfate.

Lemma lost_v1_siacoin_input : forall a, json_v1_siacoin_input a -> Lost b_v1_siacoin_input a.
Proof.
  intros a H. unfold json_v1_siacoin_input in H. unfold b_v1_siacoin_input.
  bstruct b_v1_siacoin_input_fields v1_siacoin_input_tuple.
Qed.
Lemma lost_v1_siafund_input : forall a, json_v1_siafund_input a -> Lost b_v1_siafund_input a.
Proof.
  intros a H. unfold json_v1_siafund_input in H. unfold b_v1_siafund_input.
  bstruct b_v1_siafund_input_fields v1_siafund_input_tuple.
Qed.
Lemma lost_v1_file_contract : forall p a, Lost (b_v1_file_contract p) a.
Proof. intros p a. unfold b_v1_file_contract. bstruct b_v1_file_contract_fields v1_file_contract_tuple. Qed.
Lemma lost_v1_file_contract_revision : forall p a, json_v1_revision a -> Lost (b_v1_file_contract_revision p) a.
Proof.
  intros p a H. unfold json_v1_revision in H. unfold b_v1_file_contract_revision.
  bstruct b_v1_file_contract_revision_fields v1_file_contract_revision_tuple.
Qed.
Lemma lost_v1_storage_proof : forall a, Lost b_v1_storage_proof a.
Proof. intros a. unfold b_v1_storage_proof. bstruct b_v1_storage_proof_fields v1_storage_proof_tuple. Qed.
Lemma lost_transaction_signature : forall a, json_v1_signature a -> Lost b_transaction_signature a.
Proof.
  intros a H. unfold json_v1_signature in H. unfold b_transaction_signature.
  bstruct b_transaction_signature_fields transaction_signature_tuple.
Qed.
#[global] Hint Resolve lost_v1_siacoin_input lost_v1_siafund_input lost_v1_file_contract lost_v1_file_contract_revision
  lost_v1_storage_proof lost_transaction_signature : blost.

(** A field whose vector is empty or not, in a struct whose other fields may be lost too. *)
Ltac bsome_vec := first [left; apply opt_vec_lost; [assumption|solve [lelem]] | right; bsome_vec].

Lemma v1_transaction_fate : forall p a, json_v1_transaction a ->
  let empty := vlist (v1t_siacoin_inputs a) = [] /\ vlist (v1t_file_contracts a) = [] /\
    vlist (v1t_file_contract_revisions a) = [] /\ vlist (v1t_storage_proofs a) = [] /\
    vlist (v1t_siafund_inputs a) = [] /\ vlist (v1t_signatures a) = [] in
  (empty -> Kept (b_v1_transaction p) a) /\ (~ empty -> Lost (b_v1_transaction p) a).
Proof.
  intros p a H empty. unfold json_v1_transaction in H. jhyps. split; intros E.
  - unfold empty in E. clear empty. jhyps. apply (ok_kept _ _ (1 + 4)). unfold b_v1_transaction.
    apply struct_ok; [reflexivity| |now destruct a]. unfold b_v1_transaction_fields, v1_transaction_tuple.
    cbn [fields_ok fst snd]. repeat match goal with |- _ /\ _ => split | |- True => exact I end;
    apply opt_vec_ok; first [eapply (ok_weaken _ _ (1 + 3)); [apply empty_ok; assumption|lia]|eapply ok_weaken; [jelem|lia]].
  - unfold b_v1_transaction. apply struct_lost; [reflexivity|bfine b_v1_transaction_fields v1_transaction_tuple|].
    unfold b_v1_transaction_fields, v1_transaction_tuple. cbn [some_lost fst snd].
    destruct (empty_dec _ _ (v1t_siacoin_inputs a)); [|bsome_vec].
    destruct (empty_dec _ _ (v1t_file_contracts a)); [|bsome_vec].
    destruct (empty_dec _ _ (v1t_file_contract_revisions a)); [|bsome_vec].
    destruct (empty_dec _ _ (v1t_storage_proofs a)); [|bsome_vec].
    destruct (empty_dec _ _ (v1t_siafund_inputs a)); [|bsome_vec].
    destruct (empty_dec _ _ (v1t_signatures a)); [|bsome_vec].
    exfalso. apply E. unfold empty. tauto.
Qed.

(** A vector of values some of which can be read back. *)
Lemma fate_list : forall A (c : codec A) l, Forall (fun a => Kept c a \/ Lost c a) l -> Kept (j_list c) l \/ Lost (j_list c) l.
Proof.
  intros A c l H. cbn. unfold Kept, Lost, ser_list, de_list. cbn [j_list c_ser c_de]. unfold ser_list, de_list.
  assert (G : exists js, jmap (c_ser c) l = JOk js /\ (jmap (c_de c) js = JOk l \/ jmap (c_de c) js = JErr)).
  { induction H as [|a l Ha _ (js & S & D)]; [exists []; split; [reflexivity|now left]|].
    destruct Ha as [(j & Sj & Dj)|(j & Sj & Dj)]; exists (j :: js); cbn [jmap]; rewrite Sj, Dj; cbn [jbind];
      fold (jmap (c_ser c)); fold (jmap (c_de c)); rewrite S; cbn [jbind]; (split; [reflexivity|]); [|now right].
    destruct D as [->| ->]; cbn [jbind]; [now left|now right]. }
  destruct G as (js & S & [D|D]); [left|right]; exists (JArr js); rewrite S; now split.
Qed.
Lemma fate_vec : forall A (c : codec A) sz (v : vec sz A), VecAll (fun a => Kept c a \/ Lost c a) v ->
  Kept (j_vec sz c) v \/ Lost (j_vec sz c) v.
Proof.
  intros A c sz v H. destruct (fate_list _ _ _ H) as [(j & S & D)|(j & S & D)]; [left|right]; exists j; (split; [exact S|]);
    cbn [j_vec c_de j_list] in *; unfold de_vec; rewrite D; cbn [jbind]; [now rewrite vec_of_vlist|reflexivity].
Qed.

Lemma fate_v1_transaction : forall p a, json_v1_transaction a -> Kept (b_v1_transaction p) a \/ Lost (b_v1_transaction p) a.
Proof.
  intros p a H. destruct (v1_transaction_fate p a H) as [K L]. cbv zeta in K, L.
  destruct (empty_dec _ _ (v1t_siacoin_inputs a)); [|right; apply L; tauto].
  destruct (empty_dec _ _ (v1t_file_contracts a)); [|right; apply L; tauto].
  destruct (empty_dec _ _ (v1t_file_contract_revisions a)); [|right; apply L; tauto].
  destruct (empty_dec _ _ (v1t_storage_proofs a)); [|right; apply L; tauto].
  destruct (empty_dec _ _ (v1t_siafund_inputs a)); [|right; apply L; tauto].
  destruct (empty_dec _ _ (v1t_signatures a)); [|right; apply L; tauto].
  left. apply K. tauto.
Qed.

Lemma fate_v1_transactions : forall p (v : vec 240 v1_transaction), VecAll json_v1_transaction v ->
  Kept (j_vec 240 (b_v1_transaction p)) v \/ Lost (j_vec 240 (b_v1_transaction p)) v.
Proof. intros p v H. apply fate_vec. eapply Forall_impl; [|exact H]. apply fate_v1_transaction. Qed.
#[global] Hint Resolve fate_v1_transactions : bfate.

Lemma lost_block : forall p a, json_block a -> Lost (b_block p) a.
Proof. intros p a H. unfold json_block in H. jhyps. unfold b_block. bstruct b_block_fields block_tuple. Qed.

(** ** Policies *)

Lemma policy_plain : forall stack x, (forall h, x <> PHash h) -> c_ser (b_policy stack) x = c_ser (j_policy stack) x.
Proof. intros stack [ | | | h | | | u] H; try reflexivity. exfalso. now apply (H h). Qed.

Lemma kept_policy : forall n stack x, (n <= stack)%nat -> json_policy_upto n x -> (forall h, x <> PHash h) ->
  ok (b_policy stack) (3 * N.of_nat n) x.
Proof.
  intros n stack x Hn H E. destruct (ok_policy n stack x Hn H) as (j & S & D & L & R).
  exists j. rewrite policy_plain by exact E. now repeat split.
Qed.

Lemma lost_policy : forall stack h, Lost (b_policy (S stack)) (PHash h).
Proof.
  intros stack h. eexists. split.
  - cbn [b_policy c_ser b_ser_policy]. rewrite hash_form. reflexivity.
  - cbn [b_policy c_de de_policy visit_policy type_str].
    change (bytes_eqb (ascii "type") (ascii "type")) with true.
    destruct (de_string_ok (ascii "h")) as (s & -> & Es); [reflexivity|cbn; lia|]. cbn [jbind].
    change (bytes_eqb (ascii "policy") (ascii "type")) with false. change (bytes_eqb (ascii "policy") (ascii "policy")) with true.
    cbv iota. rewrite Es. cbn [jbind fst snd jopt].
    change (bytes_eqb (ascii "h") (ascii "above")) with false. change (bytes_eqb (ascii "h") (ascii "after")) with false.
    change (bytes_eqb (ascii "h") (ascii "pk")) with false. change (bytes_eqb (ascii "h") (ascii "h")) with true.
    cbv iota. cbn [value_of]. reflexivity.
Qed.

Lemma policy_fate : forall n stack x, (n <= stack)%nat -> json_policy_upto n x ->
  ((forall h, x <> PHash h) -> Kept (b_policy stack) x) /\ (forall h, x = PHash h -> Lost (b_policy stack) x).
Proof.
  intros n stack x Hn H. split.
  - intros E. eapply ok_kept. eapply kept_policy; eassumption.
  - intros h ->. destruct H as [_ D]. cbn in D. destruct stack as [|stack]; [lia|]. apply lost_policy.
Qed.

Lemma hash_policy_dec : forall x, (exists h, x = PHash h) \/ (forall h, x <> PHash h).
Proof. intros [ | | | h | | | ]; try (right; intros; discriminate). left. now exists h. Qed.

Lemma fate_policy : forall n stack x, (n <= stack)%nat -> json_policy_upto n x -> Kept (b_policy stack) x \/ Lost (b_policy stack) x.
Proof.
  intros n stack x Hn H. destruct (policy_fate n stack x Hn H) as [K L].
  destruct (hash_policy_dec x) as [(h & E)|E]; [right; now apply (L h)|left; now apply K].
Qed.
#[global] Hint Resolve fate_policy : bfate.

Lemma satisfied_fate : forall n stack a, (n <= stack)%nat -> json_satisfied n a ->
  let plain := (forall h, sp_policy a <> PHash h) /\ vlist (sp_preimages a) = [] in
  (plain -> Kept (b_satisfied_policy stack) a) /\ (~ plain -> Lost (b_satisfied_policy stack) a).
Proof.
  intros n stack a Hn H plain. unfold json_satisfied in H. split; intros E.
  - destruct E as [E1 E2]. apply (ok_kept _ _ (1 + (1 + 3 * N.of_nat n))). unfold b_satisfied_policy.
    apply struct_ok; [reflexivity| |now destruct a]. unfold b_satisfied_policy_fields, satisfied_policy_tuple.
    cbn [fields_ok fst snd]. repeat split.
    + apply plain_ok. eapply ok_weaken; [eapply kept_policy; eassumption|lia].
    + apply opt_vec_ok. eapply ok_weaken; [jelem|lia].
    + apply opt_vec_ok. eapply (ok_weaken _ _ (1 + 0)); [now apply empty_ok|lia].
  - unfold b_satisfied_policy. apply struct_lost; [reflexivity|bfine b_satisfied_policy_fields satisfied_policy_tuple|].
    unfold b_satisfied_policy_fields, satisfied_policy_tuple. cbn [some_lost fst snd].
    destruct (hash_policy_dec (sp_policy a)) as [(h & Eh)|Eh].
    + left. apply plain_lost. destruct (policy_fate n stack _ Hn H) as [_ L]. now apply (L h).
    + right. right. left. apply opt_vec_lost; [|apply lost_vec; [apply Forall_forall; intros; apply lost_hash|]];
        intros Z; apply E; now split.
Qed.
Lemma fate_satisfied : forall n stack a, (n <= stack)%nat -> json_satisfied n a ->
  Kept (b_satisfied_policy stack) a \/ Lost (b_satisfied_policy stack) a.
Proof.
  intros n stack a Hn H. destruct (satisfied_fate n stack a Hn H) as [K L]. cbv zeta in K, L.
  destruct (hash_policy_dec (sp_policy a)) as [(h & Eh)|Eh]; [right; apply L; intros [Z _]; now apply (Z h)|].
  destruct (empty_dec _ _ (sp_preimages a)); [left; apply K; tauto|right; apply L; tauto].
Qed.
#[global] Hint Resolve fate_satisfied : bfate.

(** ** Version 2 *)

Lemma lost_v2_file_contract : forall p a, Lost (b_v2_file_contract p) a.
Proof. intros p a. unfold b_v2_file_contract. bstruct b_v2_file_contract_fields v2_file_contract_tuple. Qed.
#[global] Hint Resolve lost_v2_file_contract : blost.
Lemma lost_siacoin_element : forall p a, Lost (b_siacoin_element p) a.
Proof. intros p a. unfold b_siacoin_element. bstruct b_siacoin_element_fields siacoin_element_tuple. Qed.
Lemma lost_siafund_element : forall p a, Lost (b_siafund_element p) a.
Proof. intros p a. unfold b_siafund_element. bstruct b_siafund_element_fields siafund_element_tuple. Qed.
Lemma lost_file_contract_element : forall p a, Lost (b_file_contract_element p) a.
Proof. intros p a. unfold b_file_contract_element. bstruct b_file_contract_element_fields file_contract_element_tuple. Qed.
Lemma lost_chain_index_element : forall a, Lost b_chain_index_element a.
Proof. intros a. unfold b_chain_index_element. bstruct b_chain_index_element_fields chain_index_element_tuple. Qed.
#[global] Hint Resolve lost_siacoin_element lost_siafund_element lost_file_contract_element lost_chain_index_element : blost.
Lemma lost_v2_siacoin_input : forall p n stack a, (n <= stack)%nat -> json_v2_siacoin_input n a -> Lost (b_v2_siacoin_input p stack) a.
Proof.
  intros p n stack a Hn H. unfold json_v2_siacoin_input in H. unfold b_v2_siacoin_input.
  bstruct b_v2_siacoin_input_fields v2_siacoin_input_tuple.
Qed.
Lemma lost_v2_siafund_input : forall p n stack a, (n <= stack)%nat -> json_v2_siafund_input n a -> Lost (b_v2_siafund_input p stack) a.
Proof.
  intros p n stack a Hn H. unfold json_v2_siafund_input in H. unfold b_v2_siafund_input.
  bstruct b_v2_siafund_input_fields v2_siafund_input_tuple.
Qed.
Lemma lost_v2_file_contract_revision : forall p a, Lost (b_v2_file_contract_revision p) a.
Proof. intros p a. unfold b_v2_file_contract_revision. bstruct b_v2_file_contract_revision_fields v2_file_contract_revision_tuple. Qed.
Lemma lost_file_contract_renewal : forall p a, Lost (b_file_contract_renewal p) a.
Proof. intros p a. unfold b_file_contract_renewal. bstruct b_file_contract_renewal_fields file_contract_renewal_tuple. Qed.
Lemma lost_v2_storage_proof : forall a, Lost b_v2_storage_proof a.
Proof. intros a. unfold b_v2_storage_proof. bstruct b_v2_storage_proof_fields v2_storage_proof_tuple. Qed.
#[global] Hint Resolve lost_v2_siacoin_input lost_v2_siafund_input lost_v2_file_contract_revision : blost.

Lemma contract_resolution_fate : forall p r,
  (r = ResExpiration -> Kept (b_contract_resolution p) r) /\ (r <> ResExpiration -> Lost (b_contract_resolution p) r).
Proof.
  intros p [x|x|]; split; intros E; try discriminate E; try congruence.
  - destruct (lost_file_contract_renewal p x) as (j & S & D). eexists. split; [cbn [b_contract_resolution c_ser]; rewrite S; reflexivity|].
    cbn [b_contract_resolution c_de]. change (bytes_eqb (ascii "renewal") (ascii "renewal")) with true. cbv iota. now rewrite D.
  - destruct (lost_v2_storage_proof x) as (j & S & D). eexists. split; [cbn [b_contract_resolution c_ser]; rewrite S; reflexivity|].
    cbn [b_contract_resolution c_de]. change (bytes_eqb (ascii "storageProof") (ascii "renewal")) with false.
    change (bytes_eqb (ascii "storageProof") (ascii "storageProof")) with true. cbv iota. now rewrite D.
  - eexists. split; reflexivity.
Qed.

Lemma lost_resolution : forall p r, Lost (b_file_contract_resolution p) r.
Proof.
  intros p [parent r]. destruct (lost_file_contract_element p parent) as (j & S & D).
  assert (W : exists l, c_ser (b_file_contract_resolution p) (MkFcres parent r) = JOk (JObj ((ascii "parent", j) :: l))).
  { cbn [b_file_contract_resolution c_ser]. unfold b_ser_file_contract_resolution. cbn [fcres_parent fcres_resolution]. rewrite S.
    cbn [jbind]. destruct r as [x|x|].
    - destruct (ok_file_contract_renewal p x) as (v & -> & _). cbn [jbind]. eauto.
    - destruct (ok_v2_storage_proof x) as (v & -> & _). cbn [jbind]. eauto.
    - cbn [jbind]. eauto. }
  destruct W as [l W]. eexists. split; [exact W|].
  cbn [b_file_contract_resolution c_de b_de_file_contract_resolution b_visit_resolution].
  change (bytes_eqb (ascii "parent") (ascii "parent")) with true. cbv iota. now rewrite D.
Qed.
#[global] Hint Resolve lost_resolution : blost.

Lemma opt_address_kept : forall n a, field_kept (opt_option n (j_option j_address)) a.
Proof.
  intros n [a|]; [|now left]. right. destruct (ok_kept _ _ _ _ (ok_option_address (Some a) ltac:(congruence))) as (j & S & D).
  exists j, (Some a). now split.
Qed.

Lemma v2_transaction_fate : forall p n stack a, (n <= stack)%nat -> json_v2_transaction n a ->
  let empty := vlist (v2t_siacoin_inputs a) = [] /\ vlist (v2t_siafund_inputs a) = [] /\
    vlist (v2t_file_contracts a) = [] /\ vlist (v2t_file_contract_revisions a) = [] /\
    vlist (v2t_file_contract_resolutions a) = [] in
  (empty -> Kept (b_v2_transaction p stack) a) /\ (~ empty -> Lost (b_v2_transaction p stack) a).
Proof.
  intros p n stack a Hn H empty. unfold json_v2_transaction in H. jhyps. split; intros E.
  - unfold empty in E. clear empty. jhyps. apply (ok_kept _ _ (1 + 6)). unfold b_v2_transaction.
    apply struct_ok; [reflexivity| |now destruct a]. unfold b_v2_transaction_fields, v2_transaction_tuple.
    cbn [fields_ok fst snd]. repeat match goal with |- _ /\ _ => split | |- True => exact I end;
    try (first [apply opt_vec_ok|apply plain_ok];
      first [eapply (ok_weaken _ _ (1 + 3)); [apply empty_ok; assumption|lia]|eapply ok_weaken; [jelem|lia]]).
    apply opt_option_ok. intros x Ex. eapply ok_weaken; [apply ok_option_address; congruence|lia].
  - unfold b_v2_transaction. apply struct_lost; [reflexivity|bfine b_v2_transaction_fields v2_transaction_tuple; try (left; apply opt_address_kept)|].
    unfold b_v2_transaction_fields, v2_transaction_tuple. cbn [some_lost fst snd].
    destruct (empty_dec _ _ (v2t_siacoin_inputs a)); [|bsome_vec].
    destruct (empty_dec _ _ (v2t_siafund_inputs a)); [|bsome_vec].
    destruct (empty_dec _ _ (v2t_file_contracts a)); [|bsome_vec].
    destruct (empty_dec _ _ (v2t_file_contract_revisions a)); [|bsome_vec].
    destruct (empty_dec _ _ (v2t_file_contract_resolutions a)); [|bsome_vec].
    exfalso. apply E. unfold empty. tauto.
Qed.

(** ** Consensus *)

Lemma lost_hardfork_asic : forall a, json_duration (hfa_oak_time a) -> Lost b_hardfork_asic a.
Proof. intros a H. unfold b_hardfork_asic. bstruct b_hardfork_asic_fields hardfork_asic_tuple. Qed.
#[global] Hint Resolve lost_hardfork_asic : blost.
Lemma lost_network : forall p a, json_network a -> Lost (b_network p) a.
Proof. intros p a H. unfold json_network in H. jhyps. unfold b_network. bstruct b_network_fields network_tuple. Qed.
#[global] Hint Resolve lost_network : blost.

Lemma count_positive : forall n : u64, uval n <> 0 -> count_ones n <> 0.
Proof.
  intros n H. unfold count_ones. destruct (uval n) as [|x]; [contradiction|]. clear H.
  assert (G : 0 < ones x) by (induction x; cbn [ones]; lia). lia.
Qed.

Lemma accumulator_fate : forall a,
  (uval (ea_num_leaves a) = 0 -> ea_normal a -> Kept b_element_accumulator a) /\
  (uval (ea_num_leaves a) <> 0 -> Lost b_element_accumulator a).
Proof.
  intros a. destruct (trees_vec a) as [v Ev].
  assert (C : N.of_nat (length (present_trees (ea_num_leaves a) 0 (flist (ea_trees a)))) = count_ones (ea_num_leaves a)).
  { rewrite count_ones_spec. unfold set_bits. change 0 with (N.of_nat 0). rewrite present_length, farr_len. reflexivity. }
  split.
  - intros Z N. destruct (ok_kept _ _ _ _ (ok_element_accumulator a N)) as (j & S & D).
    assert (E : present_trees (ea_num_leaves a) 0 (flist (ea_trees a)) = []).
    { unfold count_ones in C. rewrite Z in C. destruct (present_trees _ _ _); [reflexivity|cbn in C; lia]. }
    cbn [j_element_accumulator c_ser c_de] in S, D. unfold ser_element_accumulator in S. rewrite E in S.
    assert (Ej : JOk j = JOk (JObj [(ascii "numLeaves", JUint (ea_num_leaves a)); (ascii "trees", JArr [])]))
      by (rewrite <- S; reflexivity).
    injection Ej as Ej.
    exists j. split; [|subst j; exact D].
    cbn [b_element_accumulator c_ser]. unfold b_ser_element_accumulator. rewrite E, Ej. reflexivity.
  - intros Z. apply count_positive in Z. rewrite <- C in Z.
    assert (NE : vlist v <> []) by (rewrite Ev; destruct (present_trees _ _ _); [exfalso; apply Z; reflexivity|discriminate]).
    destruct (de_struct_lost _ b_inter_fields (ea_num_leaves a, (v, tt))) as (j & S & D); [reflexivity| | |].
    + cbn [b_inter_fields fields_fine fst snd]. repeat split; [left; apply plain_kept; eapply ok_kept, ok_u64|].
      right. apply plain_lost. lelem.
    + cbn [b_inter_fields some_lost fst snd]. right. left. apply plain_lost. lelem.
    + exists j. cbn [b_element_accumulator c_ser c_de]. unfold b_de_element_accumulator. rewrite D. split; [|reflexivity].
      rewrite <- S. unfold ser_struct, b_inter_fields, b_ser_element_accumulator.
      cbn [ser_fields plain f_skip f_ser f_name fst snd c_ser j_vec j_list j_u64 ser_u64 jbind].
      unfold ser_vec. rewrite Ev. now destruct (ser_list _ _).
Qed.
Lemma fate_accumulator : forall a, ea_normal a -> Kept b_element_accumulator a \/ Lost b_element_accumulator a.
Proof.
  intros a H. destruct (accumulator_fate a) as [K L].
  destruct (N.eq_dec (uval (ea_num_leaves a)) 0); [left; now apply K|right; now apply L].
Qed.
#[global] Hint Resolve fate_accumulator : bfate.

Lemma lost_state : forall p a, json_state a -> Lost (b_state p) a.
Proof. intros p a H. unfold json_state in H. jhyps. unfold b_state. bstruct b_state_fields state_tuple. Qed.
#[global] Hint Resolve lost_state : blost.
Lemma lost_chain_state : forall p a, json_chain_state a -> Lost (b_chain_state p) a.
Proof.
  intros p a H. unfold json_chain_state in H. jhyps. unfold b_chain_state. bstruct b_chain_state_fields chain_state_tuple.
Qed.
