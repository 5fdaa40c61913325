(** Proofs: the documents that the readers of structs accept. *)

From Verif Require Import Base Model_encoding Model_currency Model_common Model_v1 Model_policy Model_v2 Model_consensus
  Model_text Model_json Model_jsontypes SpecJson JsonProofs DocProofs SpecAccept.
Local Open Scope jres_scope.

Lemma bytes_eqb_iff : forall a b, bytes_eqb a b = true <-> a = b.
Proof.
  intros a b. unfold bytes_eqb. destruct (list_eq_dec Byte.byte_eq_dec a b); split; congruence.
Qed.

(** ** Keys *)

Fixpoint fields_read {T} (fs : fields T) : T -> list (bytes * json) -> Prop :=
  match fs with
  | FNil => fun _ _ => True
  | FCons f r => fun t l =>
    ((exists l1 v l2, l = l1 ++ (f_name f, v) :: l2 /\ ~ In (f_name f) (map fst (l1 ++ l2)) /\ f_de f v = JOk (fst t)) \/
     (~ In (f_name f) (map fst l) /\ f_default f = Some (fst t))) /\
    fields_read r (snd t) l
  end.

Lemma check_entry_known : forall T (fs : fields T) k v, In k (names fs) <-> check_entry fs k v <> None.
Proof.
  intros T fs k v. induction fs as [|A R f r IH]; cbn [names check_entry]; [split; [intros []|congruence]|].
  destruct (bytes_eqb k (f_name f)) eqn:E.
  - apply bytes_eqb_iff in E. subst. split; [discriminate|intros _; now left].
  - rewrite <- IH. split; [intros [H|H]; auto|now right]. subst. rewrite bytes_eqb_refl in E. discriminate.
Qed.

(** What the pass over the entries checks. *)
Lemma check_entries_iff : forall T (fs : fields T) l seen,
  check_entries fs seen l = JOk tt <->
  (forall k v, In (k, v) l -> In k (names fs) -> check_entry fs k v = Some (JOk tt)) /\
  (forall k l1 v l2, l = l1 ++ (k, v) :: l2 -> In k (names fs) -> ~ In k (map fst l1) /\ ~ In k (map fst l2) /\ ~ In k seen).
Proof.
  intros T fs l. induction l as [|[k v] l IH]; intros seen; cbn [check_entries].
  - split; [|reflexivity]. intros _. split; [intros k v []|]. intros k l1 v l2 H. destruct l1; discriminate.
  - destruct (check_entry fs k v) as [c|] eqn:E.
    + assert (K : In k (names fs)) by (apply (check_entry_known T fs k v); congruence).
      destruct (seen_before k seen) eqn:B.
      * split; [discriminate|]. intros [_ H]. exfalso. destruct (H k [] v l eq_refl K) as (_ & _ & N). apply N.
        unfold seen_before in B. apply existsb_exists in B. destruct B as (y & Y & E'). apply bytes_eqb_iff in E'. now subst.
      * assert (NS : ~ In k seen).
        { intros I. assert (seen_before k seen = true); [|congruence]. apply existsb_exists. exists k. split; [exact I|]. apply bytes_eqb_refl. }
        split.
        -- intros H. apply jbind_ok in H. destruct H as ([] & -> & H). apply IH in H. destruct H as [H1 H2]. split.
           ++ intros k' v' [I|I] K'; [injection I as <- <-; exact E|eauto].
           ++ intros k' l1 v' l2 EQ K'. destruct l1 as [|x l1]; cbn [app] in EQ; [injection EQ as -> -> ->|injection EQ as <- ->].
              ** split; [intros []|]. split; [|exact NS]. intros I. apply in_map_iff in I. destruct I as ([k2 v2] & F & I). cbn in F. subst k2.
                 apply in_split in I. destruct I as (m1 & m2 & ->). destruct (H2 k' m1 v2 m2 eq_refl K') as (_ & _ & N). apply N. now left.
              ** destruct (H2 k' l1 v' l2 eq_refl K') as (N1 & N2 & N3). repeat split; auto.
                 --- cbn [map fst]. intros [I|I]; [|auto]. apply N3. now left.
                 --- intros I. apply N3. now right.
        -- intros [H1 H2]. pose proof (H1 k v (or_introl eq_refl) K) as C. rewrite E in C. injection C as ->. cbn [jbind].
           apply IH. split; [intros; apply H1; auto; now right|]. intros k' l1 v' l2 -> K'.
           destruct (H2 k' ((k, v) :: l1) v' l2 eq_refl K') as (N1 & N2 & N3). cbn [map fst] in N1. repeat split; auto.
           ++ intros I. apply N1. now right.
           ++ intros [->|I]; [|auto]. apply N1. now left.
    + assert (K : ~ In k (names fs)) by (intros K; now apply (check_entry_known T fs k v) in K).
      rewrite IH. split; intros [H1 H2]; split.
      * intros k' v' [I|I] K'; [injection I as <- <-; contradiction|eauto].
      * intros k' l1 v' l2 EQ K'. destruct l1 as [|x l1]; cbn [app] in EQ; [injection EQ as -> -> ->; contradiction|injection EQ as <- ->].
        destruct (H2 k' l1 v' l2 eq_refl K') as (N1 & N2 & N3). repeat split; auto.
        cbn [map fst]. intros [->|I]; auto.
      * intros; apply H1; auto; now right.
      * intros k' l1 v' l2 -> K'. destruct (H2 k' ((k, v) :: l1) v' l2 eq_refl K') as (N1 & N2 & N3). repeat split; auto.
        intros I. apply N1. now right.
Qed.

Lemma find_entry_some : forall k l v, find_entry k l = Some v -> exists l1 l2, l = l1 ++ (k, v) :: l2 /\ ~ In k (map fst l1).
Proof.
  intros k l v. induction l as [|[k' v'] l IH]; cbn [find_entry]; [discriminate|]. destruct (bytes_eqb k' k) eqn:E.
  - intros H. injection H as ->. apply bytes_eqb_iff in E. subst. exists [], l. split; [reflexivity|intros []].
  - intros H. destruct (IH H) as (l1 & l2 & -> & N). exists ((k', v') :: l1), l2. split; [reflexivity|].
    cbn [map fst]. intros [->|I]; [|auto]. rewrite bytes_eqb_refl in E. discriminate.
Qed.

Lemma find_entry_absent : forall k l, find_entry k l = None <-> ~ In k (map fst l).
Proof.
  intros k l. induction l as [|[k' v'] l IH]; cbn [find_entry map fst]; [split; [intros _ []|reflexivity]|].
  destruct (bytes_eqb k' k) eqn:E.
  - apply bytes_eqb_iff in E. subst. split; [discriminate|]. intros H. destruct H. now left.
  - rewrite IH. split; intros H; [|intros I; apply H; now right]. intros [->|I]; [|auto]. rewrite bytes_eqb_refl in E. discriminate.
Qed.

Lemma find_entry_split : forall k l1 v l2, ~ In k (map fst l1) -> find_entry k (l1 ++ (k, v) :: l2) = Some v.
Proof.
  intros k l1 v l2. induction l1 as [|[k' v'] l1 IH]; cbn [app find_entry map fst]; intros H; [now rewrite bytes_eqb_refl|].
  destruct (bytes_eqb k' k) eqn:E; [|apply IH; intros I; apply H; now right].
  apply bytes_eqb_iff in E. subst. destruct H. now left.
Qed.

(** [all] the entries of [l] whose key is a field of [fs] *)
Lemma collect_iff : forall T (fs : fields T) l t,
  (forall k l1 v l2, l = l1 ++ (k, v) :: l2 -> In k (names fs) -> ~ In k (map fst l1) /\ ~ In k (map fst l2)) ->
  (collect_fields fs l = JOk t <-> fields_read fs t l).
Proof.
  intros T fs l. induction fs as [|A R f r IH]; intros t U; cbn [collect_fields fields_read].
  - destruct t. split; auto.
  - assert (U' : forall k l1 v l2, l = l1 ++ (k, v) :: l2 -> In k (names r) -> ~ In k (map fst l1) /\ ~ In k (map fst l2)).
    { intros; eapply U; eauto. cbn [names]. now right. }
    destruct t as [a t]. cbn [fst snd]. split.
    + intros H. apply jbind_ok in H. destruct H as (a' & Ha & H). apply jbind_ok in H. destruct H as (t' & Ht & H).
      apply jok_inj in H. injection H as -> ->. split; [|now apply IH].
      destruct (find_entry (f_name f) l) as [v|] eqn:E.
      * left. destruct (find_entry_some _ _ _ E) as (l1 & l2 & -> & N). exists l1, v, l2. repeat split; auto.
        destruct (U (f_name f) l1 v l2 eq_refl ltac:(now left)). rewrite map_app, in_app_iff. tauto.
      * right. split; [now apply find_entry_absent|]. destruct (f_default f); [|discriminate]. apply jok_inj in Ha. now subst.
    + intros [H1 H2]. apply IH in H2; [|exact U']. destruct H1 as [(l1 & v & l2 & -> & N & D)|[N D]].
      * rewrite map_app, in_app_iff in N. rewrite find_entry_split by tauto. rewrite D. cbn [jbind]. rewrite H2. reflexivity.
      * apply find_entry_absent in N. rewrite N, D. cbn [jopt jbind]. rewrite H2. reflexivity.
Qed.

Lemma read_once : forall T (fs : fields T) t l, fields_read fs t l ->
  forall k l1 v l2, l = l1 ++ (k, v) :: l2 -> In k (names fs) ->
    ~ In k (map fst l1) /\ ~ In k (map fst l2) /\ check_entry fs k v = Some (JOk tt).
Proof.
  intros T fs. induction fs as [|A R f r IH]; intros t l H k l1 v l2 E K; [destruct K|].
  cbn [fields_read names check_entry] in *. destruct H as [H1 H2].
  destruct (bytes_eqb k (f_name f)) eqn:Q.
  - apply bytes_eqb_iff in Q. subst k. destruct H1 as [(m1 & w & m2 & -> & N & D)|[N _]].
    + assert (X : l1 = m1 /\ v = w /\ l2 = m2).
      { revert l1 E N. clear. induction m1 as [|x m1 IH]; intros [|y l1] E N; cbn [app] in *.
        - injection E as <- <-. auto.
        - injection E as <- ->. exfalso. apply N. rewrite map_app, in_app_iff. right. now left.
        - injection E as -> <-. exfalso. apply N. now left.
        - injection E as -> E. destruct (IH l1 E) as (-> & -> & ->); auto. intros I. apply N. now right. }
      destruct X as (-> & -> & ->). rewrite map_app, in_app_iff in N. repeat split; [tauto|tauto|]. rewrite D. reflexivity.
    + exfalso. apply N. rewrite E, map_app, in_app_iff. right. now left.
  - apply (IH (snd t) l H2 k l1 v l2 E). destruct K as [K|K]; [|exact K]. subst. rewrite bytes_eqb_refl in Q. discriminate.
Qed.

Lemma object_iff : forall T (fs : fields T) t l,
  de_struct fs (JObj l) = JOk t <-> fields_read fs t l.
Proof.
  intros T fs t l. cbn [de_struct]. split.
  - intros H. apply jbind_ok in H. destruct H as ([] & C & H). apply check_entries_iff in C. destruct C as [_ C].
    apply collect_iff in H; [exact H|]. intros k l1 v l2 E K. destruct (C k l1 v l2 E K) as (? & ? & _). auto.
  - intros H. pose proof (read_once T fs t l H) as U.
    assert (C : check_entries fs [] l = JOk tt).
    { apply check_entries_iff. split.
      - intros k v I K. apply in_split in I. destruct I as (l1 & l2 & E). now destruct (U k l1 v l2 E K) as (_ & _ & ?).
      - intros k l1 v l2 E K. destruct (U k l1 v l2 E K) as (? & ? & _). repeat split; auto. }
    rewrite C. cbn [jbind]. apply collect_iff; [|exact H].
    intros k l1 v l2 E K. destruct (U k l1 v l2 E K) as (? & ? & _). auto.
Qed.

(** ** Structs *)

Record Wants {T} (fs : fields T) (t : T) (ws : list wanted) : Prop := {
  wants_object : forall l, fields_read fs t l <-> Forall (finds l) ws;
  wants_array : forall l, collect_seq fs l = JOk t <-> lists ws l }.

Lemma wants_nil : forall t, Wants FNil t [].
Proof.
  intros []. split; intros l; [split; [constructor|constructor]|]. destruct l; cbn; split; auto; [discriminate|intros []].
Qed.

Lemma forall_cons_iff : forall A (P : A -> Prop) x l, Forall P (x :: l) <-> P x /\ Forall P l.
Proof. intros. split; [intros H; inversion H; auto|intros []; constructor; auto]. Qed.

Lemma wants_cons : forall A T (f : field A) (fs : fields T) a t k (r : json -> Prop) d ws,
  f_name f = ascii k -> (forall v, f_de f v = JOk a <-> r v) -> (f_default f = Some a <-> d) ->
  Wants fs t ws -> Wants (f #: fs) (a, t) ((k, (r, d)) :: ws).
Proof.
  intros A T f fs a t k r d ws N R D [WO WA]. split; intros l.
  - cbn [fields_read fst snd]. rewrite forall_cons_iff, <- WO. unfold finds. rewrite N, D.
    split; intros [H1 H2]; (split; [|exact H2]); (destruct H1 as [(l1 & v & l2 & E & U & V)|H1]; [left|right; exact H1]);
      exists l1, v, l2; repeat split; auto; now apply R.
  - cbn [collect_seq lists]. destruct l as [|v l].
    + rewrite <- WA. split.
      * intros H. apply jbind_ok in H. destruct H as (a' & Ha & H). apply jbind_ok in H. destruct H as (t' & Ht & H).
        apply jok_inj in H. injection H as -> ->. split; [|exact Ht]. apply D.
        destruct (f_default f); [|discriminate]. apply jok_inj in Ha. now subst.
      * intros [H1 H2]. apply D in H1. rewrite H1. cbn [jopt jbind]. rewrite H2. reflexivity.
    + rewrite <- WA. split.
      * intros H. apply jbind_ok in H. destruct H as (a' & Ha & H). apply jbind_ok in H. destruct H as (t' & Ht & H).
        apply jok_inj in H. injection H as -> ->. split; [|exact Ht]. now apply R.
      * intros [H1 H2]. apply R in H1. rewrite H1. cbn [jbind]. rewrite H2. reflexivity.
Qed.

Lemma wants_plain : forall A T k (c : codec A) (fs : fields T) a t ws,
  Wants fs t ws -> Wants (plain k c #: fs) (a, t) (must k (reads c a) :: ws).
Proof.
  intros. apply wants_cons; [reflexivity| | |assumption].
  - intros v. reflexivity.
  - cbn. split; [discriminate|tauto].
Qed.

Lemma vec_nil_iff : forall sz A (v : vec sz A), vec_nil = v <-> vlist v = [].
Proof.
  intros sz A v. split; [intros <-; reflexivity|]. intros H. apply vec_eq. rewrite H. reflexivity.
Qed.

Lemma wants_vec : forall sz A T k (c : codec (vec sz A)) (fs : fields T) a t ws,
  Wants fs t ws -> Wants (opt_vec k c #: fs) (a, t) (may_list k (reads c) a :: ws).
Proof.
  intros. apply wants_cons; [reflexivity| | |assumption].
  - intros v. reflexivity.
  - cbn [opt_vec f_default]. rewrite <- vec_nil_iff. split; [intros E; injection E as ->; reflexivity|intros ->; reflexivity].
Qed.

Lemma wants_option : forall A T k (c : codec (option A)) (fs : fields T) a t ws,
  Wants fs t ws -> Wants (opt_option k c #: fs) (a, t) (may_option k (reads c) a :: ws).
Proof.
  intros. apply wants_cons; [reflexivity| | |assumption].
  - intros v. reflexivity.
  - cbn [opt_option f_default]. split; [intros E; injection E as ->; reflexivity|intros ->; reflexivity].
Qed.

Lemma struct_reader : forall T A (fs : fields T) (tuple : A -> T) make ws,
  (forall t, tuple (make t) = t) -> (forall a, make (tuple a) = a) ->
  (forall a, Wants fs (tuple a) (ws a)) -> StructReader (struct_codec fs tuple make) ws.
Proof.
  intros T A fs tuple make ws TM MT W a j. cbn [struct_codec c_de].
  assert (E : (t <- de_struct fs j ;; JOk (make t)) = JOk a <-> de_struct fs j = JOk (tuple a)).
  { split.
    - intros H. apply jbind_ok in H. destruct H as (t & Ht & H). apply jok_inj in H. subst a. now rewrite TM.
    - intros ->. cbn [jbind]. now rewrite MT. }
  rewrite E. destruct (W a) as [WO WA]. destruct j as [| | | | | |l|l];
    try (cbn [de_struct]; split; [discriminate|intros [(x & X & _)|(x & X & _)]; discriminate]).
  - cbn [de_struct]. rewrite WA. split; [intros H; right; eauto|].
    intros [(x & X & _)|(x & X & H)]; [discriminate|]. now injection X as ->.
  - rewrite object_iff, WO. split; [intros H; left; eauto|].
    intros [(x & X & H)|(x & X & _)]; [|discriminate]. now injection X as ->.
Qed.

Ltac reader F T :=
  apply struct_reader;
  [ intros t; unfold T; repeat match goal with x : (_ * _)%type |- _ => destruct x end;
    repeat match goal with x : unit |- _ => destruct x end; reflexivity
  | intros a; destruct a; reflexivity
  | intros a; unfold F, T;
    repeat first [apply wants_plain | apply wants_vec | apply wants_option | apply wants_nil] ].

Lemma read_chain_index : StructReader j_chain_index (fun a => [
    must "height" (reads j_u64 (ci_height a));
    must "id" (reads j_hash (ci_id a))]).
Proof. reader chain_index_fields chain_index_tuple. Qed.

Lemma read_siacoin_output : forall p, StructReader (j_siacoin_output p) (fun a => [
    must "value" (reads (j_currency p) (sco_value a));
    must "address" (reads j_address (sco_address a))]).
Proof. intros p. reader siacoin_output_fields siacoin_output_tuple. Qed.

Lemma read_siafund_output : StructReader j_siafund_output (fun a => [
    must "value" (reads j_u64 (sfo_value a));
    must "address" (reads j_address (sfo_address a))]).
Proof. reader siafund_output_fields siafund_output_tuple. Qed.

Lemma read_state_element : StructReader j_state_element (fun a => [
    must "leafIndex" (reads j_u64 (se_leaf_index a));
    must "merkleProof" (reads (j_vec 32 j_hash) (se_merkle_proof a))]).
Proof. reader state_element_fields state_element_tuple. Qed.

Lemma read_unlock_conditions : StructReader j_unlock_conditions (fun a => [
    must "timelock" (reads j_u64 (uc_timelock a));
    must "publicKeys" (reads (j_vec 40 j_unlock_key) (uc_public_keys a));
    must "signaturesRequired" (reads j_u64 (uc_signatures_required a))]).
Proof. reader unlock_conditions_fields unlock_conditions_tuple. Qed.

Lemma read_v1_siacoin_input : StructReader j_v1_siacoin_input (fun a => [
    must "parentID" (reads j_hash (v1sci_parent_id a));
    must "unlockConditions" (reads j_unlock_conditions (v1sci_unlock_conditions a))]).
Proof. reader v1_siacoin_input_fields v1_siacoin_input_tuple. Qed.

Lemma read_v1_siafund_input : StructReader j_v1_siafund_input (fun a => [
    must "parentID" (reads j_hash (v1sfi_parent_id a));
    must "unlockConditions" (reads j_unlock_conditions (v1sfi_unlock_conditions a));
    must "claimAddress" (reads j_address (v1sfi_claim_address a))]).
Proof. reader v1_siafund_input_fields v1_siafund_input_tuple. Qed.

Lemma read_v1_file_contract : forall p, StructReader (j_v1_file_contract p) (fun a => [
    must "filesize" (reads j_u64 (v1fc_file_size a));
    must "fileMerkleRoot" (reads j_hash (v1fc_file_merkle_root a));
    must "windowStart" (reads j_u64 (v1fc_window_start a));
    must "windowEnd" (reads j_u64 (v1fc_window_end a));
    must "payout" (reads (j_currency p) (v1fc_payout a));
    must "validProofOutputs" (reads (j_vec 48 (j_siacoin_output p)) (v1fc_valid_proof_outputs a));
    must "missedProofOutputs" (reads (j_vec 48 (j_siacoin_output p)) (v1fc_missed_proof_outputs a));
    must "unlockHash" (reads j_address (v1fc_unlock_hash a));
    must "revisionNumber" (reads j_u64 (v1fc_revision_number a))]).
Proof. intros p. reader v1_file_contract_fields v1_file_contract_tuple. Qed.

Lemma read_v1_file_contract_revision : forall p, StructReader (j_v1_file_contract_revision p) (fun a => [
    must "parentID" (reads j_hash (v1fcr_parent_id a));
    must "unlockConditions" (reads j_unlock_conditions (v1fcr_unlock_conditions a));
    must "revisionNumber" (reads j_u64 (v1fcr_revision_number a));
    must "filesize" (reads j_u64 (v1fcr_file_size a));
    must "fileMerkleRoot" (reads j_hash (v1fcr_file_merkle_root a));
    must "windowStart" (reads j_u64 (v1fcr_window_start a));
    must "windowEnd" (reads j_u64 (v1fcr_window_end a));
    must "validProofOutputs" (reads (j_vec 48 (j_siacoin_output p)) (v1fcr_valid_proof_outputs a));
    must "missedProofOutputs" (reads (j_vec 48 (j_siacoin_output p)) (v1fcr_missed_proof_outputs a));
    must "unlockHash" (reads j_address (v1fcr_unlock_hash a))]).
Proof. intros p. reader v1_file_contract_revision_fields v1_file_contract_revision_tuple. Qed.

Lemma read_v1_storage_proof : StructReader j_v1_storage_proof (fun a => [
    must "parentID" (reads j_hash (v1sp_parent_id a));
    must "leaf" (reads j_leaf (v1sp_leaf a));
    must "proof" (reads (j_vec 32 j_hash) (v1sp_proof a))]).
Proof. reader v1_storage_proof_fields v1_storage_proof_tuple. Qed.

Lemma read_covered_fields : StructReader j_covered_fields (fun a => [
    must "wholeTransaction" (reads j_bool (cf_whole_transaction a));
    may_list "siacoinInputs" (reads (j_vec 8 j_u64)) (cf_siacoin_inputs a);
    may_list "siacoinOutputs" (reads (j_vec 8 j_u64)) (cf_siacoin_outputs a);
    may_list "fileContracts" (reads (j_vec 8 j_u64)) (cf_file_contracts a);
    may_list "fileContractRevisions" (reads (j_vec 8 j_u64)) (cf_file_contract_revisions a);
    may_list "storageProofs" (reads (j_vec 8 j_u64)) (cf_storage_proofs a);
    may_list "siafundInputs" (reads (j_vec 8 j_u64)) (cf_siafund_inputs a);
    may_list "siafundOutputs" (reads (j_vec 8 j_u64)) (cf_siafund_outputs a);
    may_list "minerFees" (reads (j_vec 8 j_u64)) (cf_miner_fees a);
    may_list "arbitraryData" (reads (j_vec 8 j_u64)) (cf_arbitrary_data a);
    may_list "signatures" (reads (j_vec 8 j_u64)) (cf_signatures a)]).
Proof. reader covered_fields_fields covered_fields_tuple. Qed.

Lemma read_transaction_signature : StructReader j_transaction_signature (fun a => [
    must "parentID" (reads j_hash (ts_parent_id a));
    must "publicKeyIndex" (reads j_u64 (ts_public_key_index a));
    must "timelock" (reads j_u64 (ts_timelock a));
    must "coveredFields" (reads j_covered_fields (ts_covered_fields a));
    must "signature" (reads j_base64 (ts_signature a))]).
Proof. reader transaction_signature_fields transaction_signature_tuple. Qed.

Lemma read_v1_transaction : forall p, StructReader (j_v1_transaction p) (fun a => [
    may_list "siacoinInputs" (reads (j_vec 72 j_v1_siacoin_input)) (v1t_siacoin_inputs a);
    may_list "siacoinOutputs" (reads (j_vec 48 (j_siacoin_output p))) (v1t_siacoin_outputs a);
    may_list "fileContracts" (reads (j_vec 160 (j_v1_file_contract p))) (v1t_file_contracts a);
    may_list "fileContractRevisions" (reads (j_vec 216 (j_v1_file_contract_revision p))) (v1t_file_contract_revisions a);
    may_list "storageProofs" (reads (j_vec 120 j_v1_storage_proof)) (v1t_storage_proofs a);
    may_list "siafundInputs" (reads (j_vec 104 j_v1_siafund_input)) (v1t_siafund_inputs a);
    may_list "siafundOutputs" (reads (j_vec 40 j_siafund_output)) (v1t_siafund_outputs a);
    may_list "minerFees" (reads (j_vec 16 (j_currency p))) (v1t_miner_fees a);
    may_list "arbitraryData" (reads j_vec_base64) (v1t_arbitrary_data a);
    may_list "signatures" (reads (j_vec 320 j_transaction_signature)) (v1t_signatures a)]).
Proof. intros p. reader v1_transaction_fields v1_transaction_tuple. Qed.

Lemma read_block : forall p, StructReader (j_block p) (fun a => [
    must "parentID" (reads j_hash (bl_parent_id a));
    must "nonce" (reads j_u64 (bl_nonce a));
    must "timestamp" (reads j_odt (bl_timestamp a));
    must "minerPayouts" (reads (j_vec 48 (j_siacoin_output p)) (bl_miner_payouts a));
    must "transactions" (reads (j_vec 240 (j_v1_transaction p)) (bl_transactions a))]).
Proof. intros p. reader block_fields block_tuple. Qed.

Lemma read_satisfied_policy : forall stack, StructReader (j_satisfied_policy stack) (fun a => [
    must "policy" (reads (j_policy stack) (sp_policy a));
    may_list "signatures" (reads (j_vec 64 j_signature)) (sp_signatures a);
    may_list "preimages" (reads (j_vec 32 j_hash)) (sp_preimages a)]).
Proof. intros stack. reader satisfied_policy_fields satisfied_policy_tuple. Qed.

Lemma read_attestation : StructReader j_attestation (fun a => [
    must "publicKey" (reads j_public_key (att_public_key a));
    must "key" (reads j_string (att_key a));
    must "value" (reads j_base64 (att_value a));
    must "signature" (reads j_signature (att_signature a))]).
Proof. reader attestation_fields attestation_tuple. Qed.

Lemma read_v2_file_contract : forall p, StructReader (j_v2_file_contract p) (fun a => [
    must "capacity" (reads j_u64 (v2fc_capacity a));
    must "filesize" (reads j_u64 (v2fc_filesize a));
    must "fileMerkleRoot" (reads j_hash (v2fc_file_merkle_root a));
    must "proofHeight" (reads j_u64 (v2fc_proof_height a));
    must "expirationHeight" (reads j_u64 (v2fc_expiration_height a));
    must "renterOutput" (reads (j_siacoin_output p) (v2fc_renter_output a));
    must "hostOutput" (reads (j_siacoin_output p) (v2fc_host_output a));
    must "missedHostValue" (reads (j_currency p) (v2fc_missed_host_value a));
    must "totalCollateral" (reads (j_currency p) (v2fc_total_collateral a));
    must "renterPublicKey" (reads j_public_key (v2fc_renter_public_key a));
    must "hostPublicKey" (reads j_public_key (v2fc_host_public_key a));
    must "revisionNumber" (reads j_u64 (v2fc_revision_number a));
    must "renterSignature" (reads j_signature (v2fc_renter_signature a));
    must "hostSignature" (reads j_signature (v2fc_host_signature a))]).
Proof. intros p. reader v2_file_contract_fields v2_file_contract_tuple. Qed.

Lemma read_siacoin_element : forall p, StructReader (j_siacoin_element p) (fun a => [
    must "stateElement" (reads j_state_element (sce_state_element a));
    must "id" (reads j_hash (sce_id a));
    must "siacoinOutput" (reads (j_siacoin_output p) (sce_siacoin_output a));
    must "maturityHeight" (reads j_u64 (sce_maturity_height a))]).
Proof. intros p. reader siacoin_element_fields siacoin_element_tuple. Qed.

Lemma read_siafund_element : forall p, StructReader (j_siafund_element p) (fun a => [
    must "stateElement" (reads j_state_element (sfe_state_element a));
    must "id" (reads j_hash (sfe_id a));
    must "siafundOutput" (reads j_siafund_output (sfe_siafund_output a));
    must "claimStart" (reads (j_currency p) (sfe_claim_start a))]).
Proof. intros p. reader siafund_element_fields siafund_element_tuple. Qed.

Lemma read_file_contract_element : forall p, StructReader (j_file_contract_element p) (fun a => [
    must "stateElement" (reads j_state_element (fce_state_element a));
    must "id" (reads j_hash (fce_id a));
    must "v2FileContract" (reads (j_v2_file_contract p) (fce_v2_file_contract a))]).
Proof. intros p. reader file_contract_element_fields file_contract_element_tuple. Qed.

Lemma read_chain_index_element : StructReader j_chain_index_element (fun a => [
    must "stateElement" (reads j_state_element (cie_state_element a));
    must "id" (reads j_hash (cie_id a));
    must "chainIndex" (reads j_chain_index (cie_chain_index a))]).
Proof. reader chain_index_element_fields chain_index_element_tuple. Qed.

Lemma read_v2_siacoin_input : forall p stack, StructReader (j_v2_siacoin_input p stack) (fun a => [
    must "parent" (reads (j_siacoin_element p) (v2sci_parent a));
    must "satisfiedPolicy" (reads (j_satisfied_policy stack) (v2sci_satisfied_policy a))]).
Proof. intros p stack. reader v2_siacoin_input_fields v2_siacoin_input_tuple. Qed.

Lemma read_v2_siafund_input : forall p stack, StructReader (j_v2_siafund_input p stack) (fun a => [
    must "parent" (reads (j_siafund_element p) (v2sfi_parent a));
    must "claimAddress" (reads j_address (v2sfi_claim_address a));
    must "satisfiedPolicy" (reads (j_satisfied_policy stack) (v2sfi_satisfied_policy a))]).
Proof. intros p stack. reader v2_siafund_input_fields v2_siafund_input_tuple. Qed.

Lemma read_v2_file_contract_revision : forall p, StructReader (j_v2_file_contract_revision p) (fun a => [
    must "parent" (reads (j_file_contract_element p) (v2fcr_parent a));
    must "revision" (reads (j_v2_file_contract p) (v2fcr_revision a))]).
Proof. intros p. reader v2_file_contract_revision_fields v2_file_contract_revision_tuple. Qed.

Lemma read_file_contract_renewal : forall p, StructReader (j_file_contract_renewal p) (fun a => [
    must "finalRevision" (reads (j_v2_file_contract p) (ren_final_revision a));
    must "newContract" (reads (j_v2_file_contract p) (ren_new_contract a));
    must "renterRollover" (reads (j_currency p) (ren_renter_rollover a));
    must "hostRollover" (reads (j_currency p) (ren_host_rollover a));
    must "renterSignature" (reads j_signature (ren_renter_signature a));
    must "hostSignature" (reads j_signature (ren_host_signature a))]).
Proof. intros p. reader file_contract_renewal_fields file_contract_renewal_tuple. Qed.

Lemma read_v2_storage_proof : StructReader j_v2_storage_proof (fun a => [
    must "proofIndex" (reads j_chain_index_element (v2sp_proof_index a));
    must "leaf" (reads j_leaf (v2sp_leaf a));
    must "proof" (reads (j_vec 32 j_hash) (v2sp_proof a))]).
Proof. reader v2_storage_proof_fields v2_storage_proof_tuple. Qed.

Lemma read_v2_transaction : forall p stack, StructReader (j_v2_transaction p stack) (fun a => [
    may_list "siacoinInputs" (reads (j_vec 224 (j_v2_siacoin_input p stack))) (v2t_siacoin_inputs a);
    may_list "siacoinOutputs" (reads (j_vec 48 (j_siacoin_output p))) (v2t_siacoin_outputs a);
    may_list "siafundInputs" (reads (j_vec 256 (j_v2_siafund_input p stack))) (v2t_siafund_inputs a);
    may_list "siafundOutputs" (reads (j_vec 40 j_siafund_output)) (v2t_siafund_outputs a);
    may_list "fileContracts" (reads (j_vec 400 (j_v2_file_contract p))) (v2t_file_contracts a);
    may_list "fileContractRevisions" (reads (j_vec 864 (j_v2_file_contract_revision p))) (v2t_file_contract_revisions a);
    may_list "fileContractResolutions" (reads (j_vec 1440 (j_file_contract_resolution p))) (v2t_file_contract_resolutions a);
    may_list "attestations" (reads (j_vec 144 j_attestation)) (v2t_attestations a);
    may_list "arbitraryData" (reads j_base64) (v2t_arbitrary_data a);
    may_option "newFoundationAddress" (reads (j_option j_address)) (v2t_new_foundation_address a);
    must "minerFee" (reads (j_currency p) (v2t_miner_fee a))]).
Proof. intros p stack. reader v2_transaction_fields v2_transaction_tuple. Qed.

Lemma read_hardfork_dev_addr : StructReader j_hardfork_dev_addr (fun a => [
    must "height" (reads j_u64 (hfda_height a));
    must "oldAddress" (reads j_address (hfda_old_address a));
    must "newAddress" (reads j_address (hfda_new_address a))]).
Proof. reader hardfork_dev_addr_fields hardfork_dev_addr_tuple. Qed.

Lemma read_hardfork_tax : StructReader j_hardfork_tax (fun a => [
    must "height" (reads j_u64 (hft_height a))]).
Proof. reader hardfork_tax_fields hardfork_tax_tuple. Qed.

Lemma read_hardfork_storage_proof : StructReader j_hardfork_storage_proof (fun a => [
    must "height" (reads j_u64 (hfsp_height a))]).
Proof. reader hardfork_storage_proof_fields hardfork_storage_proof_tuple. Qed.

Lemma read_hardfork_oak : StructReader j_hardfork_oak (fun a => [
    must "height" (reads j_u64 (hfo_height a));
    must "fixHeight" (reads j_u64 (hfo_fix_height a));
    must "genesisTimestamp" (reads j_odt (hfo_genesis_timestamp a))]).
Proof. reader hardfork_oak_fields hardfork_oak_tuple. Qed.

Lemma read_hardfork_asic : StructReader j_hardfork_asic (fun a => [
    must "height" (reads j_u64 (hfa_height a));
    must "oakTime" (reads j_duration (hfa_oak_time a));
    must "oakTarget" (reads j_hash (hfa_oak_target a))]).
Proof. reader hardfork_asic_fields hardfork_asic_tuple. Qed.

Lemma read_hardfork_foundation : StructReader j_hardfork_foundation (fun a => [
    must "height" (reads j_u64 (hff_height a));
    must "primaryAddress" (reads j_address (hff_primary_address a));
    must "failsafeAddress" (reads j_address (hff_failsafe_address a))]).
Proof. reader hardfork_foundation_fields hardfork_foundation_tuple. Qed.

Lemma read_hardfork_v2 : StructReader j_hardfork_v2 (fun a => [
    must "allowHeight" (reads j_u64 (hfv2_allow_height a));
    must "requireHeight" (reads j_u64 (hfv2_require_height a))]).
Proof. reader hardfork_v2_fields hardfork_v2_tuple. Qed.

Lemma read_network : forall p, StructReader (j_network p) (fun a => [
    must "name" (reads j_string (net_name a));
    must "initialCoinbase" (reads (j_currency p) (net_initial_coinbase a));
    must "minimumCoinbase" (reads (j_currency p) (net_minimum_coinbase a));
    must "initialTarget" (reads j_hash (net_initial_target a));
    must "blockInterval" (reads j_duration (net_block_interval a));
    must "maturityDelay" (reads j_u64 (net_maturity_delay a));
    must "hardforkDevAddr" (reads j_hardfork_dev_addr (net_hardfork_dev_addr a));
    must "hardforkTax" (reads j_hardfork_tax (net_hardfork_tax a));
    must "hardforkStorageProof" (reads j_hardfork_storage_proof (net_hardfork_storage_proof a));
    must "hardforkOak" (reads j_hardfork_oak (net_hardfork_oak a));
    must "hardforkASIC" (reads j_hardfork_asic (net_hardfork_asic a));
    must "hardforkFoundation" (reads j_hardfork_foundation (net_hardfork_foundation a));
    must "hardforkV2" (reads j_hardfork_v2 (net_hardfork_v2 a))]).
Proof. intros p. reader network_fields network_tuple. Qed.

Lemma read_state : forall p, StructReader (j_state p) (fun a => [
    must "index" (reads j_chain_index (st_index a));
    must "prevTimestamps" (reads j_timestamps (st_prev_timestamps a));
    must "depth" (reads j_hash (st_depth a));
    must "childTarget" (reads j_hash (st_child_target a));
    must "siafundPool" (reads (j_currency p) (st_siafund_pool a));
    must "oakTime" (reads j_duration (st_oak_time a));
    must "oakTarget" (reads j_hash (st_oak_target a));
    must "foundationPrimaryAddress" (reads j_address (st_foundation_primary_address a));
    must "foundationFailsafeAddress" (reads j_address (st_foundation_failsafe_address a));
    must "totalWork" (reads j_work (st_total_work a));
    must "difficulty" (reads j_work (st_difficulty a));
    must "oakWork" (reads j_work (st_oak_work a));
    must "elements" (reads j_element_accumulator (st_elements a));
    must "attestations" (reads j_u64 (st_attestations a))]).
Proof. intros p. reader state_fields state_tuple. Qed.

Lemma read_chain_state : forall p, StructReader (j_chain_state p) (fun a => [
    must "network" (reads (j_network p) (cs_network a));
    must "state" (reads (j_state p) (cs_state a))]).
Proof. intros p. reader chain_state_fields chain_state_tuple. Qed.
