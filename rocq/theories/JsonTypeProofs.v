(** The derived JSON forms, and those of policies, resolutions and accumulators. *)

From Coq Require Import Permutation.
From Verif Require Import Base Io SpecUtf8 SpecText SpecWire SpecFormat Model_encoding Model_common Model_v1 Model_currency
  Model_policy Model_v2 Model_consensus Model_text CurrencyProofs TextProofs TextMore EncodingProofs BasicProofs
  PolicyProofs ConsensusProofs FormatProofs
  Model_json Model_jsontypes SpecJson JsonProofs Base64Proofs TimeProofs JsonLeafProofs.
Local Open Scope N_scope.
Local Open Scope jres_scope.

Lemma vec_plain : forall A (c : codec A) sz d (v : vec sz A), (forall a, ok c d a) -> ok (j_vec sz c) (1 + d) v.
Proof. intros A c sz d v H. apply jvec_ok. apply Forall_forall. auto. Qed.

Lemma vec_cond : forall A (P : A -> Prop) (c : codec A) sz d (v : vec sz A), (forall a, P a -> ok c d a) ->
  VecAll P v -> ok (j_vec sz c) (1 + d) v.
Proof. intros A P c sz d v H F. apply jvec_ok. eapply Forall_impl; [exact H|exact F]. Qed.

Create HintDb jok.
#[global] Hint Resolve ok_bool ok_u64 ok_u8 ok_string ok_hash ok_address ok_signature ok_public_key ok_leaf
  ok_work ok_currency ok_specifier ok_unlock_key ok_base64 ok_vec_base64 ok_odt ok_timestamps ok_duration : jok.

Ltac jhyps := repeat match goal with H : _ /\ _ |- _ => destruct H end.

Ltac jelem := first
  [ solve [eauto with jok]
  | apply vec_plain; solve [eauto with jok]
  | eapply vec_cond; [|eassumption]; solve [eauto with jok] ].

Ltac jfield :=
  first [apply plain_ok | apply opt_vec_ok];
  (eapply ok_weaken; [jelem|lia]).

Ltac jstruct fs tup :=
  apply struct_ok; [reflexivity| |match goal with |- _ = ?a => destruct a; reflexivity end];
  unfold fs, tup; cbn [fields_ok fst snd];
  repeat match goal with |- _ /\ _ => split | |- True => exact I end;
  try jfield.

Lemma ok_chain_index : forall a, ok (j_chain_index) (1 + 0) a.
Proof.
  intros a. unfold j_chain_index.
  jstruct chain_index_fields chain_index_tuple.
Qed.
#[global] Hint Resolve ok_chain_index : jok.

Lemma ok_siacoin_output : forall (p : profile) a, ok (j_siacoin_output p) (1 + 0) a.
Proof.
  intros p a. unfold j_siacoin_output.
  jstruct siacoin_output_fields siacoin_output_tuple.
Qed.
#[global] Hint Resolve ok_siacoin_output : jok.

Lemma ok_siafund_output : forall a, ok (j_siafund_output) (1 + 0) a.
Proof.
  intros a. unfold j_siafund_output.
  jstruct siafund_output_fields siafund_output_tuple.
Qed.
#[global] Hint Resolve ok_siafund_output : jok.

Lemma ok_state_element : forall a, ok (j_state_element) (1 + 1) a.
Proof.
  intros a. unfold j_state_element.
  jstruct state_element_fields state_element_tuple.
Qed.
#[global] Hint Resolve ok_state_element : jok.

Lemma ok_unlock_conditions : forall a, json_conditions a -> ok (j_unlock_conditions) (1 + 1) a.
Proof.
  intros a H. unfold json_conditions in H. jhyps. unfold j_unlock_conditions.
  jstruct unlock_conditions_fields unlock_conditions_tuple.
Qed.
#[global] Hint Resolve ok_unlock_conditions : jok.

Lemma ok_v1_siacoin_input : forall a, json_v1_siacoin_input a -> ok (j_v1_siacoin_input) (1 + 2) a.
Proof.
  intros a H. unfold json_v1_siacoin_input in H. jhyps. unfold j_v1_siacoin_input.
  jstruct v1_siacoin_input_fields v1_siacoin_input_tuple.
Qed.
#[global] Hint Resolve ok_v1_siacoin_input : jok.

Lemma ok_v1_siafund_input : forall a, json_v1_siafund_input a -> ok (j_v1_siafund_input) (1 + 2) a.
Proof.
  intros a H. unfold json_v1_siafund_input in H. jhyps. unfold j_v1_siafund_input.
  jstruct v1_siafund_input_fields v1_siafund_input_tuple.
Qed.
#[global] Hint Resolve ok_v1_siafund_input : jok.

Lemma ok_v1_file_contract : forall (p : profile) a, ok (j_v1_file_contract p) (1 + 2) a.
Proof.
  intros p a. unfold j_v1_file_contract.
  jstruct v1_file_contract_fields v1_file_contract_tuple.
Qed.
#[global] Hint Resolve ok_v1_file_contract : jok.

Lemma ok_v1_file_contract_revision : forall (p : profile) a, json_v1_revision a -> ok (j_v1_file_contract_revision p) (1 + 2) a.
Proof.
  intros p a H. unfold json_v1_revision in H. jhyps. unfold j_v1_file_contract_revision.
  jstruct v1_file_contract_revision_fields v1_file_contract_revision_tuple.
Qed.
#[global] Hint Resolve ok_v1_file_contract_revision : jok.

Lemma ok_v1_storage_proof : forall a, ok (j_v1_storage_proof) (1 + 1) a.
Proof.
  intros a. unfold j_v1_storage_proof.
  jstruct v1_storage_proof_fields v1_storage_proof_tuple.
Qed.
#[global] Hint Resolve ok_v1_storage_proof : jok.

Lemma ok_covered_fields : forall a, ok (j_covered_fields) (1 + 1) a.
Proof.
  intros a. unfold j_covered_fields.
  jstruct covered_fields_fields covered_fields_tuple.
Qed.
#[global] Hint Resolve ok_covered_fields : jok.

Lemma ok_transaction_signature : forall a, json_v1_signature a -> ok (j_transaction_signature) (1 + 2) a.
Proof.
  intros a H. unfold json_v1_signature in H. jhyps. unfold j_transaction_signature.
  jstruct transaction_signature_fields transaction_signature_tuple.
Qed.
#[global] Hint Resolve ok_transaction_signature : jok.

Lemma ok_v1_transaction : forall (p : profile) a, json_v1_transaction a -> ok (j_v1_transaction p) (1 + 4) a.
Proof.
  intros p a H. unfold json_v1_transaction in H. jhyps. unfold j_v1_transaction.
  jstruct v1_transaction_fields v1_transaction_tuple.
Qed.
#[global] Hint Resolve ok_v1_transaction : jok.

Lemma ok_block : forall (p : profile) a, json_block a -> ok (j_block p) (1 + 6) a.
Proof.
  intros p a H. unfold json_block in H. jhyps. unfold j_block.
  jstruct block_fields block_tuple.
Qed.
#[global] Hint Resolve ok_block : jok.

(** ** Policies *)

Definition policy_body (stack' : nat) (t : bytes) (v : json) : jres policy :=
  if bytes_eqb t (ascii "above") then height <- c_de j_u64 v ;; JOk (PAbove height)
  else if bytes_eqb t (ascii "after") then
    unix_seconds <- c_de j_u64 v ;;
    timestamp <- jopt (from_unix_timestamp (swrap 64 w64_nz (Z.of_N (uval unix_seconds)))) ;;
    JOk (PAfter timestamp)
  else if bytes_eqb t (ascii "pk") then pk <- c_de j_public_key v ;; JOk (PPublicKey pk)
  else if bytes_eqb t (ascii "h") then h <- c_de j_hash v ;; JOk (PHash h)
  else if bytes_eqb t (ascii "thresh") then
    thresh <- de_struct (thresh_fields (MkCodec ser_policy (de_policy stack'))) v ;;
    JOk (PThreshold (fst thresh) (fst (snd thresh)))
  else if bytes_eqb t (ascii "opaque") then a <- c_de j_address v ;; JOk (POpaque a)
  else if bytes_eqb t (ascii "uc") then u <- c_de j_unlock_conditions v ;; JOk (PUnlockConditions u)
  else JErr.

Lemma type_str_ascii : forall x, Forall (fun b => b2n b < 128) (type_str x) /\ (length (type_str x) <= 1000)%nat.
Proof. intros x. destruct x; (split; [repeat constructor; reflexivity|cbn; lia]). Qed.

Ltac keys := repeat match goal with |- context [bytes_eqb ?a ?b] =>
  let r := eval vm_compute in (bytes_eqb a b) in change (bytes_eqb a b) with r end; cbv iota.

(** What it takes for a policy to survive: its inner document is read back. *)
Lemma policy_doc : forall st x v d, 
  ser_policy x = JOk (JObj [(ascii "type", JStr (type_str x)); (ascii "policy", v)]) ->
  DistinctKeys v -> json_depth v <= d ->
  (forall w, Reordered v w -> policy_body st (type_str x) w = JOk x) ->
  ok (MkCodec ser_policy (de_policy (S st))) (1 + d) x.
Proof.
  intros st x v d S D L R. eexists. split; [exact S|]. split; [|split].
  - constructor.
    + cbn [map fst]. apply distinct_names_nodup. reflexivity.
    + repeat constructor. exact D.
  - apply depth_obj. repeat constructor; cbn [snd]; [cbn; lia|exact L].
  - intros j' Rj. apply reordered_two in Rj. destruct Rj as (w1 & w2 & R1 & R2 & Ej).
    apply reordered_leaf in R1. cbn in R1. subst w1.
    assert (V : Reordered v (value_of w2)).
    { eapply reordered_trans; [exact R2|]. apply value_of_reordered. eapply reordered_distinct; eauto. }
    destruct (type_str_ascii x) as [A K].
    destruct (de_string_ok (type_str x) (utf8_ascii _ A) (small_ok _ K)) as (s & Es & El).
    assert (E : exists l, j' = JObj l /\ visit_policy None None l = JOk (Some (type_str x), Some (value_of w2))).
    { destruct Ej as [-> | ->]; eexists; (split; [reflexivity|]); cbn [visit_policy]; keys;
        rewrite Es; cbn [jbind]; rewrite El; reflexivity. }
    destruct E as (l & -> & E). cbn [c_de].
    change (de_policy (Datatypes.S st) (JObj l)) with
      (tv <- visit_policy None None l ;; t <- jopt (fst tv) ;; v <- jopt (snd tv) ;; policy_body st t v).
    rewrite E. cbn [jbind jopt fst snd]. now apply R.
Qed.

Lemma unix_roundtrip : forall t, odt_nanos t = 0 ->
  from_unix_timestamp (swrap 64 w64_nz (Z.of_N (uval (s_as_u64 (unix_timestamp t))))) = Some t.
Proof.
  intros t H. rewrite swrap_u64 by lia. unfold from_unix_timestamp. destruct (bool_dec _ true) as [h|h].
  - f_equal. apply odt_eq; [reflexivity|]. cbn [odt_nanos]. now symmetry.
  - exfalso. apply h. pose proof (odt_bounds t) as [B _]. cbn [unix_timestamp sval].
    rewrite !andb_true_iff, !Z.leb_le. repeat split; try tauto; reflexivity.
Qed.

Lemma json_policy_forall : forall of, fold_right (fun q acc => json_policy q /\ acc) True of <-> Forall json_policy of.
Proof.
  induction of as [|q of IH]; cbn [fold_right]; [split; constructor|]. rewrite IH. split.
  - intros [H1 H2]. now constructor.
  - intros H. inversion H; subst. now split.
Qed.

Lemma depth_max : forall (of : list policy) q, In q of -> (depth q <= fold_right (fun q acc => Nat.max (depth q) acc) O of)%nat.
Proof.
  induction of as [|x of IH]; intros q H; [contradiction|]. cbn [fold_right]. destruct H as [->|H]; [lia|].
  specialize (IH q H). lia.
Qed.

Lemma leaf_policy_ok : forall A (c : codec A) (a : A) d st x, ok c d a ->
  ser_policy x = (v <- c_ser c a ;; JOk (JObj [(ascii "type", JStr (type_str x)); (ascii "policy", v)])) ->
  (forall w, c_de c w = JOk a -> policy_body st (type_str x) w = JOk x) ->
  ok (MkCodec ser_policy (de_policy (S st))) (1 + d) x.
Proof.
  intros A c a d st x (j & S & D & L & R) E B. eapply policy_doc.
  - rewrite E, S. reflexivity.
  - exact D.
  - exact L.
  - intros w Rw. apply B, R, Rw.
Qed.

Lemma ser_threshold : forall n of, ser_policy (PThreshold n of) =
  (v <- (vn <- junwrap (c_ser j_u8 n) ;; l <- junwrap (jmap ser_policy of) ;;
         JOk (value_of (JObj [(ascii "n", vn); (ascii "of", JArr l)]))) ;;
   JOk (JObj [(ascii "type", JStr (type_str (PThreshold n of))); (ascii "policy", v)])).
Proof. reflexivity. Qed.

Lemma ok_policy_depth : forall x stack, json_policy x -> (depth x <= stack)%nat ->
  ok (j_policy stack) (3 * N.of_nat (depth x)) x.
Proof.
  intros x. induction x as [h|t|pk|h|n of IH|a|u] using policy_ind'; intros stack J D;
    (destruct stack as [|st]; [cbn [depth] in D; lia|]); unfold j_policy.
  - eapply ok_weaken; [eapply (leaf_policy_ok _ j_u64 h); [apply ok_u64|reflexivity|]|cbn; lia].
    intros w E. unfold policy_body. cbn [type_str]. keys. now rewrite E.
  - eapply ok_weaken; [eapply (leaf_policy_ok _ j_u64 (s_as_u64 (unix_timestamp t))); [apply ok_u64|reflexivity|]|cbn; lia].
    intros w E. unfold policy_body. cbn [type_str]. keys. rewrite E. cbn [jbind].
    rewrite unix_roundtrip by exact J. reflexivity.
  - eapply ok_weaken; [eapply (leaf_policy_ok _ j_public_key pk); [apply ok_public_key|reflexivity|]|cbn; lia].
    intros w E. unfold policy_body. cbn [type_str]. keys. now rewrite E.
  - eapply ok_weaken; [eapply (leaf_policy_ok _ j_hash h); [apply ok_hash|reflexivity|]|cbn; lia].
    intros w E. unfold policy_body. cbn [type_str]. keys. now rewrite E.
  - cbn [json_policy] in J. apply json_policy_forall in J. cbn [depth] in *.
    set (m := fold_right (fun q acc => Nat.max (depth q) acc) O of) in *.
    assert (F : Forall (ok (MkCodec ser_policy (de_policy st)) (3 * N.of_nat m)) of).
    { rewrite Forall_forall in *. intros q Hq. pose proof (depth_max of q Hq) as M. fold m in M.
      eapply ok_weaken; [apply (IH q Hq st); [now apply J|lia]|lia]. }
    apply list_ok in F.
    destruct (de_struct_ok _ (thresh_fields (MkCodec ser_policy (de_policy st))) (1 + 3 * N.of_nat m) (n, (of, tt)))
      as (j & S & Dj & L & R); [reflexivity| |].
    { cbn [thresh_fields fields_ok fst snd]. repeat split.
      - apply plain_ok. eapply ok_weaken; [apply ok_u8|lia].
      - apply plain_ok. exact F. }
    assert (V : Reordered j (value_of j)) by now apply value_of_reordered.
    eapply ok_weaken; [eapply (policy_doc st (PThreshold n of) (value_of j) (2 + 3 * N.of_nat m))|lia].
    + rewrite ser_threshold. destruct F as (jl & Sl & _). cbn [j_list c_ser] in Sl. unfold ser_list in Sl.
      destruct (jmap ser_policy of) as [l| |] eqn:El; cbn [jbind] in Sl; try discriminate.
      unfold ser_struct, thresh_fields in S. cbn [ser_fields plain f_skip f_ser f_name fst snd c_ser j_list] in S.
      unfold ser_list in S. rewrite El in S. cbn [j_u8 c_ser ser_u8 jbind] in S.
      apply (f_equal (fun r => match r with JOk x => x | _ => JNull end)) in S. cbv beta iota in S.
      cbn [j_u8 c_ser ser_u8 junwrap jbind]. rewrite <- S. reflexivity.
    + eapply reordered_distinct; eauto.
    + etransitivity; [apply depth_reordered; exact V|]. lia.
    + intros w Rw. unfold policy_body. cbn [type_str]. keys.
      rewrite (R w) by (eapply reordered_trans; eauto). reflexivity.
  - eapply ok_weaken; [eapply (leaf_policy_ok _ j_address a); [apply ok_address|reflexivity|]|cbn; lia].
    intros w E. unfold policy_body. cbn [type_str]. keys. now rewrite E.
  - eapply ok_weaken; [eapply (leaf_policy_ok _ j_unlock_conditions u); [now apply ok_unlock_conditions|reflexivity|]|cbn; lia].
    intros w E. unfold policy_body. cbn [type_str]. keys. now rewrite E.
Qed.

Lemma ok_policy : forall n stack x, (n <= stack)%nat -> json_policy_upto n x -> ok (j_policy stack) (3 * N.of_nat n) x.
Proof.
  intros n stack x Hn [J D]. eapply ok_weaken; [apply ok_policy_depth; [exact J|lia]|lia].
Qed.

#[global] Hint Resolve ok_policy : jok.

(** ** Version 2 types *)

Lemma ok_satisfied_policy : forall n stack a, (n <= stack)%nat -> json_satisfied n a ->
  ok (j_satisfied_policy stack) (1 + (1 + 3 * N.of_nat n)) a.
Proof.
  intros n stack a Hn H. unfold json_satisfied in H. unfold j_satisfied_policy.
  jstruct satisfied_policy_fields satisfied_policy_tuple.
Qed.
#[global] Hint Resolve ok_satisfied_policy : jok.

Lemma ok_attestation : forall a, json_attestation a -> ok (j_attestation) (1 + 0) a.
Proof.
  intros a H. unfold json_attestation in H. jhyps. unfold j_attestation.
  jstruct attestation_fields attestation_tuple.
Qed.
#[global] Hint Resolve ok_attestation : jok.

Lemma ok_v2_file_contract : forall (p : profile) a, ok (j_v2_file_contract p) (1 + 1) a.
Proof.
  intros p a. unfold j_v2_file_contract.
  jstruct v2_file_contract_fields v2_file_contract_tuple.
Qed.
#[global] Hint Resolve ok_v2_file_contract : jok.

Lemma ok_siacoin_element : forall (p : profile) a, ok (j_siacoin_element p) (1 + 2) a.
Proof.
  intros p a. unfold j_siacoin_element.
  jstruct siacoin_element_fields siacoin_element_tuple.
Qed.
#[global] Hint Resolve ok_siacoin_element : jok.

Lemma ok_siafund_element : forall (p : profile) a, ok (j_siafund_element p) (1 + 2) a.
Proof.
  intros p a. unfold j_siafund_element.
  jstruct siafund_element_fields siafund_element_tuple.
Qed.
#[global] Hint Resolve ok_siafund_element : jok.

Lemma ok_file_contract_element : forall (p : profile) a, ok (j_file_contract_element p) (1 + 2) a.
Proof.
  intros p a. unfold j_file_contract_element.
  jstruct file_contract_element_fields file_contract_element_tuple.
Qed.
#[global] Hint Resolve ok_file_contract_element : jok.

Lemma ok_chain_index_element : forall a, ok (j_chain_index_element) (1 + 2) a.
Proof.
  intros a. unfold j_chain_index_element.
  jstruct chain_index_element_fields chain_index_element_tuple.
Qed.
#[global] Hint Resolve ok_chain_index_element : jok.

Lemma ok_v2_siacoin_input : forall p n stack a, (n <= stack)%nat -> json_v2_siacoin_input n a ->
  ok (j_v2_siacoin_input p stack) (1 + (3 + 3 * N.of_nat n)) a.
Proof.
  intros p n stack a Hn H. unfold json_v2_siacoin_input in H. unfold j_v2_siacoin_input.
  jstruct v2_siacoin_input_fields v2_siacoin_input_tuple.
Qed.
#[global] Hint Resolve ok_v2_siacoin_input : jok.

Lemma ok_v2_siafund_input : forall p n stack a, (n <= stack)%nat -> json_v2_siafund_input n a ->
  ok (j_v2_siafund_input p stack) (1 + (3 + 3 * N.of_nat n)) a.
Proof.
  intros p n stack a Hn H. unfold json_v2_siafund_input in H. unfold j_v2_siafund_input.
  jstruct v2_siafund_input_fields v2_siafund_input_tuple.
Qed.
#[global] Hint Resolve ok_v2_siafund_input : jok.

Lemma ok_v2_file_contract_revision : forall (p : profile) a, ok (j_v2_file_contract_revision p) (1 + 3) a.
Proof.
  intros p a. unfold j_v2_file_contract_revision.
  jstruct v2_file_contract_revision_fields v2_file_contract_revision_tuple.
Qed.
#[global] Hint Resolve ok_v2_file_contract_revision : jok.

Lemma ok_file_contract_renewal : forall (p : profile) a, ok (j_file_contract_renewal p) (1 + 2) a.
Proof.
  intros p a. unfold j_file_contract_renewal.
  jstruct file_contract_renewal_fields file_contract_renewal_tuple.
Qed.
#[global] Hint Resolve ok_file_contract_renewal : jok.

Lemma ok_v2_storage_proof : forall a, ok (j_v2_storage_proof) (1 + 3) a.
Proof.
  intros a. unfold j_v2_storage_proof.
  jstruct v2_storage_proof_fields v2_storage_proof_tuple.
Qed.
#[global] Hint Resolve ok_v2_storage_proof : jok.

(** ** Resolutions *)

Lemma one_entry_ok : forall k v (d : N), DistinctKeys v -> json_depth v <= d ->
  DistinctKeys (JObj [(k, v)]) /\ json_depth (JObj [(k, v)]) <= 1 + d.
Proof.
  intros k v d D L. split.
  - constructor; [cbn; constructor; [intros []|constructor]|repeat constructor; exact D].
  - apply depth_obj. repeat constructor. exact L.
Qed.

Lemma reordered_one : forall k v j', Reordered (JObj [(k, v)]) j' -> exists w, j' = JObj [(k, w)] /\ Reordered v w.
Proof.
  intros k v j' R. apply reordered_obj_inv in R. destruct R as (m & l' & -> & F & Q).
  inversion F as [|? [a w] ? m1 [E1 R1] F1]; subst. inversion F1; subst. cbn [fst snd] in *. subst.
  apply Permutation_length_1_inv in Q. subst. eauto.
Qed.

Lemma ok_contract_resolution : forall p r, ok (j_contract_resolution p) (1 + 4) r.
Proof.
  intros p r. destruct r as [x|x|].
  - destruct (ok_file_contract_renewal p x) as (j & S & D & L & R).
    destruct (one_entry_ok (ascii "renewal") j 4 D ltac:(lia)) as [D' L'].
    exists (JObj [(ascii "renewal", j)]). cbn [j_contract_resolution c_ser]. rewrite S. repeat split; auto.
    intros j' Rj. apply reordered_one in Rj. destruct Rj as (w & -> & Rw). cbn [j_contract_resolution c_de].
    keys. now rewrite (R _ Rw).
  - destruct (ok_v2_storage_proof x) as (j & S & D & L & R).
    destruct (one_entry_ok (ascii "storageProof") j 4 D ltac:(lia)) as [D' L'].
    exists (JObj [(ascii "storageProof", j)]). cbn [j_contract_resolution c_ser]. rewrite S. repeat split; auto.
    intros j' Rj. apply reordered_one in Rj. destruct Rj as (w & -> & Rw). cbn [j_contract_resolution c_de].
    keys. now rewrite (R _ Rw).
  - destruct (one_entry_ok (ascii "expiration") (JArr []) 4 ltac:(repeat constructor) ltac:(cbn; lia)) as [D' L'].
    exists (JObj [(ascii "expiration", JArr [])]). cbn [j_contract_resolution c_ser]. repeat split; auto.
    intros j' Rj. apply reordered_one in Rj. destruct Rj as (w & -> & Rw). cbn [j_contract_resolution c_de].
    keys. apply reordered_arr_inv in Rw. destruct Rw as (l' & -> & F). inversion F; subst. reflexivity.
Qed.

Definition resolution_body (p : profile) (parent : file_contract_element) (t : bytes) (v : json) : jres file_contract_resolution :=
  if bytes_eqb t (ascii "renewal") then
    r <- c_de (j_file_contract_renewal p) v ;; JOk (MkFcres parent (ResRenewal r))
  else if bytes_eqb t (ascii "storageProof") then
    r <- c_de j_v2_storage_proof v ;; JOk (MkFcres parent (ResStorageProof r))
  else if bytes_eqb t (ascii "expiration") then JOk (MkFcres parent ResExpiration)
  else JErr.

Lemma resolution_doc : forall p parent r t v,
  ser_file_contract_resolution p (MkFcres parent r) =
    (j <- c_ser (j_file_contract_element p) parent ;;
     JOk (JObj [(ascii "parent", j); (ascii "type", JStr t); (ascii "resolution", v)])) ->
  Forall (fun b => b2n b < 128) t -> (length t <= 1000)%nat ->
  DistinctKeys v -> json_depth v <= 4 ->
  (forall w, Reordered v w -> resolution_body p parent t w = JOk (MkFcres parent r)) ->
  ok (j_file_contract_resolution p) (1 + 4) (MkFcres parent r).
Proof.
  intros p parent r t v S A K D L R. destruct (ok_file_contract_element p parent) as (j & Sj & Dj & Lj & Rj).
  rewrite Sj in S. cbn [jbind] in S. eexists. split; [exact S|]. split; [|split].
  - constructor.
    + cbn [map fst]. apply distinct_names_nodup. reflexivity.
    + repeat constructor; assumption.
  - apply depth_obj. repeat constructor; cbn [snd]; try lia. cbn. lia.
  - intros j' Rj'. apply reordered_three in Rj'. destruct Rj' as (w1 & w2 & w3 & l & R1 & R2 & R3 & -> & El).
    apply reordered_leaf in R2. cbn in R2. subst w2. apply Rj in R1.
    assert (V : Reordered v (value_of w3)).
    { eapply reordered_trans; [exact R3|]. apply value_of_reordered. eapply reordered_distinct; eauto. }
    destruct (de_string_ok t (utf8_ascii _ A) (small_ok _ K)) as (s & Es & Et).
    assert (E : visit_resolution p None None None l = JOk (Some parent, (Some t, Some (value_of w3)))).
    { cbv zeta in El. destruct El as [->|[->|[->|[->|[->| ->]]]]]; cbn [visit_resolution]; keys;
        repeat (rewrite ?R1, ?Es; cbn [jbind]); rewrite ?Et; reflexivity. }
    cbn [j_file_contract_resolution c_de]. 
    change (de_file_contract_resolution p (JObj l)) with
      (x <- visit_resolution p None None None l ;; parent <- jopt (fst x) ;; t <- jopt (fst (snd x)) ;;
       v <- jopt (snd (snd x)) ;; resolution_body p parent t v).
    rewrite E. cbn [jbind jopt fst snd]. now apply R.
Qed.

Lemma ok_file_contract_resolution : forall p r, ok (j_file_contract_resolution p) (1 + 4) r.
Proof.
  intros p [parent [x|x|]].
  - destruct (ok_file_contract_renewal p x) as (j & S & D & L & R).
    assert (V : Reordered j (value_of j)) by now apply value_of_reordered.
    apply (resolution_doc p parent (ResRenewal x) (ascii "renewal") (value_of j)).
    + unfold ser_file_contract_resolution. cbn [fcres_parent fcres_resolution]. rewrite S. reflexivity.
    + repeat constructor; reflexivity.
    + cbn; lia.
    + eapply reordered_distinct; eauto.
    + etransitivity; [apply depth_reordered; exact V|]. lia.
    + intros w Rw. unfold resolution_body. keys. now rewrite (R w) by (eapply reordered_trans; eauto).
  - destruct (ok_v2_storage_proof x) as (j & S & D & L & R).
    assert (V : Reordered j (value_of j)) by now apply value_of_reordered.
    apply (resolution_doc p parent (ResStorageProof x) (ascii "storageProof") (value_of j)).
    + unfold ser_file_contract_resolution. cbn [fcres_parent fcres_resolution]. rewrite S. reflexivity.
    + repeat constructor; reflexivity.
    + cbn; lia.
    + eapply reordered_distinct; eauto.
    + etransitivity; [apply depth_reordered; exact V|]. lia.
    + intros w Rw. unfold resolution_body. keys. now rewrite (R w) by (eapply reordered_trans; eauto).
  - apply (resolution_doc p parent ResExpiration (ascii "expiration") (JObj [])).
    + reflexivity.
    + repeat constructor; reflexivity.
    + cbn; lia.
    + repeat constructor.
    + cbn; lia.
    + intros w Rw. unfold resolution_body. keys. reflexivity.
Qed.
#[global] Hint Resolve ok_contract_resolution ok_file_contract_resolution : jok.

Lemma ok_option_address : forall a, a <> None -> ok (j_option j_address) 0 a.
Proof.
  intros [a|] H; [|congruence]. destruct (ok_address a) as (j & S & D & L & R). clear R.
  cbn [j_address c_ser] in S. apply (f_equal (fun r => match r with JOk x => x | _ => JNull end)) in S. cbv beta iota in S.
  subst j. apply (str_ok _ (j_option j_address) (Some a) (address_text a)); [reflexivity|].
  cbn [j_option c_de de_option]. destruct (ok_address a) as (j & S & _ & _ & R).
  cbn [j_address c_ser] in S. apply (f_equal (fun r => match r with JOk x => x | _ => JNull end)) in S. cbv beta iota in S.
  subst j. rewrite (R (JStr (address_text a))) by constructor. reflexivity.
Qed.

Lemma ok_v2_transaction : forall p n stack a, (n <= stack)%nat -> json_v2_transaction n a ->
  ok (j_v2_transaction p stack) (1 + (6 + 3 * N.of_nat n)) a.
Proof.
  intros p n stack a Hn H. unfold json_v2_transaction in H. jhyps. unfold j_v2_transaction.
  jstruct v2_transaction_fields v2_transaction_tuple.
  apply opt_option_ok. intros x E. eapply ok_weaken; [apply ok_option_address; congruence|lia].
Qed.

