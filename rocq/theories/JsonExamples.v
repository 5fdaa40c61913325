(** The JSON theorems in the form of P_json.v, and examples. *)

From Verif Require Import Base Io SpecUtf8 SpecText SpecWire SpecFormat SpecBase64 Model_encoding Model_common Model_v1 Model_currency
  Model_policy Model_v2 Model_consensus Model_text Model_json Model_jsontypes SpecJson JsonProofs Base64Proofs Base64Spec TimeProofs
  JsonLeafProofs TextMore JsonTypeProofs JsonStateProofs FormatProofs ConsensusProofs BasicProofs Samples JsonMore.
Local Open Scope N_scope.
Local Open Scope jres_scope.

Lemma ea_nth_eq : forall a b : element_accumulator, ea_num_leaves a = ea_num_leaves b ->
  (forall i, nth i (flist (ea_trees a)) zero_hash = nth i (flist (ea_trees b)) zero_hash) -> a = b.
Proof.
  intros [n t] [n' t'] E H. cbn [ea_num_leaves ea_trees] in *. subst n'. f_equal. apply farr_eq.
  apply nth_ext with (d := zero_hash) (d' := zero_hash); [now rewrite !farr_len|]. intros i _. apply H.
Qed.

Lemma accumulator_agree : forall a rest, exists b,
  run decode_element_accumulator (wbytes (encode_element_accumulator a) ++ rest) = ROk b rest /\
  exists j, c_ser j_element_accumulator a = JOk j /\
    (forall j', Reordered j j' -> c_de j_element_accumulator j' = JOk b) /\ c_de j_element_accumulator (value_of j) = JOk b.
Proof.
  intros a rest. destruct (accumulator_decoded a rest) as (b & R & E1 & E2).
  destruct (accumulator_reads a) as (c & (j & S & D & L & Rj) & F1 & F2).
  assert (b = c) by (apply ea_nth_eq; [congruence|intros i; now rewrite E2, F2]). subst c.
  exists b. split; [exact R|]. exists j. split; [exact S|]. split; [exact Rj|]. apply Rj. now apply value_of_reordered.
Qed.

Lemma s_accumulator_normal : ea_normal s_accumulator.
Proof.
  intros i H. cbn [s_accumulator ea_num_leaves ea_trees flist] in *.
  do 3 (destruct i as [|i]; [try reflexivity; discriminate|]). cbn [nth].
  destruct (Nat.lt_ge_cases i 61) as [L|L].
  - now rewrite nth_repeat.
  - apply nth_overflow. now rewrite repeat_length.
Qed.

Lemma accumulator_example : ea_normal s_accumulator /\ set_bits 5 = 2%nat /\
  present 5 (flist (ea_trees s_accumulator)) = [s_hash 34; s_hash 35] /\
  exists a, c_de j_element_accumulator (JObj [(ascii "numLeaves", JUint (s_u64 5));
     (ascii "trees", JArr [JStr (hash_text (s_hash 34)); JStr (hash_text (s_hash 35))])]) = JOk a.
Proof.
  split; [exact s_accumulator_normal|]. split; [reflexivity|]. split; [reflexivity|].
  destruct (ok_element_accumulator _ s_accumulator_normal) as (j & S & _ & _ & R).
  exists s_accumulator. apply R. rewrite accumulator_json in S.
  assert (E : j = JObj [(ascii "numLeaves", JUint (s_u64 5));
     (ascii "trees", JArr [JStr (hash_text (s_hash 34)); JStr (hash_text (s_hash 35))])]).
  { apply (f_equal (fun r => match r with JOk y => y | _ => j end)) in S. cbv beta iota in S. rewrite <- S. reflexivity. }
  rewrite E. constructor.
Qed.

Fixpoint tower (n : nat) : policy := match n with O => PAbove (s_u64 0) | S n' => PThreshold x01 [tower n'] end.

Lemma odd_time_ok : ((ts_min <=? 0)%Z && (0 <=? ts_max)%Z && (5 <? 1000000000))%bool = true.
Proof. reflexivity. Qed.
Lemma lost_examples :
  (exists t, odt_nanos t <> 0) /\ (exists x, json_policy x /\ depth x = 44%nat) /\
  (exists d, ~ json_duration d) /\ (exists t, ~ json_time t) /\ (exists a, ~ ea_normal a).
Proof.
  split; [|split; [|split; [|split]]].
  - exists (MkOdt 0 5 eq_refl). cbn. lia.
  - exists (tower 43). split; [cbn; tauto|reflexivity].
  - exists (MkDur (2 ^ 63) eq_refl). unfold json_duration. cbn [dur_ns]. lia.
  - exists (MkOdt (-62167219201) 0 eq_refl). unfold json_time. cbn [odt_secs]. lia.
  - exists (MkEa (s_u64 0) (@MkFarr 64 hash256 (s_hash 34 :: repeat zero_hash 63) eq_refl)).
    intros H. specialize (H O eq_refl). cbn [ea_trees flist nth] in H.
    apply (f_equal aval) in H. apply (f_equal (fun l => nth 0 l x00)) in H. vm_compute in H. discriminate.
Qed.

Ltac surv lem := intros; apply ok_survives; eapply ok_weaken; [eapply lem; eauto|lia].

Lemma policy_survives : forall n stack x, (n <= stack)%nat -> json_policy_upto n x ->
  SurvivesJson (j_policy stack) (3 * N.of_nat n) x.
Proof. surv ok_policy. Qed.
Lemma satisfied_survives : forall n stack x, (n <= stack)%nat -> json_satisfied n x ->
  SurvivesJson (j_satisfied_policy stack) (3 * N.of_nat n + 2) x.
Proof. surv ok_satisfied_policy. Qed.
Lemma covered_survives : forall x, SurvivesJson j_covered_fields 2 x.
Proof. surv ok_covered_fields. Qed.

Lemma v1_survives : forall p,
  (forall x, json_v1_transaction x -> SurvivesJson (j_v1_transaction p) 5 x) /\
  (forall x, json_block x -> SurvivesJson (j_block p) 7 x) /\
  (forall x, json_conditions x -> SurvivesJson j_unlock_conditions 2 x) /\
  (forall x, json_v1_siacoin_input x -> SurvivesJson j_v1_siacoin_input 3 x) /\
  (forall x, json_v1_siafund_input x -> SurvivesJson j_v1_siafund_input 3 x) /\
  (forall x, SurvivesJson (j_v1_file_contract p) 3 x) /\
  (forall x, json_v1_revision x -> SurvivesJson (j_v1_file_contract_revision p) 3 x) /\
  (forall x, SurvivesJson j_v1_storage_proof 2 x) /\
  (forall x, json_v1_signature x -> SurvivesJson j_transaction_signature 3 x).
Proof.
  intros p. split; [surv ok_v1_transaction|]. split; [surv ok_block|]. split; [surv ok_unlock_conditions|].
  split; [surv ok_v1_siacoin_input|]. split; [surv ok_v1_siafund_input|]. split; [surv ok_v1_file_contract|].
  split; [surv ok_v1_file_contract_revision|]. split; [surv ok_v1_storage_proof|surv ok_transaction_signature].
Qed.

Lemma v2_transaction_survives : forall p n stack x, (n <= stack)%nat -> json_v2_transaction n x ->
  SurvivesJson (j_v2_transaction p stack) (3 * N.of_nat n + 7) x.
Proof. surv ok_v2_transaction. Qed.

Lemma v2_survives : forall p n stack, (n <= stack)%nat ->
  (forall x, json_v2_siacoin_input n x -> SurvivesJson (j_v2_siacoin_input p stack) (3 * N.of_nat n + 4) x) /\
  (forall x, json_v2_siafund_input n x -> SurvivesJson (j_v2_siafund_input p stack) (3 * N.of_nat n + 4) x) /\
  (forall x, json_attestation x -> SurvivesJson j_attestation 1 x).
Proof.
  intros p n stack L. split; [surv ok_v2_siacoin_input|]. split; [surv ok_v2_siafund_input|surv ok_attestation].
Qed.

Lemma contracts_survive : forall p,
  (forall x, SurvivesJson (j_v2_file_contract p) 2 x) /\
  (forall x, SurvivesJson (j_siacoin_element p) 3 x) /\
  (forall x, SurvivesJson (j_siafund_element p) 3 x) /\
  (forall x, SurvivesJson (j_file_contract_element p) 3 x) /\
  (forall x, SurvivesJson j_chain_index_element 3 x) /\
  (forall x, SurvivesJson (j_v2_file_contract_revision p) 4 x) /\
  (forall x, SurvivesJson (j_file_contract_renewal p) 3 x) /\
  (forall x, SurvivesJson j_v2_storage_proof 4 x) /\
  (forall x, SurvivesJson (j_contract_resolution p) 5 x) /\
  (forall x, SurvivesJson (j_file_contract_resolution p) 5 x).
Proof.
  intros p. split; [surv ok_v2_file_contract|]. split; [surv ok_siacoin_element|]. split; [surv ok_siafund_element|].
  split; [surv ok_file_contract_element|]. split; [surv ok_chain_index_element|].
  split; [surv ok_v2_file_contract_revision|]. split; [surv ok_file_contract_renewal|].
  split; [surv ok_v2_storage_proof|]. split; [surv ok_contract_resolution|surv ok_file_contract_resolution].
Qed.

Lemma consensus_survives : forall p,
  (forall x, ea_normal x -> SurvivesJson j_element_accumulator 2 x) /\
  (forall x, json_network x -> SurvivesJson (j_network p) 2 x) /\
  (forall x, json_state x -> SurvivesJson (j_state p) 3 x) /\
  (forall x, json_chain_state x -> SurvivesJson (j_chain_state p) 4 x).
Proof.
  intros p. split; [surv ok_element_accumulator|]. split; [surv ok_network|]. split; [surv ok_state|surv ok_chain_state].
Qed.

Lemma simple_survive : forall p,
  (forall x, SurvivesJson (j_currency p) 0 x) /\ (forall x, SurvivesJson j_hash 0 x) /\
  (forall x, SurvivesJson j_address 0 x) /\ (forall x, SurvivesJson j_public_key 0 x) /\
  (forall x, SurvivesJson j_signature 0 x) /\ (forall x, SurvivesJson j_leaf 0 x) /\
  (forall x, SurvivesJson j_work 0 x) /\ (forall x, SurvivesJson j_specifier 1 x) /\
  (forall x, SurvivesJson j_chain_index 1 x) /\ (forall x, SurvivesJson (j_siacoin_output p) 1 x) /\
  (forall x, SurvivesJson j_siafund_output 1 x) /\ (forall x, SurvivesJson j_state_element 2 x).
Proof.
  intros p. split; [surv ok_currency|]. split; [surv ok_hash|]. split; [surv ok_address|]. split; [surv ok_public_key|].
  split; [surv ok_signature|]. split; [surv ok_leaf|]. split; [surv ok_work|]. split; [surv ok_specifier|].
  split; [surv ok_chain_index|]. split; [surv ok_siacoin_output|]. split; [surv ok_siafund_output|surv ok_state_element].
Qed.

Lemma leaves_survive :
  (forall x, json_key x -> SurvivesJson j_unlock_key 0 x) /\
  (forall x, json_time x -> SurvivesJson j_odt 0 x) /\
  (forall x, json_duration x -> SurvivesJson j_duration 0 x).
Proof. split; [surv ok_unlock_key|]. split; [surv ok_odt|surv ok_duration]. Qed.

Lemma v2_transaction_text : forall p stack x, (40 <= stack)%nat -> json_v2_transaction 40 x ->
  SurvivesText (j_v2_transaction p stack) x.
Proof. intros p stack x L H. apply (survives_text _ _ _ _ (v2_transaction_survives p 40 stack x L H)). reflexivity. Qed.

Lemma payloads_survive : forall v, VecAll json_bytes v -> SurvivesJson j_vec_base64 1 v.
Proof. surv ok_vec_base64. Qed.
Lemma stamps_survive : forall a, Forall json_time (flist a) -> SurvivesJson j_timestamps 1 a.
Proof. surv ok_timestamps. Qed.

Lemma payloads_accepted : forall l (v : vec 24 (vec 1 u8)), c_de j_vec_base64 (JArr l) = JOk v ->
  Forall2 (fun j b => exists s, j = JStr s /\ Base64Text s (vlist b)) l (vlist v).
Proof.
  intros l v H. cbn [j_vec_base64 c_de] in H. unfold de_vec_base64 in H. cbn [de_list] in H.
  destruct (jmap de_string l) as [strs| |] eqn:Es; cbn [jbind] in H; try discriminate.
  match type of H with context [jmap ?f strs] => set (g := f) in H end.
  destruct (jmap g strs) as [bs| |] eqn:Eb; cbn [jbind] in H; try discriminate.
  destruct (vec_of 24 bs) as [w|] eqn:Ew; [|discriminate]. assert (v = w) by congruence. subst w.
  apply vec_of_some in Ew. unfold u8 in *. rewrite Ew. clear H Ew v.
  revert strs bs Es Eb. induction l as [|j l IH]; intros strs bs Es Eb.
  - cbn in Es. assert (strs = []) by congruence. subst strs. cbn in Eb. assert (bs = []) by congruence. subst. constructor.
  - cbn [jmap] in Es. fold (jmap de_string) in Es.
    destruct (de_string j) as [s| |] eqn:Ej; cbn [jbind] in Es; try discriminate.
    destruct (jmap de_string l) as [strs'| |]; cbn [jbind] in Es; try discriminate.
    assert (strs = s :: strs') by congruence. subst strs. clear Es. cbn [jmap] in Eb. fold (jmap g) in Eb.
    destruct (g s) as [b| |] eqn:Eg; cbn [jbind] in Eb; try discriminate.
    destruct (jmap g strs') as [bs'| |] eqn:Eb'; cbn [jbind] in Eb; try discriminate.
    assert (bs = b :: bs') by congruence. subst bs. clear Eb. constructor; [|now apply (IH strs')].
    unfold g in Eg. destruct (b64_decode (vlist (sbytes s))) as [d|] eqn:Ed; cbn [jopt jbind] in Eg; [|discriminate].
    destruct (vec_of 1 d) as [w|] eqn:Ew; [|discriminate]. assert (b = w) by congruence. subst w.
    apply vec_of_some in Ew. apply base64_decode_iff in Ed. unfold u8 in *. rewrite Ew. exists (vlist (sbytes s)).
    split; [|exact Ed]. destruct j; try discriminate. cbn [de_string] in Ej.
    destruct (vec_of 1 s0) as [w|] eqn:Ev; cbn [jopt jbind] in Ej; [|discriminate].
    destruct (rstring_of w) as [r|] eqn:Er; cbn [jopt] in Ej; [|discriminate].
    assert (r = s) by congruence. subst r. apply rstring_of_some in Er. apply vec_of_some in Ev. congruence.
Qed.

Lemma base64_example : Base64Text (ascii "aGVsbG8=") (ascii "hello") /\
  c_de j_base64 (JStr (ascii "aGVsbG9=")) = JErr /\ c_de j_base64 (JStr (ascii "aGVsbG8")) = JErr /\
  c_de j_base64 (JStr (ascii "aGVs bG8=")) = JErr.
Proof.
  split; [|split; [|split]]; [|vm_compute; reflexivity..].
  apply base64_decode_iff. vm_compute. reflexivity.
Qed.

Lemma s_time_json : json_time s_time.
Proof. unfold json_time. cbn. lia. Qed.

Lemma stamps_example : c_de j_odt (JStr (ascii "2023-11-14T22:13:20Z")) = JOk s_time /\
  Forall json_time (flist (st_prev_timestamps s_state_2)).
Proof.
  split.
  - assert (E : match c_de j_odt (JStr (ascii "2023-11-14T22:13:20Z")) with
      | JOk t => (odt_secs t =? 1700000000)%Z && (odt_nanos t =? 0) | _ => false end = true) by (vm_compute; reflexivity).
    destruct (c_de j_odt (JStr (ascii "2023-11-14T22:13:20Z"))) as [t| |]; try discriminate. f_equal.
    apply andb_true_iff in E as [E1 E2]. apply Z.eqb_eq in E1. apply N.eqb_eq in E2. now apply odt_eq.
  - cbn [s_state_2 s_state st_prev_timestamps flist]. repeat constructor; unfold json_time; cbn; lia.
Qed.

Lemma s_key_json : json_key s_unlock_key.
Proof.
  exists (ascii "ed25519"), 9%nat. split; [reflexivity|]. split; [|split; [|split]].
  - intros u E. apply (f_equal (fun l => last l x00)) in E. rewrite last_last in E. vm_compute in E. discriminate.
  - apply utf8_spec. reflexivity.
  - repeat constructor; discriminate.
  - vm_compute. discriminate.
Qed.

Lemma s_conditions_json : json_conditions s_unlock_conditions.
Proof. repeat constructor; exact s_key_json. Qed.

Lemma s_bytes_json : forall sz (v : vec sz u8), N.of_nat (length (vlist v)) < 1000 -> json_bytes v.
Proof.
  intros sz v H. unfold json_bytes, isize_max. change (2 ^ 63 - 1) with 9223372036854775807.
  assert ((N.of_nat (length (vlist v)) + 2) / 3 <= 1002 / 3) by (apply N.div_le_mono; lia).
  change (1002 / 3) with 334 in *. lia.
Qed.

Lemma s_policy_json : json_policy_upto 4 s_policy.
Proof.
  split; [|cbn; lia]. cbn [s_policy json_policy fold_right].
  repeat match goal with |- _ /\ _ => split | |- True => exact I end; try reflexivity. exact s_conditions_json.
Qed.

Lemma s_v1_json : json_v1_transaction s_v1_transaction.
Proof.
  repeat match goal with |- _ /\ _ => split end; repeat constructor; try exact s_key_json;
    apply s_bytes_json; vm_compute; reflexivity.
Qed.

Lemma json_examples :
  json_policy_upto 4 s_policy /\ json_v1_transaction s_v1_transaction /\ json_block s_block /\
  json_v2_transaction 4 s_v2_transaction /\ json_state s_state_2 /\ ea_normal s_accumulator.
Proof.
  split; [exact s_policy_json|]. split; [exact s_v1_json|]. split; [|split; [|split]].
  - split; [exact s_time_json|]. constructor; [exact s_v1_json|constructor].
  - split; [|split; [|split]].
    + constructor; [exact s_policy_json|constructor].
    + constructor; [exact s_policy_json|constructor].
    + constructor; [apply s_bytes_json; vm_compute; reflexivity|constructor].
    + apply s_bytes_json; vm_compute; reflexivity.
  - split; [exact (proj2 stamps_example)|]. split; [|exact s_accumulator_normal].
    unfold json_duration. cbn. lia.
  - exact s_accumulator_normal.
Qed.
