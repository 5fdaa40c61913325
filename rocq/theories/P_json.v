(** Properties C43 and C49-C51: accumulators and JSON. [SurvivesJson], [SurvivesText] and the
    conditions on values are in SpecJson.v, [Base64Text] in SpecBase64.v. Only statements. *)

From Verif Require Import Base Io Spec SpecUtf8 SpecText SpecWire SpecFormat SpecBase64 Model_encoding Model_common
  Model_v1 Model_currency Model_policy Model_v2 Model_consensus Model_text Model_json Model_jsontypes SpecJson
  Samples FormatProofs ConsensusProofs WireProofs TextMore JsonProofs JsonLeafProofs JsonTypeProofs JsonStateProofs JsonMore EpochProofs
  JsonExamples.
Local Open Scope N_scope.

(** ** C43. [present n l] are the elements of [l] at the positions of the set bits of [n]. *)

Theorem C43_layout : forall a, exists count,
  wbytes (encode_element_accumulator a) =
    count ++ concat (map aval (present (uval (ea_num_leaves a)) (flist (ea_trees a)))) /\
  length count = 8%nat /\ le_value count = uval (ea_num_leaves a).
Proof. exact accumulator_layout. Qed.
Print Assumptions C43_layout.

Theorem C43_decoded : forall a rest, exists b,
  run decode_element_accumulator (wbytes (encode_element_accumulator a) ++ rest) = ROk b rest /\
  ea_num_leaves b = ea_num_leaves a /\
  forall i, nth i (flist (ea_trees b)) zero_hash =
    if N.testbit (uval (ea_num_leaves a)) (N.of_nat i) then nth i (flist (ea_trees a)) zero_hash else zero_hash.
Proof. exact accumulator_decoded. Qed.
Print Assumptions C43_decoded.

(** An accumulator whose absent trees are zero is recovered, and only such are decoded. *)
Theorem C43_roundtrip : forall a rest, ea_normal a ->
  run decode_element_accumulator (wbytes (encode_element_accumulator a) ++ rest) = ROk a rest.
Proof. exact (fun a rest H => rt_element_accumulator a rest H). Qed.
Print Assumptions C43_roundtrip.

Theorem C43_canonical : forall bs a rest, run decode_element_accumulator bs = ROk a rest ->
  bs = wbytes (encode_element_accumulator a) ++ rest /\ ea_normal a.
Proof. exact decoded_element_accumulator. Qed.
Print Assumptions C43_canonical.

(** The JSON form lists the same roots. *)
Theorem C43_json : forall a, c_ser j_element_accumulator a = JOk (JObj
  [(ascii "numLeaves", JUint (ea_num_leaves a));
   (ascii "trees", JArr (map (fun h => JStr (hash_text h)) (present (uval (ea_num_leaves a)) (flist (ea_trees a)))))]).
Proof. exact accumulator_json. Qed.
Print Assumptions C43_json.

(** Reading either form gives the same accumulator. *)
Theorem C43_agree : forall a rest, exists b,
  run decode_element_accumulator (wbytes (encode_element_accumulator a) ++ rest) = ROk b rest /\
  exists j, c_ser j_element_accumulator a = JOk j /\
    (forall j', Reordered j j' -> c_de j_element_accumulator j' = JOk b) /\ c_de j_element_accumulator (value_of j) = JOk b.
Proof. exact accumulator_agree. Qed.
Print Assumptions C43_agree.

Theorem C43_json_count : forall n l a,
  c_de j_element_accumulator (JObj [(ascii "numLeaves", JUint n); (ascii "trees", JArr l)]) = JOk a ->
  length l = set_bits (uval n) /\ ea_num_leaves a = n /\ ea_normal a.
Proof. exact accumulator_accepts. Qed.
Print Assumptions C43_json_count.

(** Five leaves are two trees, at heights 0 and 2. *)
Example C43_example : ea_normal s_accumulator /\ set_bits 5 = 2%nat /\
  present 5 (flist (ea_trees s_accumulator)) = [s_hash 34; s_hash 35] /\
  exists a, c_de j_element_accumulator (JObj [(ascii "numLeaves", JUint (s_u64 5));
     (ascii "trees", JArr [JStr (hash_text (s_hash 34)); JStr (hash_text (s_hash 35))])]) = JOk a.
Proof. exact accumulator_example. Qed.

(** ** C49. The full statement fails for some values: *)

Theorem C49_fraction_refuted : forall stack d t, odt_nanos t <> 0 -> ~ SurvivesJson (j_policy stack) d (PAfter t).
Proof. exact after_fraction. Qed.
Print Assumptions C49_fraction_refuted.

Theorem C49_depth_refuted : forall stack x, json_policy x -> (44 <= depth x)%nat -> ~ SurvivesText (j_policy stack) x.
Proof. exact policy_text_depth. Qed.
Print Assumptions C49_depth_refuted.

Theorem C49_duration_refuted : forall depth d, ~ json_duration d -> ~ SurvivesJson j_duration depth d.
Proof. exact duration_lost. Qed.
Print Assumptions C49_duration_refuted.

Theorem C49_early_refuted : forall depth t, ~ json_time t -> ~ SurvivesJson j_odt depth t.
Proof. exact early_lost. Qed.
Print Assumptions C49_early_refuted.

Theorem C49_accumulator_refuted : forall depth a, ~ ea_normal a -> ~ SurvivesJson j_element_accumulator depth a.
Proof. exact accumulator_lost. Qed.
Print Assumptions C49_accumulator_refuted.

Theorem C49_key_refuted : forall depth, ~ SurvivesJson j_unlock_key depth colon_key.
Proof. exact colon_lost. Qed.
Print Assumptions C49_key_refuted.

(** Such values exist. *)
Example C49_refuted_example :
  (exists t, odt_nanos t <> 0) /\ (exists x, json_policy x /\ depth x = 44%nat) /\
  (exists d, ~ json_duration d) /\ (exists t, ~ json_time t) /\ (exists a, ~ ea_normal a).
Proof. exact lost_examples. Qed.

(** All others survive. Spend policies nested to any depth: *)
Theorem C49_policy_partial : forall n stack x, (n <= stack)%nat -> json_policy_upto n x ->
  SurvivesJson (j_policy stack) (3 * N.of_nat n) x.
Proof. exact policy_survives. Qed.
Print Assumptions C49_policy_partial.

Theorem C49_satisfied_partial : forall n stack x, (n <= stack)%nat -> json_satisfied n x ->
  SurvivesJson (j_satisfied_policy stack) (3 * N.of_nat n + 2) x.
Proof. exact satisfied_survives. Qed.
Print Assumptions C49_satisfied_partial.

(** v1 types *)
Theorem C49_covered_fields : forall x, SurvivesJson j_covered_fields 2 x.
Proof. exact covered_survives. Qed.
Print Assumptions C49_covered_fields.

Theorem C49_v1_partial : forall p,
  (forall x, json_v1_transaction x -> SurvivesJson (j_v1_transaction p) 5 x) /\
  (forall x, json_block x -> SurvivesJson (j_block p) 7 x) /\
  (forall x, json_conditions x -> SurvivesJson j_unlock_conditions 2 x) /\
  (forall x, json_v1_siacoin_input x -> SurvivesJson j_v1_siacoin_input 3 x) /\
  (forall x, json_v1_siafund_input x -> SurvivesJson j_v1_siafund_input 3 x) /\
  (forall x, SurvivesJson (j_v1_file_contract p) 3 x) /\
  (forall x, json_v1_revision x -> SurvivesJson (j_v1_file_contract_revision p) 3 x) /\
  (forall x, SurvivesJson j_v1_storage_proof 2 x) /\
  (forall x, json_v1_signature x -> SurvivesJson j_transaction_signature 3 x).
Proof. exact v1_survives. Qed.
Print Assumptions C49_v1_partial.

(** v2 types *)
Theorem C49_v2_transaction_partial : forall p n stack x, (n <= stack)%nat -> json_v2_transaction n x ->
  SurvivesJson (j_v2_transaction p stack) (3 * N.of_nat n + 7) x.
Proof. exact v2_transaction_survives. Qed.
Print Assumptions C49_v2_transaction_partial.

Theorem C49_v2_partial : forall p n stack, (n <= stack)%nat ->
  (forall x, json_v2_siacoin_input n x -> SurvivesJson (j_v2_siacoin_input p stack) (3 * N.of_nat n + 4) x) /\
  (forall x, json_v2_siafund_input n x -> SurvivesJson (j_v2_siafund_input p stack) (3 * N.of_nat n + 4) x) /\
  (forall x, json_attestation x -> SurvivesJson j_attestation 1 x).
Proof. exact v2_survives. Qed.
Print Assumptions C49_v2_partial.

Theorem C49_contracts : forall p,
  (forall x, SurvivesJson (j_v2_file_contract p) 2 x) /\
  (forall x, SurvivesJson (j_siacoin_element p) 3 x) /\
  (forall x, SurvivesJson (j_siafund_element p) 3 x) /\
  (forall x, SurvivesJson (j_file_contract_element p) 3 x) /\
  (forall x, SurvivesJson j_chain_index_element 3 x) /\
  (forall x, SurvivesJson (j_v2_file_contract_revision p) 4 x) /\
  (forall x, SurvivesJson (j_file_contract_renewal p) 3 x) /\
  (forall x, SurvivesJson j_v2_storage_proof 4 x) /\
  (forall x, SurvivesJson (j_contract_resolution p) 5 x) /\
  (forall x, SurvivesJson (j_file_contract_resolution p) 5 x).
Proof. exact contracts_survive. Qed.
Print Assumptions C49_contracts.

(** Consensus types *)
Theorem C49_consensus_partial : forall p,
  (forall x, ea_normal x -> SurvivesJson j_element_accumulator 2 x) /\
  (forall x, json_network x -> SurvivesJson (j_network p) 2 x) /\
  (forall x, json_state x -> SurvivesJson (j_state p) 3 x) /\
  (forall x, json_chain_state x -> SurvivesJson (j_chain_state p) 4 x).
Proof. exact consensus_survives. Qed.
Print Assumptions C49_consensus_partial.

(** Simple types *)
Theorem C49_simple : forall p,
  (forall x, SurvivesJson (j_currency p) 0 x) /\ (forall x, SurvivesJson j_hash 0 x) /\
  (forall x, SurvivesJson j_address 0 x) /\ (forall x, SurvivesJson j_public_key 0 x) /\
  (forall x, SurvivesJson j_signature 0 x) /\ (forall x, SurvivesJson j_leaf 0 x) /\
  (forall x, SurvivesJson j_work 0 x) /\ (forall x, SurvivesJson j_specifier 1 x) /\
  (forall x, SurvivesJson j_chain_index 1 x) /\ (forall x, SurvivesJson (j_siacoin_output p) 1 x) /\
  (forall x, SurvivesJson j_siafund_output 1 x) /\ (forall x, SurvivesJson j_state_element 2 x).
Proof. exact simple_survive. Qed.
Print Assumptions C49_simple.

Theorem C49_leaves_partial :
  (forall x, json_key x -> SurvivesJson j_unlock_key 0 x) /\
  (forall x, json_time x -> SurvivesJson j_odt 0 x) /\
  (forall x, json_duration x -> SurvivesJson j_duration 0 x).
Proof. exact leaves_survive. Qed.
Print Assumptions C49_leaves_partial.

(** What survives as a document also survives as text, if it is nested less than 128 levels. *)
Theorem C49_text : forall A (c : codec A) d a, SurvivesJson c d a -> d < 128 -> SurvivesText c a.
Proof. exact survives_text. Qed.
Print Assumptions C49_text.

Theorem C49_v2_transaction_text_partial : forall p stack x, (40 <= stack)%nat -> json_v2_transaction 40 x ->
  SurvivesText (j_v2_transaction p stack) x.
Proof. exact v2_transaction_text. Qed.
Print Assumptions C49_v2_transaction_text_partial.

Example C49_example :
  json_policy_upto 4 s_policy /\ json_v1_transaction s_v1_transaction /\ json_block s_block /\
  json_v2_transaction 4 s_v2_transaction /\ json_state s_state_2 /\ ea_normal s_accumulator.
Proof. exact json_examples. Qed.

(** ** C50 *)

Theorem C50_written : forall v : vec 1 u8, json_bytes v ->
  exists s, c_ser j_base64 v = JOk (JStr s) /\ Base64Text s (vlist v) /\ c_de j_base64 (JStr s) = JOk v.
Proof. exact base64_written. Qed.
Print Assumptions C50_written.

(** Accepted texts are the base64 texts; every other text is an error. *)
Theorem C50_accepts : forall s (v : vec 1 u8), c_de j_base64 (JStr s) = JOk v -> Base64Text s (vlist v).
Proof. exact base64_accepts. Qed.
Print Assumptions C50_accepts.

Theorem C50_reads : forall s (v : vec 1 u8), Base64Text s (vlist v) -> N.of_nat (length s) <= isize_max ->
  c_de j_base64 (JStr s) = JOk v.
Proof. exact base64_reads. Qed.
Print Assumptions C50_reads.

Theorem C50_rejects : forall s, (forall l, ~ Base64Text s l) -> c_de j_base64 (JStr s) = JErr.
Proof. exact base64_reject. Qed.
Print Assumptions C50_rejects.

Theorem C50_one_text : forall s t l, Base64Text s l -> Base64Text t l -> s = t.
Proof. exact Base64Spec.base64_unique. Qed.
Print Assumptions C50_one_text.

(** Lists of payloads. *)
Theorem C50_lists : forall v, VecAll json_bytes v -> SurvivesJson j_vec_base64 1 v.
Proof. exact payloads_survive. Qed.
Print Assumptions C50_lists.

Theorem C50_lists_accepts : forall l (v : vec 24 (vec 1 u8)), c_de j_vec_base64 (JArr l) = JOk v ->
  Forall2 (fun j b => exists s, j = JStr s /\ Base64Text s (vlist b)) l (vlist v).
Proof. exact payloads_accepted. Qed.
Print Assumptions C50_lists_accepts.

(** "hello" is aGVsbG8=; aGVsbG9= (a stray bit), aGVsbG8 (no padding) and aGVs bG8= are errors. *)
Example C50_example : Base64Text (ascii "aGVsbG8=") (ascii "hello") /\
  c_de j_base64 (JStr (ascii "aGVsbG9=")) = JErr /\ c_de j_base64 (JStr (ascii "aGVsbG8")) = JErr /\
  c_de j_base64 (JStr (ascii "aGVs bG8=")) = JErr.
Proof. exact base64_example. Qed.

(** ** C51 *)

Theorem C51_short : forall ts js, (length ts <= 11)%nat -> Forall2 (fun t j => c_de j_odt j = JOk t) ts js ->
  exists a, c_de j_timestamps (JArr js) = JOk a /\ flist a = ts ++ repeat unix_epoch (11 - length ts).
Proof. exact stamps_read. Qed.
Print Assumptions C51_short.

Theorem C51_long : forall js, (11 < length js)%nat -> c_de j_timestamps (JArr js) = JErr.
Proof. exact stamps_long. Qed.
Print Assumptions C51_long.

Theorem C51_accepted : forall js a, c_de j_timestamps (JArr js) = JOk a -> exists ts,
  Forall2 (fun t j => c_de j_odt j = JOk t) ts js /\ (length ts <= 11)%nat /\
  flist a = ts ++ repeat unix_epoch (11 - length ts).
Proof. exact stamps_accepted. Qed.
Print Assumptions C51_accepted.

(** The missing ones are midnight of 1 January 1970. *)
Theorem C51_filled : forall js a i, c_de j_timestamps (JArr js) = JOk a -> (length js <= i < 11)%nat ->
  exists t, nth_error (flist a) i = Some t /\ odt_secs t = 0%Z /\ odt_nanos t = 0.
Proof. exact stamps_filled. Qed.
Print Assumptions C51_filled.

(** Every timestamp that RFC 3339 can express is read back; others are not written at all. *)
Theorem C51_written : forall a, Forall json_time (flist a) -> SurvivesJson j_timestamps 1 a.
Proof. exact stamps_survive. Qed.
Print Assumptions C51_written.

Theorem C51_early : forall a, ~ Forall json_time (flist a) -> c_ser j_timestamps a = JErr.
Proof. exact stamps_early. Qed.
Print Assumptions C51_early.

Example C51_example : c_de j_odt (JStr (ascii "2023-11-14T22:13:20Z")) = JOk s_time /\
  Forall json_time (flist (st_prev_timestamps s_state_2)).
Proof. exact stamps_example. Qed.

Example C51_filled_example : exists a, c_de j_timestamps (JArr [JStr (ascii "2023-11-14T22:13:20Z")]) = JOk a /\
  nth_error (flist a) 0 = Some s_time.
Proof.
  destruct (stamps_read [s_time] [JStr (ascii "2023-11-14T22:13:20Z")]) as (a & E & F); [cbn; lia| |].
  - constructor; [exact (proj1 stamps_example)|constructor].
  - exists a. now rewrite F.
Qed.
