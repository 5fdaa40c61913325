(** C74: what is read from JSON can be written again and sent.

    [RereadByKeys], [TextRereadByKeys] and [Arrives] are in SpecSend.v, [v1_keys], [v2_policies],
    [printable], [named], [fits] and [wrote] in SpecFate.v, [Narrow] in SpecRound.v, [LibraryJson] in
    SpecJsonText.v. *)

From Verif Require Import Base Io SpecUtf8 SpecText SpecWire SpecRound SpecJson SpecJsonText SpecFate SpecSend Model_encoding
  Model_common Model_v1 Model_policy Model_v2 Model_json Model_jsontypes Model_jsontext JsonLeafProofs SendProofs.
Local Open Scope N_scope.

(** A transaction that was read from JSON cannot always be written: the name of the algorithm of a key
    is cut after 16 bytes, which can be in the middle of a character. *)
Theorem C74_v1_written_refuted :
  ~ (forall p t x, from_str (j_v1_transaction p) t = JOk x -> exists j, c_ser (j_v1_transaction p) x = JOk j).
Proof. exact v1_written_refuted. Qed.
Print Assumptions C74_v1_written_refuted.

Theorem C74_v2_written_refuted : forall stack, (1 <= stack)%nat ->
  ~ (forall p t x, from_str (j_v2_transaction p stack) t = JOk x -> exists j, c_ser (j_v2_transaction p stack) x = JOk j).
Proof. exact v2_written_refuted. Qed.
Print Assumptions C74_v2_written_refuted.

(** That is the only reason: what can be written is read back as the same value. *)
Theorem C74_v1_partial : forall p t x, from_str (j_v1_transaction p) t = JOk x -> v1_fits x ->
  RereadByKeys (j_v1_transaction p) 5 (v1_keys x) x /\ TextRereadByKeys (j_v1_transaction p) (v1_keys x) x.
Proof. exact (fun p t x H F => conj (v1_reread p t x H F) (v1_text p t x H F)). Qed.
Print Assumptions C74_v1_partial.

Theorem C74_v2_partial : forall p stack t x, from_str (j_v2_transaction p stack) t = JOk x -> v2_fits x ->
  TextRereadByKeys (j_v2_transaction p stack) (v2_keys x) x.
Proof. exact v2_text. Qed.
Print Assumptions C74_v2_partial.

Theorem C74_policy_partial : forall stack t x, from_str (j_policy stack) t = JOk x ->
  Forall (fun k => fits (uk_key k)) (policy_keys x) -> TextRereadByKeys (j_policy stack) (policy_keys x) x.
Proof. exact policy_text. Qed.
Print Assumptions C74_policy_partial.

Theorem C74_block_partial : forall p t b, from_str (j_block p) t = JOk b -> json_time (bl_timestamp b) ->
  VecAll v1_fits (bl_transactions b) -> TextRereadByKeys (j_block p) (block_keys b) b.
Proof. exact block_text. Qed.
Print Assumptions C74_block_partial.

(** The names of keys: the first 16 bytes are kept, and names of at most 16 bytes are not the problem. *)
Theorem C74_key_partial : forall s k, c_de j_unlock_key (JStr s) = JOk k -> exists name h, s = name ++ ":"%byte :: h /\
  ~ In ":"%byte name /\ HexText h (vlist (uk_key k)) /\
  aval (uk_algorithm k) = firstn 16 name ++ repeat x00 (16 - length name) /\
  (printable k <-> Utf8 (firstn 16 name)) /\ ((length name <= 16)%nat -> named k).
Proof. exact key_names. Qed.
Print Assumptions C74_key_partial.

(** Nothing that was read is nested more deeply when it is written: the limit of the parser is not in
    the way, for every type. *)
Theorem C74_nesting : forall A (c : codec A) t a t', LibraryJson c -> from_str c t = JOk a -> wrote c a t' ->
  exists j, c_ser c a = JOk j /\ DocumentText j t' /\ json_depth j < 128.
Proof. exact written_depth. Qed.
Print Assumptions C74_nesting.

Theorem C74_deeper : forall A (c : codec A) j a j', LibraryJson c -> c_de c j = JOk a -> c_ser c a = JOk j' ->
  json_depth j' <= json_depth j.
Proof. exact (fun A c j a j' L => NestProofs.library_tame A c L j a j'). Qed.
Print Assumptions C74_deeper.

(** How deeply a policy in a text can be nested *)
Theorem C74_depth : forall p stack t x, from_str (j_v2_transaction p stack) t = JOk x ->
  Forall (fun q => depth q <= Nat.min stack 41)%nat (v2_policies x).
Proof. exact v2_depths. Qed.
Print Assumptions C74_depth.

Theorem C74_policy_depth : forall stack t x, from_str (j_policy stack) t = JOk x -> (depth x <= Nat.min stack 43)%nat.
Proof. exact policy_depths. Qed.
Print Assumptions C74_policy_depth.

(** A transaction that was read from JSON does not always arrive when it is sent: a threshold can have
    more than 255 children. *)
Theorem C74_v2_sent_refuted : forall stack, (2 <= stack)%nat ->
  ~ (forall p t x, from_str (j_v2_transaction p stack) t = JOk x -> Arrives encode_v2_transaction (decode_v2_transaction stack) x).
Proof. exact v2_sent_refuted. Qed.
Print Assumptions C74_v2_sent_refuted.

(** That is the only reason, for a peer that can read 41 levels. *)
Theorem C74_v2_sent_partial : forall p stack stack' t x, from_str (j_v2_transaction p stack) t = JOk x ->
  (Nat.min stack 41 <= stack')%nat ->
  (Arrives encode_v2_transaction (decode_v2_transaction stack') x <-> Forall Narrow (v2_policies x)).
Proof. exact v2_sent. Qed.
Print Assumptions C74_v2_sent_partial.

Theorem C74_v1_sent : forall p t x, from_str (j_v1_transaction p) t = JOk x -> Arrives encode_v1_transaction decode_v1_transaction x.
Proof. exact v1_sent. Qed.
Print Assumptions C74_v1_sent.

(** Blocks: the time can have a fraction of a second in JSON, which is lost on the wire. *)
Theorem C74_block_sent_refuted : ~ (forall p t b, from_str (j_block p) t = JOk b -> Arrives encode_block decode_block b).
Proof. exact block_sent_refuted. Qed.
Print Assumptions C74_block_sent_refuted.

Theorem C74_block_sent_partial : forall b, Arrives encode_block decode_block b <-> whole_seconds (bl_timestamp b).
Proof. exact block_sent. Qed.
Print Assumptions C74_block_sent_partial.

(** Transactions meeting the hypotheses *)
Example C74_example : exists t x, from_str (j_v2_transaction Debug 40) t = JOk x /\ v2_fits x /\ Forall printable (v2_keys x) /\
  v2_keys x <> [] /\ Forall Narrow (v2_policies x).
Proof. exact again_examples. Qed.
Example C74_v1_example : exists t x, from_str (j_v1_transaction Debug) t = JOk x /\ v1_fits x /\ ~ Forall printable (v1_keys x).
Proof. exact v1_examples. Qed.
Example C74_key_example : exists k k', c_de j_unlock_key (JStr (ascii "ed25519:00ff")) = JOk k /\
  c_de j_unlock_key (JStr (long_name 15 ++ ascii ":00")) = JOk k' /\ ~ printable k'.
Proof. exact key_examples. Qed.
Example C74_block_example : exists t b, from_str (j_block Debug) t = JOk b /\ json_time (bl_timestamp b) /\
  VecAll v1_fits (bl_transactions b) /\ ~ whole_seconds (bl_timestamp b).
Proof. exact block_examples. Qed.
