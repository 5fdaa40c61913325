(** Property C73: what becomes of a transaction from a peer when it is shown as JSON. The fates
    ([SurvivesJson], [LostJson], [PanicsJson]) and the keys of a transaction are in SpecFate.v and
    SpecJson.v. Only statements. *)

From Verif Require Import Base Io SpecUtf8 SpecText SpecWire Model_encoding Model_common Model_v1 Model_policy Model_v2
  Model_text Model_json Model_jsontypes SpecJson Model_jsontext SpecJsonText SpecFate FateProofs.
Local Open Scope N_scope.

(** ** Not every transaction that is accepted from the wire has a JSON form *)

(** Serialising some of them panics ... *)
Theorem C73_v1_shown_refuted :
  ~ (forall p bs t, run decode_v1_transaction bs = ROk t [] -> exists j, c_ser (j_v1_transaction p) t = JOk j).
Proof. exact v1_shown_refuted. Qed.
Print Assumptions C73_v1_shown_refuted.

Theorem C73_v2_shown_refuted : forall stack, (2 <= stack)%nat ->
  ~ (forall p bs t, run (decode_v2_transaction stack) bs = ROk t [] -> exists j, c_ser (j_v2_transaction p stack) t = JOk j).
Proof. exact v2_shown_refuted. Qed.
Print Assumptions C73_v2_shown_refuted.

(** ... and of others the document cannot be read. *)
Theorem C73_v1_read_refuted :
  ~ (forall p bs t j, run decode_v1_transaction bs = ROk t [] -> c_ser (j_v1_transaction p) t = JOk j ->
     c_de (j_v1_transaction p) j = JOk t).
Proof. exact v1_read_refuted. Qed.
Print Assumptions C73_v1_read_refuted.

Theorem C73_v2_read_refuted : forall stack, (2 <= stack)%nat ->
  ~ (forall p bs t j, run (decode_v2_transaction stack) bs = ROk t [] -> c_ser (j_v2_transaction p stack) t = JOk j ->
     c_de (j_v2_transaction p stack) j = JOk t).
Proof. exact v2_read_refuted. Qed.
Print Assumptions C73_v2_read_refuted.

(** Blocks can also be too old. *)
Theorem C73_block_refuted :
  ~ (forall p bs b, run decode_block bs = ROk b [] -> exists j, c_ser (j_block p) b = JOk j).
Proof. exact block_refuted. Qed.
Print Assumptions C73_block_refuted.

(** ** The names of the algorithms of the unlock keys decide which *)

Theorem C73_v1_partial : forall p t, v1_fits t -> FateByKeys (j_v1_transaction p) 5 (v1_keys t) t.
Proof. exact v1_fate. Qed.
Print Assumptions C73_v1_partial.

(** Every v2 transaction decoded from bytes, nested as deep as the stack allowed: *)
Theorem C73_v2_partial : forall p stack bs t rest, run (decode_v2_transaction stack) bs = ROk t rest -> v2_fits t ->
  FateByKeys (j_v2_transaction p stack) (7 + 3 * N.of_nat stack) (v2_keys t) t.
Proof. exact decoded_fate_stack. Qed.
Print Assumptions C73_v2_partial.

(** In general, also for transactions that were not decoded, and with the depth of the document by that of
    the policies: *)
Theorem C73_v2_depth_partial : forall p n stack t, (n <= stack)%nat -> Forall whole_times (v2_policies t) ->
  Forall (fun x => depth x <= n)%nat (v2_policies t) -> v2_fits t ->
  FateByKeys (j_v2_transaction p stack) (7 + 3 * N.of_nat n) (v2_keys t) t.
Proof. exact v2_fate. Qed.
Print Assumptions C73_v2_depth_partial.

Theorem C73_block_partial : forall p b,
  (~ json_time (bl_timestamp b) -> c_ser (j_block p) b = JErr) /\
  (json_time (bl_timestamp b) -> VecAll v1_fits (bl_transactions b) -> FateByKeys (j_block p) 7 (block_keys b) b).
Proof. exact block_fates. Qed.
Print Assumptions C73_block_partial.

Theorem C73_policy_partial : forall x n stack, (depth x <= n <= stack)%nat -> whole_times x ->
  Forall (fun k => fits (uk_key k)) (policy_keys x) -> FateByKeys (j_policy stack) (3 * N.of_nat n) (policy_keys x) x.
Proof. exact policy_fate. Qed.
Print Assumptions C73_policy_partial.

(** The fates exclude each other, so each of them has exactly the keys named for it. *)
Theorem C73_exclusive : forall A (c : codec A) d keys a, FateByKeys c d keys a ->
  (SurvivesJson c d a <-> Forall named keys) /\
  (LostJson c d a <-> Forall printable keys /\ ~ Forall named keys) /\
  (PanicsJson c a <-> ~ Forall printable keys).
Proof. exact fates_exclude. Qed.
Print Assumptions C73_exclusive.

(** It is the same with texts, as long as the document is not too deep for the reader. *)
Theorem C73_text_partial : forall A (c : codec A) d keys a, LibraryJson c -> d < 128 ->
  FateByKeys c d keys a -> TextFateByKeys c keys a.
Proof. exact text_fate. Qed.
Print Assumptions C73_text_partial.

(** A key is printable exactly if its own text form exists. *)
Theorem C73_printable : forall k, printable k <-> exists t, unlock_key_text k = Val t.
Proof. exact printable_names. Qed.
Print Assumptions C73_printable.

(** Transactions with keys of each kind *)
Example C73_example :
  named (peer_key (ascii "ed25519")) /\
  (printable (peer_key (ascii "a:b")) /\ ~ named (peer_key (ascii "a:b"))) /\
  ~ printable (peer_key [xff]) /\
  (forall a, v1_keys (peer_v1 a) = [peer_key a] /\ v1_fits (peer_v1 a) /\ v2_keys (peer_v2 a) = [peer_key a] /\ v2_fits (peer_v2 a) /\
     Forall whole_times (v2_policies (peer_v2 a)) /\ Forall (fun x => depth x <= 2)%nat (v2_policies (peer_v2 a))).
Proof. exact fate_examples. Qed.

Example C73_decoded : forall stack a, (2 <= stack)%nat ->
  run (decode_v2_transaction stack) (wbytes (encode_v2_transaction (peer_v2 a))) = ROk (peer_v2 a) [].
Proof. exact peer_v2_decodes. Qed.
