(** C01-C08, C52: the binary formats. Only statements here; see Spec.v, SpecWire.v and
    SpecCodecs.v for the vocabulary and TableProofs.v for the proofs. *)

From Verif Require Import Base Io IoProofs Spec SpecWire SpecCodecs Codec Model_encoding Model_common
  Model_v1 Model_policy Model_v2 Model_consensus EncodingProofs CommonProofs PolicyProofs ConsensusProofs
  TableProofs Samples WireProofs StateWriter.
Local Open Scope N_scope.

(** ** C01 *)

(** Decoding the v2 encoding of a value gives the value back and leaves exactly what follows. *)
Theorem C01_v2_roundtrip : forall stack A P enc dec,
  V2Wire stack A P enc dec ->
  forall (a : A) rest, P a -> run dec (wbytes (enc a) ++ rest) = ROk a rest.
Proof. exact v2_wire_roundtrip. Qed.
Print Assumptions C01_v2_roundtrip.

Example C01_example_transaction :
  V2Wire 4 v2_transaction (v2_transaction_encodable 4) encode_v2_transaction (decode_v2_transaction 4) /\
  v2_transaction_encodable 4 s_v2_transaction /\
  length (wbytes (encode_v2_transaction s_v2_transaction)) = N.to_nat 5649.
Proof. exact s_v2_transaction_ok. Qed.

Example C01_example_state :
  V2Wire 0 state state_encodable (encode_state Debug) (decode_state Debug) /\ state_encodable s_state_2.
Proof. split; [apply V2Wire_state|exact s_state_2_ok]. Qed.

Example C01_example_nested :
  V2Codec 4 (vec 24 (option policy)) (VecAll (OptAll (policy_fits 4)))
    (encode_vec (encode_option encode_policy)) (decode_vec 24 (decode_option (decode_policy 4))) /\
  VecAll (OptAll (policy_fits 4)) (@MkVec 24 _ [Some s_policy; None; Some s_policy] eq_refl).
Proof. exact s_nested_ok. Qed.

(** The values left out of C01 are exactly those the format has no room for: a fraction of
    a second, a negative duration and a duration of 2^63 ns or more do not survive. *)
Theorem C01_unrepresentable :
  (exists t : odt, run decode_odt (wbytes (encode_odt t)) <> ROk t []) /\
  (exists d : duration, (dur_ns d < 0)%Z /\ run decode_duration (wbytes (encode_duration d)) <> ROk d []) /\
  (exists d : duration, (2 ^ 63 <= dur_ns d)%Z /\ run decode_duration (wbytes (encode_duration d)) <> ROk d []).
Proof. exact unrepresentable. Qed.
Print Assumptions C01_unrepresentable.

(** ** C02 *)

Theorem C02_v1_roundtrip : forall A P enc dec,
  V1Codec A P enc dec ->
  forall (a : A) rest, P a -> run dec (wbytes (enc a) ++ rest) = ROk a rest.
Proof. exact v1_wire_roundtrip. Qed.
Print Assumptions C02_v1_roundtrip.

Example C02_example_block :
  V1Codec block (fun b => whole_seconds (bl_timestamp b)) encode_block decode_block /\
  whole_seconds (bl_timestamp s_block) /\ length (vlist (bl_transactions s_block)) = 1%nat.
Proof. repeat split. apply V1_block. Qed.

(** Every v1 transaction survives, whatever it contains. *)
Theorem C02_v1_transaction : forall (t : v1_transaction) rest,
  run decode_v1_transaction (wbytes (encode_v1_transaction t) ++ rest) = ROk t rest.
Proof. exact v1_transaction_roundtrip. Qed.
Print Assumptions C02_v1_transaction.

(** ** C03 *)

(** If the encodings of two values are followed by anything and the results are equal, the
    values and what follows are equal: no encoding is a prefix of another. *)
Theorem C03_unambiguous : forall stack A P enc dec,
  V2Wire stack A P enc dec \/ V1Codec A P enc dec ->
  forall (a b : A) x y, P a -> P b -> wbytes (enc a) ++ x = wbytes (enc b) ++ y -> a = b /\ x = y.
Proof. exact wire_unambiguous. Qed.
Print Assumptions C03_unambiguous.

(** A sequence of encodings can be split in only one way. *)
Theorem C03_sequences : forall stack A P enc dec,
  V2Wire stack A P enc dec \/ V1Codec A P enc dec ->
  forall (l m : list A), Forall P l -> Forall P m -> length l = length m ->
  concat (map (fun a => wbytes (enc a)) l) = concat (map (fun a => wbytes (enc a)) m) -> l = m.
Proof. exact wire_sequences. Qed.
Print Assumptions C03_sequences.

Example C03_example : wbytes (encode_v1_transaction s_v1_transaction) <> [] /\
  V1Codec v1_transaction Any encode_v1_transaction decode_v1_transaction /\ Any s_v1_transaction.
Proof. split; [vm_compute; discriminate|]. split; [apply V1_v1_transaction|exact I]. Qed.

(** ** C04 *)

(** Input that ends inside the encoding of a value gives an error. *)
Theorem C04_truncated : forall stack A P enc dec,
  V2Wire stack A P enc dec \/ V1Codec A P enc dec ->
  forall (a : A) p q, P a -> wbytes (enc a) = p ++ q -> q <> [] -> exists e, run dec p = RErr e.
Proof. exact wire_truncated. Qed.
Print Assumptions C04_truncated.

Example C04_example : exists p q, wbytes (encode_v2_transaction s_v2_transaction) = p ++ q /\
  length p = N.to_nat 4000 /\ q <> [].
Proof. exact s_cut. Qed.

(** ** C05 *)

(** Over a reader that never fails, decode sees only the bytes, however they are split into
    reads and whatever interruptions happen. *)
Theorem C05_chunking : forall A (d : dec A) (r : reader),
  reliable r -> observe_reader (run_reader d r) = observe_flat (run d (rbytes r)).
Proof. exact run_reader_reliable. Qed.
Print Assumptions C05_chunking.

(** Two readers that deliver the same bytes give the same result. *)
Theorem C05_same_bytes : forall A (d : dec A) (r r' : reader),
  reliable r -> reliable r' -> rbytes r = rbytes r' ->
  observe_reader (run_reader d r) = observe_reader (run_reader d r').
Proof. exact reader_same_bytes. Qed.
Print Assumptions C05_same_bytes.

(** When the reader fails, decode has either already got its result from the bytes delivered
    before the failure, or returns the error it would return at the end of those bytes. *)
Theorem C05_failing_reader : forall A (d : dec A) (r : reader),
  match run_reader d r, run d (rbytes (before_fail r)) with
  | CkOk a r', ROk b rest => a = b /\ rest = rbytes (before_fail r')
  | CkErr e, RErr e' => e = e'
  | CkPanic p, RPanic q => p = q
  | _, _ => False
  end.
Proof. exact reader_failing. Qed.
Print Assumptions C05_failing_reader.

Example C05_example :
  let r := [RIntr; RData x01 [x02; x03]; RIntr; RData x00 []; RData x00 [x00; x00; x00; x09]] in
  reliable r /\ observe_reader (run_reader decode_u64 r) = inl (Some (uwrap 64 197121, [x09])).
Proof. exact reader_example. Qed.

Example C05_example_failing :
  run_reader decode_u64 [RData x01 [x02; x03]; RFail; RData x00 [x00; x00; x00; x00]] = CkErr EIo.
Proof. reflexivity. Qed.

(** ** C06 *)

(** Over a writer that accepts everything (in pieces, with interruptions) encode writes the
    encoding. Over any writer what reaches the device is a prefix of the encoding, encode
    succeeds exactly if it is the whole encoding, and otherwise returns an error. *)
Theorem C06_writer : forall stack A P enc dec,
  V2Codec stack A P enc dec \/ V1Codec A P enc dec ->
  forall (a : A) (w : writer),
  (wreliable w -> run_writer (enc a) w = (wbytes (enc a), WSOk)) /\
  (forall x st, run_writer (enc a) w = (x, st) ->
    exists tl, wbytes (enc a) = x ++ tl /\ (st = WSOk <-> tl = []) /\ (st = WSOk \/ st = WSErr)).
Proof. exact wire_writer. Qed.
Print Assumptions C06_writer.

Example C06_example :
  run_writer (encode_v1_transaction s_v1_transaction) [WAccept 3; WIntr; WAccept 1; WFail] =
    (firstn 6 (wbytes (encode_v1_transaction s_v1_transaction)), WSErr).
Proof. vm_compute. reflexivity. Qed.

(** ** C52: the chain state into a writer *)

(** Encoding a chain state into a failing writer panics instead of returning the error. *)
Theorem C52_state_writer_refuted : exists (s : state) (w : writer) x,
  state_encodable s /\ forall prof, run_writer (encode_state prof s) w = (x, WSPanic UnwrapNone).
Proof. exact state_writer_panics. Qed.
Print Assumptions C52_state_writer_refuted.

(** What holds: a writer that accepts everything gets the encoding, and whatever the writer
    does, what reaches the device is a prefix of the encoding, complete exactly if encode
    succeeds. What is missing: a failure may be a panic. *)
Theorem C52_state_writer_partial : forall prof (s : state) (w : writer),
  state_encodable s ->
  (wreliable w -> run_writer (encode_state prof s) w = (wbytes (encode_state prof s), WSOk)) /\
  (forall x st, run_writer (encode_state prof s) w = (x, st) ->
    exists tl, wbytes (encode_state prof s) = x ++ tl /\ (st = WSOk <-> tl = [])).
Proof. exact state_writer. Qed.
Print Assumptions C52_state_writer_partial.

(** Exactly when it is a panic: the number of bytes that the writer took tells. The first 40 are the
    chain index, and 8 for each timestamp follow. *)
Theorem C52_status_partial : forall prof (s : state) (w : writer) x st, state_encodable s ->
  run_writer (encode_state prof s) w = (x, st) ->
  (st = WSPanic UnwrapNone <-> (40 <= length x < 40 + 8 * ts_count s)%nat) /\
  (st = WSErr <-> (length x < 40)%nat \/
     (40 + 8 * ts_count s <= length x < length (wbytes (encode_state prof s)))%nat) /\
  (st = WSOk <-> length x = length (wbytes (encode_state prof s))).
Proof. exact state_writer_status. Qed.
Print Assumptions C52_status_partial.

(** A state with three timestamps, and writers that fail early, in the timestamps and late. *)
Example C52_example : state_encodable s_state_2 /\ ts_count s_state_2 = 3%nat /\
  snd (run_writer (encode_state Debug s_state_2) [WFail]) = WSErr /\
  snd (run_writer (encode_state Debug s_state_2) [WAccept 39; WAccept 39; WIntr; WZero]) = WSPanic UnwrapNone /\
  snd (run_writer (encode_state Debug s_state_2) (repeat (WAccept 39) 5 ++ [WFail])) = WSErr /\
  snd (run_writer (encode_state Debug s_state_2) [WAccept 2; WIntr]) = WSOk.
Proof. split; [exact s_state_2_ok|repeat split; vm_compute; reflexivity]. Qed.

(** ** C07 *)

(** Decoding untrusted bytes can panic: a vector length prefix, a block timestamp, a nested
    policy, a chain state at the last height. *)
Theorem C07_no_panic_refuted :
  (exists bs, run decode_v1_transaction bs = RPanic CapacityOverflow /\ length bs = 8%nat) /\
  (exists bs, forall stack, run (decode_v2_transaction stack) bs = RPanic CapacityOverflow) /\
  (exists bs, run decode_block bs = RPanic UnwrapNone) /\
  (forall stack, exists bs, run (decode_policy stack) bs = RPanic StackOverflow /\
     length bs = (3 * stack + 1)%nat) /\
  (exists bs, run (decode_state Debug) bs = RPanic ArithOverflow).
Proof. exact decode_panics. Qed.
Print Assumptions C07_no_panic_refuted.

(** What holds: these are the only reasons, and the types without vectors, timestamps and
    policies never panic. *)
Theorem C07_no_panic_partial :
  (forall stack A P enc dec, V2Codec stack A P enc dec \/ V1Codec A P enc dec ->
     forall bs p, run dec bs = RPanic p -> wire_panic p) /\
  (forall prof bs p, run (decode_state prof) bs = RPanic p -> p = ArithOverflow \/ p = UnwrapNone) /\
  (forall A dec, PanicFreeCodec A dec -> forall bs p, run dec bs <> RPanic p).
Proof. exact decode_panics_only. Qed.
Print Assumptions C07_no_panic_partial.

(** A policy within the stack (one nested call per three bytes of input suffices) does not
    overflow it. *)
Theorem C07_policy_stack_partial : forall stack bs,
  (length bs < 3 * stack)%nat -> run (decode_policy stack) bs <> RPanic StackOverflow.
Proof. exact policy_stack. Qed.
Print Assumptions C07_policy_stack_partial.

Example C07_example : PanicFreeCodec v2_file_contract decode_v2_file_contract /\
  PanicFreeCodec (option siacoin_output) (decode_option decode_siacoin_output).
Proof. split; [apply F_v2_file_contract|apply F_option, F_siacoin_output]. Qed.

(** ** C08 *)

(** Not every accepted byte string is the encoding of what it decodes to. *)
Theorem C08_canonical_refuted :
  (exists bs bs' a, bs <> bs' /\ run decode_v1_currency bs = ROk a [] /\ run decode_v1_currency bs' = ROk a []) /\
  (exists bs bs' a, bs <> bs' /\ run decode_v1_siafund_output bs = ROk a [] /\
     run decode_v1_siafund_output bs' = ROk a []) /\
  (exists bs bs' t, bs <> bs' /\ forall stack, run (decode_v2_transaction stack) bs = ROk t [] /\
     run (decode_v2_transaction stack) bs' = ROk t []) /\
  (exists bs bs' a, bs <> bs' /\ run decode_u16 bs = ROk a [] /\ run decode_u16 bs' = ROk a []).
Proof. exact not_canonical. Qed.
Print Assumptions C08_canonical_refuted.

(** What holds: the types listed in [StrictCodec] accept nothing but encodings. *)
Theorem C08_canonical_partial : forall stack A enc dec,
  StrictCodec stack A enc dec ->
  forall bs (a : A) rest, run dec bs = ROk a rest -> bs = wbytes (enc a) ++ rest.
Proof. exact strict_canonical. Qed.
Print Assumptions C08_canonical_partial.

(** For all types, re-encoding what was decoded gives bytes that decode to the same value. *)
Theorem C08_reencode_partial : forall stack A P enc dec,
  V2Codec stack A P enc dec \/ V1Codec A P enc dec ->
  forall bs (a : A) rest, run dec bs = ROk a rest ->
  P a /\ run dec (wbytes (enc a) ++ rest) = ROk a rest.
Proof. exact wire_reencode. Qed.
Print Assumptions C08_reencode_partial.

(** The chain state: strict for every height but the last. *)
Theorem C08_state_partial : forall prof bs s rest,
  run (decode_state prof) bs = ROk s rest -> uval (ci_height (st_index s)) + 1 < 2 ^ 64 ->
  bs = wbytes (encode_state prof s) ++ rest /\ state_encodable s.
Proof. exact decoded_state. Qed.
Print Assumptions C08_state_partial.

Example C08_example : StrictCodec 4 v2_siacoin_input encode_v2_siacoin_input (decode_v2_siacoin_input 4) /\
  run (decode_v2_siacoin_input 4) (wbytes (encode_v2_siacoin_input s_v2_siacoin_input)) =
    ROk s_v2_siacoin_input [].
Proof. exact s_input_decodes. Qed.
