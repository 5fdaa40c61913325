(** Property C59: the text of JSON. The grammar of JSON texts ([DocumentText]) and the types of
    the library ([LibraryJson]) are in SpecJsonText.v, [SurvivesJson] and [Reordered] in
    SpecJson.v, the layout in lines ([indented]) in SpecIndent.v. Only statements. *)

From Verif Require Import Base Io SpecUtf8 SpecText SpecWire Model_encoding Model_common
  Model_v1 Model_currency Model_policy Model_v2 Model_consensus Model_text Model_json Model_jsontypes SpecJson
  Model_jsontext SpecJsonText JsonTextProofs JsonTextUtf8 JsonTextMore JsonTextExamples SpecIndent IndentProofs Samples JsonExamples.
Local Open Scope N_scope.

(** ** Reading *)

(** A text of a document less than 128 levels deep is read as this document. *)
Theorem C59_reads : forall A (c : codec A) j t, DocumentText j t -> json_depth j < 128 -> from_str c t = c_de c j.
Proof. exact from_str_reads. Qed.
Print Assumptions C59_reads.

(** Everything else is an error: what is not JSON, and what is nested too deeply (of a member the
    type does not know, serde_json checks neither nesting nor surrogates; see P_skip.v). *)
Theorem C59_rejects : forall A (c : codec A) t, (forall j, DocumentText j t -> 128 <= json_depth j) ->
  from_str c t = JErr.
Proof. exact from_str_rejects. Qed.
Print Assumptions C59_rejects.

(** The grammar is unambiguous. *)
Theorem C59_unambiguous : forall t j j', DocumentText j t -> DocumentText j' t -> j = j'.
Proof. exact document_unique. Qed.
Print Assumptions C59_unambiguous.

(** White space, escapes and other ways to write the same document make no difference. *)
Theorem C59_same : forall A (c : codec A) j t t', DocumentText j t -> DocumentText j t' -> from_str c t = from_str c t'.
Proof. exact from_str_same. Qed.
Print Assumptions C59_same.

(** Strings read from a UTF-8 text are UTF-8. *)
Theorem C59_strings : forall j t, DocumentText j t -> Utf8 t -> Utf8Doc j.
Proof. exact document_utf8. Qed.
Print Assumptions C59_strings.

(** ** Writing *)

(** What is written is JSON: UTF-8, in the grammar, and without fractions or negative numbers. *)
Theorem C59_written : forall A (c : codec A) a t, LibraryJson c ->
  to_string c a = JOk t \/ to_string_pretty c a = JOk t ->
  exists j, c_ser c a = JOk j /\ PlainDoc j /\ DocumentText j t /\ Utf8 t.
Proof. exact written_text. Qed.
Print Assumptions C59_written.

(** Writing the text fails only when memory cannot hold it. *)
Theorem C59_total : forall A (c : codec A) a j, LibraryJson c -> c_ser c a = JOk j -> exists t u,
  DocumentText j t /\ DocumentText j u /\
  to_string c a = (if N.of_nat (length t) <=? isize_max then JOk t else JPanic CapacityOverflow) /\
  to_string_pretty c a = (if N.of_nat (length u) <=? isize_max then JOk u else JPanic CapacityOverflow).
Proof. exact written_total. Qed.
Print Assumptions C59_total.

(** No text of the document is shorter than what [to_string] writes. *)
Theorem C59_shortest : forall A (c : codec A) a j t t', LibraryJson c -> c_ser c a = JOk j -> to_string c a = JOk t ->
  DocumentText j t' -> (length t <= length t')%nat.
Proof. exact to_string_shortest. Qed.
Print Assumptions C59_shortest.

(** [to_string_pretty] writes the text of [to_string] in lines, and fails when [to_string] does or
    memory cannot hold the lines. *)
Theorem C59_indented : forall A (c : codec A) a,
  to_string_pretty c a = match to_string c a with
                         | JOk t => if N.of_nat (length (indented t)) <=? isize_max then JOk (indented t) else JPanic CapacityOverflow
                         | other => other
                         end.
Proof. exact pretty_text. Qed.
Print Assumptions C59_indented.

(** ** There and back *)

Theorem C59_roundtrip : forall A (c : codec A) d a t, LibraryJson c -> SurvivesJson c d a -> d < 128 ->
  to_string c a = JOk t \/ to_string_pretty c a = JOk t -> from_str c t = JOk a.
Proof. exact own_text. Qed.
Print Assumptions C59_roundtrip.

(** also from a text another program wrote for the same document, with the members of objects in
    any order *)
Theorem C59_foreign : forall A (c : codec A) d a, SurvivesJson c d a -> d < 128 ->
  exists j, c_ser c a = JOk j /\
    forall j' t, Reordered j j' -> DocumentText j' t -> from_str c t = JOk a.
Proof. exact text_roundtrip. Qed.
Print Assumptions C59_foreign.

(** The text of a spend policy nested 44 deep or more cannot be read back. *)
Theorem C59_depth_refuted : forall stack x t, json_policy x -> (44 <= depth x)%nat ->
  to_string (j_policy stack) x = JOk t \/ to_string_pretty (j_policy stack) x = JOk t ->
  from_str (j_policy stack) t = JErr.
Proof. exact deep_text. Qed.
Print Assumptions C59_depth_refuted.

(** ** Examples *)

(** An attestation key with a quote and a line break, as written; other texts of the same
    document; texts that are not JSON. *)
Example C59_example_written :
  to_string j_string s_key = JOk (ascii """a\""b\n/""") /\
  to_string j_unlock_conditions s_conditions =
    JOk (ascii "{""timelock"":7,""publicKeys"":[""ed25519:00ff""],""signaturesRequired"":1}") /\
  to_string_pretty j_unlock_conditions s_conditions = JOk s_pretty.
Proof. exact examples_written. Qed.

Example C59_example_indented :
  indented (ascii "{""timelock"":7,""publicKeys"":[""ed25519:00ff""],""signaturesRequired"":1}") = s_pretty /\
  indented (ascii "[[],""a]b,:"",{}]") = ascii "[" ++ [x0a] ++ ascii "  []," ++ [x0a] ++ ascii "  ""a]b,:""," ++ [x0a] ++
    ascii "  {}" ++ [x0a] ++ ascii "]".
Proof. now vm_compute. Qed.

Example C59_example_read :
  from_str j_string (ascii " ""\u0061\u0022b\n\/"" ") = JOk s_key /\
  from_str j_unlock_conditions s_pretty = JOk s_conditions /\
  from_str (j_list j_u64) (ascii "[1 , 18446744073709551615 ]") = JOk [s_u64 1; s_u64 18446744073709551615].
Proof. exact examples_read. Qed.

Example C59_example_rejected :
  map (from_str (j_list j_u64))
    [ ascii "[1,]"; ascii "[01]"; ascii "[1] 2"; ascii "[1"; ascii "[18446744073709551616]"; ascii "[1.0]"; ascii "[-0]"; ascii "[1 2]" ] =
  repeat JErr 8 /\
  map (from_str j_string)
    [ ascii """\ud800"""; ascii """\udc00\ud800"""; ascii """\x"""; [""""%byte; x0a; """"%byte]; ascii """a" ] = repeat JErr 5.
Proof. exact examples_rejected. Qed.

Example C59_example_hypotheses :
  LibraryJson (j_v2_transaction Debug 40) /\ SurvivesJson j_unlock_conditions 2 s_conditions /\
  (exists t, to_string (j_policy 50) (tower 43) = JOk t) /\ json_policy (tower 43) /\ depth (tower 43) = 44%nat.
Proof. exact examples_hypotheses. Qed.
