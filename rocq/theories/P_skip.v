(** Property C59, continued: members a type does not know. Their values are skipped, and held to
    fewer rules. The grammar of what can be skipped ([RoughDocument]), the same with the
    trees that are read ([SkimDocument]) and [cut] are in SpecSkip.v,
    [StructReader] (with its instances in C56) in SpecAccept.v. Only statements. *)

From Verif Require Import Base Io Model_encoding Model_common Model_consensus Model_text Model_json Model_jsontypes SpecJson
  DocProofs AcceptProofs AcceptMore Samples Model_jsontext SpecJsonText Model_skip SpecSkip SkipProofs SkipMore SkipGrammar SkipMember SkipStrict SkipExact
  SpecAccept.
Local Open Scope N_scope.

(** A text is read as its document, in which the arrays and objects inside 127 others are unreadable
    but may be skipped. *)
Theorem C59_skipped : forall A (c : codec A) j t, DocumentText j t -> from_str_skipping c t = c_de c (cut 128 j).
Proof. exact skipping_reads. Qed.
Print Assumptions C59_skipped.

(** So up to that depth nothing changes, *)
Theorem C59_skipped_shallow : forall A (c : codec A) j t, DocumentText j t -> json_depth j < 128 ->
  from_str_skipping c t = from_str c t.
Proof. exact skipping_same. Qed.
Print Assumptions C59_skipped_shallow.

(** and whatever is read under the stricter rules is read as the same value. *)
Theorem C59_skipped_more : forall A (c : codec A) t a, from_str c t = JOk a -> from_str_skipping c t = JOk a.
Proof. exact skipping_more. Qed.
Print Assumptions C59_skipped_more.

(** What can be skipped is exactly what the rougher grammar describes; everything else is an error
    for every type. *)
Theorem C59_skipped_grammar : forall t, from_str_skipping j_ignored t = JOk tt <-> RoughDocument t.
Proof. exact skipping_anything. Qed.
Print Assumptions C59_skipped_grammar.

Theorem C59_skipped_rejects : forall A (c : codec A) t, ~ RoughDocument t -> from_str_skipping c t = JErr.
Proof. exact skipping_rejects. Qed.
Print Assumptions C59_skipped_rejects.

(** A struct reads an object the same with and without a member it does not know, whatever text of
    that grammar the member holds. *)
Theorem C59_skipped_unknown : forall A (c : codec A) ws, StructReader c ws -> forall l1 k l2 ts1 kt vt ts2 a,
  ~ In k (map (fun w : wanted => ascii (fst w)) (ws a)) ->
  Forall (fun kv => json_depth (snd kv) < 127) (l1 ++ l2) ->
  Forall2 MemberOf l1 ts1 -> StringText k kt -> RoughText vt -> Forall2 MemberOf l2 ts2 ->
  (from_str_skipping c (ascii "{" ++ comma_list (ts1 ++ (kt ++ ascii ":" ++ vt) :: ts2) ++ ascii "}") = JOk a <->
   c_de c (JObj (l1 ++ l2)) = JOk a).
Proof. exact skipping_unknown. Qed.
Print Assumptions C59_skipped_unknown.

(** In full: the tree a text is read into, with what can only be skipped marked in it; texts that have
    no such tree are errors. *)
Theorem C59_skipped_exact : forall A (c : codec A) j t, SkimDocument j t -> from_str_skipping c t = c_de c j.
Proof. exact skipping_exact. Qed.
Print Assumptions C59_skipped_exact.

Theorem C59_skipped_error : forall A (c : codec A) t, (forall j, ~ SkimDocument j t) -> from_str_skipping c t = JErr.
Proof. exact skipping_error. Qed.
Print Assumptions C59_skipped_error.

(** The tree is the only one, and that of the document where the text has one. *)
Theorem C59_skipped_unambiguous : forall t j j', SkimDocument j t -> SkimDocument j' t -> j = j'.
Proof. exact skim_unique. Qed.
Print Assumptions C59_skipped_unambiguous.

Theorem C59_skipped_document : forall j t, DocumentText j t -> SkimDocument (cut 128 j) t.
Proof. exact skim_cut. Qed.
Print Assumptions C59_skipped_document.

(** Outside skipped members the rules are those of C59_reads and C59_rejects: where a value comes only
    from documents without such members (and so without numbers nobody reads), nothing more is
    accepted. *)
Theorem C59_skipped_strict : forall A (c : codec A) t a, (forall j, c_de c j = JOk a -> PlainNumbers j) ->
  from_str_skipping c t = JOk a -> from_str c t = JOk a.
Proof. exact skipping_strict. Qed.
Print Assumptions C59_skipped_strict.

(** ** Examples *)

Example C59_skipped_strict_hypotheses :
  (forall j a, c_de j_string j = JOk a -> PlainNumbers j) /\
  (forall j a, c_de j_hash j = JOk a -> PlainNumbers j) /\
  (forall j a, c_de (j_list j_u64) j = JOk a -> PlainNumbers j).
Proof. exact plain_examples. Qed.

Example C59_skipped_exact_example :
  SkimDocument (JObj [(ascii "a", JFloat); (ascii "b", JUint (uwrap 64 1))]) (ascii "{""a"":""\ud800"",""b"":1}") /\
  SkimDocument (JArr [JFloat; JNull]) (ascii "[{""\udc00"":1}, null]") /\
  (forall j, ~ SkimDocument j (ascii "[1,]")).
Proof. exact skim_examples. Qed.

(** A chain index with an unknown member: 127 and 500 arrays, a lone surrogate, a key that is one *)
Example C59_skipped_example : forall e,
  In e [brackets_text 127; brackets_text 500; ascii """\ud800"""; ascii "{""\udc00"":1}"] ->
  from_str_skipping j_chain_index (index_text e) = JOk (MkChainIndex (uwrap 64 7) (arr_of 32 (repeat x00 32))) /\
  from_str j_chain_index (index_text e) = JErr.
Proof. exact skipping_examples. Qed.

(** Known members are held to the rules of SpecJsonText.v, and skipped ones to those of SpecSkip.v. *)
Example C59_skipped_example_rejected :
  map (from_str_skipping j_string) [ascii """\ud800"""; ascii """\udc00\ud800"""] = repeat JErr 2 /\
  map (fun e => from_str_skipping j_chain_index (index_text e))
    [ ascii "[1,]"; ascii "01"; ascii """\x"""; ascii """\ud80"""; [""""%byte; x0a; """"%byte]; ascii "{""a"" 1}"; ascii "{1:1}"; ascii "[" ]
  = repeat JErr 8.
Proof. split; vm_compute; reflexivity. Qed.

Example C59_skipped_hypotheses : exists ws, StructReader j_chain_index ws /\
  (forall a, ~ In (ascii "extra") (map (fun w : wanted => ascii (fst w)) (ws a))) /\
  RoughText (ascii """\ud800""") /\ Forall2 MemberOf [(ascii "height", JUint (uwrap 64 7))] [ascii """height"":7"] /\
  ~ RoughDocument (ascii "[1,]").
Proof. exact skipping_hypotheses. Qed.
