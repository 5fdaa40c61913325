(** Proofs: the value of a member a struct does not know is not held to the rules of the others. *)

From Verif Require Import Base Io SpecFormat SpecText Model_encoding Model_common Model_consensus Model_text Model_json Model_jsontypes SpecJson SpecDoc
  AcceptProofs AcceptMore Samples DocExamples Model_jsontext SpecJsonText Model_skip SpecSkip SkipProofs SpecAccept.
Local Open Scope N_scope.

(** A member a struct does not know may have any JSON value, however deep. *)
Lemma cut_members : forall d (l : list (bytes * json)), Forall (fun kv => json_depth (snd kv) < d) l -> map (cut_member d) l = l.
Proof.
  intros d l H. induction H as [|[k x] l Hx H IH]; [reflexivity|]. cbn [map]. rewrite IH. unfold cut_member. cbn [fst snd] in *.
  now rewrite cut_shallow.
Qed.

Theorem skipping_member : forall A (c : codec A) ws, StructReader c ws -> forall l1 k v l2 t a,
  ~ In k (map (fun w : wanted => ascii (fst w)) (ws a)) ->
  Forall (fun kv => json_depth (snd kv) < 127) (l1 ++ l2) -> DocumentText (JObj (l1 ++ (k, v) :: l2)) t ->
  (from_str_skipping c t = JOk a <-> c_de c (JObj (l1 ++ l2)) = JOk a).
Proof.
  intros A c ws R l1 k v l2 t a N F H. rewrite (skipping_reads A c _ t H). cbn [cut].
  change (128 <=? 1) with false. change (128 - 1) with 127. cbn match.
  change (map (fun kv => (fst kv, cut 127 (snd kv))) (l1 ++ (k, v) :: l2)) with (map (cut_member 127) (l1 ++ (k, v) :: l2)).
  rewrite map_app. cbn [map]. apply Forall_app in F as [F1 F2]. rewrite (cut_members 127 l1 F1), (cut_members 127 l2 F2).
  exact (reader_unknown A c ws R l1 k (cut 127 v) l2 a N).
Qed.

(** Examples *)
Definition index_text (extra : bytes) : bytes :=
  ascii "{""extra"":" ++ extra ++ ascii ",""height"":7,""id"":""" ++ hash_text zero_hash ++ ascii """}".
Definition brackets_text (n : nat) : bytes := repeat "["%byte n ++ repeat "]"%byte n.

Lemma skipping_examples : forall e, In e [brackets_text 127; brackets_text 500; ascii """\ud800"""; ascii "{""\udc00"":1}"] ->
  from_str_skipping j_chain_index (index_text e) = JOk (MkChainIndex (uwrap 64 7) (arr_of 32 (repeat x00 32))) /\
  from_str j_chain_index (index_text e) = JErr.
Proof.
  intros e H. repeat (destruct H as [<-|H]; [split; vm_compute; reflexivity|]). destruct H.
Qed.
