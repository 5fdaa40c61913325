(** C68, C69: using nested spend policies. [stack] is the number of nested calls for which the
    thread's stack has room; [depth] is the nesting, 1 for a policy that is not a threshold. *)

From Verif Require Import Base Io Model_encoding Model_common Model_v1 Model_policy Model_consensus Model_ids Model_json
  Model_jsontypes Model_jsontext SpecWire SpecJsonText SpecStack Model_stack StackProofs.
Local Open Scope N_scope.

(** ** C68 *)

(** Full statement: some fixed stack is enough to encode every policy. It fails. *)
Theorem C68_bounded_refuted : ~ (exists stack, forall x, encode_policy_within stack x <> Panic StackOverflow).
Proof. exact no_stack_enough. Qed.
Print Assumptions C68_bounded_refuted.

(** A policy can be encoded, and dropped, exactly if the stack has room for its nesting. *)
Theorem C68_encode_partial : forall stack x,
  ((depth x <= stack)%nat -> encode_policy_within stack x = Val (encode_policy x)) /\
  ((stack < depth x)%nat -> encode_policy_within stack x = Panic StackOverflow).
Proof. exact (fun stack x => conj (encode_within_ok stack x) (encode_within_overflow stack x)). Qed.
Print Assumptions C68_encode_partial.

Theorem C68_drop_partial : forall stack x,
  ((depth x <= stack)%nat -> drop_policy stack x = Val tt) /\
  ((stack < depth x)%nat -> drop_policy stack x = Panic StackOverflow).
Proof. exact (fun stack x => conj (drop_ok stack x) (drop_overflow stack x)). Qed.
Print Assumptions C68_drop_partial.

(** Its address takes at least as many calls and at most one more. *)
Theorem C68_address_partial : forall p stack x,
  ((depth x < stack)%nat -> policy_address_within p stack x = policy_address p x) /\
  ((stack < depth x)%nat -> forall r, policy_address_within p stack x <> Val r).
Proof. exact (fun p stack x => conj (address_within_ok p stack x) (fun H r => address_within_overflow p stack x r H)). Qed.
Print Assumptions C68_address_partial.

Example C68_address_example :
  policy_address_within Release 1 (POpaque (arr_of 32 [])) = Val (arr_of 32 []) /\
  policy_address_within Release 1 (PAbove (uwrap 64 7)) = Panic StackOverflow /\
  (depth (PAbove (uwrap 64 7)) = 1)%nat.
Proof. repeat split; reflexivity. Qed.

(** Whatever was decoded can be encoded, hashed and dropped: the stack it was decoded with is
    enough, with one call more for the address. *)
Theorem C68_decoded_partial : forall p stack bs x rest, run (decode_policy stack) bs = ROk x rest ->
  encode_policy_within stack x = Val (encode_policy x) /\ drop_policy stack x = Val tt /\
  policy_address_within p (S stack) x = policy_address p x.
Proof. exact decoded_usable. Qed.
Print Assumptions C68_decoded_partial.

Example C68_decoded_example :
  (match run (decode_policy 3) (map n2b [1; 5; 1; 1; 5; 0; 2; 5; 0; 0; 5; 0; 0]) with ROk x [] => Nat.eqb (depth x) 3 | _ => false end) = true.
Proof. vm_compute. reflexivity. Qed.

(** What was read from a JSON text is nested at most 43 deep, so that a small stack is enough. *)
Theorem C68_text_partial : forall p stack t x, from_str (j_policy stack) t = JOk x ->
  encode_policy_within 43 x = Val (encode_policy x) /\ drop_policy 43 x = Val tt /\
  policy_address_within p 44 x = policy_address p x.
Proof. exact text_usable. Qed.
Print Assumptions C68_text_partial.

(** Forty-two thresholds around a policy are read. *)
Example C68_text_example : (exists t, from_str (j_policy 43) t = JOk (nest 42)) /\ depth (nest 42) = 43%nat.
Proof. split; [exact nest_text|reflexivity]. Qed.

(** ** C69 *)

(** Full statement: writing a policy as JSON builds a number of values proportional to the size of
    the document. It fails: every threshold copies the documents of all policies in it. *)
Theorem C69_write_refuted : ~ (exists c, forall x j, ser_policy x = JOk j -> written_values x <= c * json_size j).
Proof. exact written_not_linear. Qed.
Print Assumptions C69_write_refuted.

(** It is at most the size of the document times the nesting. *)
Theorem C69_write_partial : forall x j, ser_policy x = JOk j -> written_values x <= N.of_nat (depth x) * json_size j.
Proof. exact written_bound. Qed.
Print Assumptions C69_write_partial.

Example C69_write_example :
  (match ser_policy (nest 9) with JOk j => json_size j | _ => 0 end) = 48 /\ written_values (nest 9) = 234.
Proof. split; vm_compute; reflexivity. Qed.

(** Reading builds at most 43 values for every byte of the text, because deeper texts are refused
    before. *)
Theorem C69_read_partial : forall stack j t, DocumentText j t -> json_depth j < 128 ->
  read_values stack j <= 43 * N.of_nat (length t).
Proof. exact read_linear. Qed.
Print Assumptions C69_read_partial.

(** The documents counted are those the children are read from. *)
Theorem C69_children_partial : forall s j x, de_policy (S s) j = JOk x -> exists l, j = JObj l /\
  (depth x = 1%nat \/ exists t v n of, visit_policy None None l = JOk (Some t, Some v) /\
    x = PThreshold n of /\ Forall2 (fun c q => de_policy s c = JOk q) (child_documents v) of).
Proof. exact de_policy_documents. Qed.
Print Assumptions C69_children_partial.

Example C69_read_example :
  (match ser_policy (nest 9) with JOk j => (read_values 20 j, json_depth j) | _ => (0, 0) end) = (235, 28) /\
  (match to_string (j_policy 20) (nest 9) with JOk t => N.of_nat (length t) | _ => 0 end) = 405.
Proof. split; vm_compute; reflexivity. Qed.
