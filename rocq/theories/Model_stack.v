(** Model of the nested calls that using a spend policy takes, and of the [serde_json::Value]s that
    are built while one is written to or read from JSON (sia/src/types/spendpolicy.rs). *)

From Verif Require Import Base Io Model_encoding Model_common Blake2b Model_v1 Model_policy Model_consensus Model_ids Model_text Model_json
  Model_jsontypes.
Local Open Scope N_scope.
Local Open Scope jres_scope.

(** ** Nested calls. [stack] is the number of nested calls of the recursive functions for which the
    thread's stack has room, as in [decode_policy_body]; that the frames of these functions differ
    in size is not modelled. *)

(** spendpolicy.rs:318-340, the inner [encode_policy]: what it writes, if it returns *)
Fixpoint encode_policy_calls (stack : nat) (x : policy) : outcome wprog :=
  match stack with
  | O => Panic StackOverflow
  | S stack' =>
    obind (match x with
           | PAbove height => Val (encode_u64 height)
           | PAfter time => Val (encode_u64 (s_as_u64 (unix_timestamp time)))
           | PPublicKey pk => Val (encode_hash pk)
           | PHash h => Val (encode_hash h)
           | PThreshold n of =>
             obind (sequence_outcome (map (encode_policy_calls stack') of)) (fun l =>
             Val (encode_u8 n ++ encode_u8 (n2b (N.of_nat (length of) mod 256)) ++ concat l))
           | POpaque addr => Val (encode_hash addr)
           | PUnlockConditions uc => Val (encode_unlock_conditions uc)
           end) (fun w => Val (write_all [type_prefix x] ++ w))
  end.

(** spendpolicy.rs:315-344 *)
Definition encode_policy_within (stack : nat) (x : policy) : outcome wprog :=
  obind (encode_policy_calls stack x) (fun w => Val (encode_u8 x01 ++ w)).

(** spendpolicy.rs:143-168 *)
Fixpoint policy_address_within (p : profile) (stack : nat) (x : policy) : outcome hash256 :=
  match stack with
  | O => Panic StackOverflow
  | S stack' =>
    match x with
    | PUnlockConditions uc => unlock_conditions_address p uc
    | POpaque addr => Val addr
    | PThreshold n of =>
      obind (sequence_outcome (map (policy_address_within p stack') of)) (fun addrs =>
      obind (encode_policy_within stack' (PThreshold n (map POpaque addrs))) (fun w =>
      Val (hash (ascii "sia/address|" ++ wbytes w))))
    | _ => obind (encode_policy_within stack' x) (fun w => Val (hash (ascii "sia/address|" ++ wbytes w)))
    end
  end.

(** The destructor the compiler makes for spendpolicy.rs:57-75: that of a threshold runs those of its
    children. *)
Fixpoint drop_policy (stack : nat) (x : policy) : outcome unit :=
  match stack with
  | O => Panic StackOverflow
  | S stack' =>
    match x with
    | PThreshold _ of => obind (sequence_outcome (map (drop_policy stack') of)) (fun _ => Val tt)
    | _ => Val tt
    end
  end.

(** ** JSON values *)

(** The number of values a [serde_json::Value] consists of. *)
Fixpoint json_size (j : json) : N :=
  match j with
  | JArr l => 1 + fold_right (fun x m => json_size x + m) 0 l
  | JObj l => 1 + fold_right (fun kv m => json_size (snd kv) + m) 0 l
  | _ => 1
  end.

(** spendpolicy.rs:297-305: what [json!] makes for a threshold *)
Definition threshold_value (n : u8) (of : list policy) : jres json :=
  vn <- junwrap (c_ser j_u8 n) ;;
  l <- junwrap (jmap ser_policy of) ;;
  JOk (value_of (JObj [(ascii "n", vn); (ascii "of", JArr l)])).

(** spendpolicy.rs:276-313: the values that [json!] builds while a policy is serialised, whatever
    the serialiser. For a threshold it builds one tree for all children, whose parts the children
    first built for themselves. *)
Fixpoint written_values (x : policy) : N :=
  match x with
  | PThreshold n of =>
    match threshold_value n of with JOk v => json_size v | _ => 0 end +
    fold_right (fun q m => written_values q + m) 0 of
  | _ => 0
  end.

(** spendpolicy.rs:233-239: the documents of the children in the value of a threshold, which may be
    an object or, as for every derived struct, an array *)
Definition child_documents (v : json) : list json :=
  match v with
  | JObj l => match find_entry (ascii "of") l with Some (JArr c) => c | _ => [] end
  | JArr (_ :: JArr c :: _) => c
  | _ => []
  end.

(** spendpolicy.rs:186-203: the values built for members called "policy" *)
Definition member_values (l : list (bytes * json)) : N :=
  fold_right (fun kv m => (if bytes_eqb (fst kv) (ascii "policy") then json_size (value_of (snd kv)) else 0) + m) 0 l.

(** spendpolicy.rs:171-274: the values that are built while a policy is read. When reading stops at
    an error, this counts what would have been built without it: an upper bound. *)
Fixpoint read_values (stack : nat) (j : json) : N :=
  match stack with
  | O => 0
  | S stack' =>
    match j with
    | JObj l =>
      member_values l +
      match visit_policy None None l with
      | JOk (Some t, Some v) =>
        if bytes_eqb t (ascii "thresh")
        then fold_right (fun c m => read_values stack' c + m) 0 (child_documents v) else 0
      | _ => 0
      end
    | _ => 0
    end
  end.
