(** C61: conversions, defaults, constants and constructors. Only statements here; SpecText.v,
    Spec.v and SpecLayout.v hold the vocabulary. *)

From Verif Require Import Base Io Spec SpecText SpecLayout Model_encoding Model_common Model_v1 Model_policy Model_text
  Model_consensus Model_json Model_jsontypes Model_convert ConvertProofs.
Local Open Scope N_scope.

(** A chain index is printed as the height in decimal, a colon and the block ID in hexadecimal,
    and different indices are printed differently. *)
Theorem C61_chain_index : forall c, exists d h, chain_index_text c = d ++ ascii ":" ++ h /\
  digits d /\ dec_value d = uval (ci_height c) /\ HexText h (aval (ci_id c)).
Proof. exact chain_index_text_form. Qed.
Print Assumptions C61_chain_index.

Theorem C61_chain_index_binds : forall c d, chain_index_text c = chain_index_text d -> c = d.
Proof. exact chain_index_text_inj. Qed.
Print Assumptions C61_chain_index_binds.

Example C61_chain_index_example :
  chain_index_text (MkChainIndex (uwrap 64 120) (arr_of 32 (repeat xab 32))) = ascii "120:abababababababababababababababababababababababababababababababab".
Proof. vm_compute. reflexivity. Qed.

(** An address is made from exactly 32 bytes. The conversion cannot fail otherwise than by a panic. *)
Theorem C61_address : forall l,
  (length l = 32%nat -> exists a, address_from_slice l = Val a /\ aval a = l) /\
  (length l <> 32%nat -> exists r, address_from_slice l = Panic r).
Proof. exact address_slice. Qed.
Print Assumptions C61_address.

(** An amount becomes a 64-bit number exactly when it fits, and is not changed by that. *)
Theorem C61_currency_number : forall c n, currency_try_into_u64 c = Some n <-> uval c = uval n.
Proof. exact currency_u64. Qed.
Print Assumptions C61_currency_number.

Example C61_currency_example : currency_try_into_u64 (uwrap 128 (2 ^ 64)) = None /\
  currency_try_into_u64 (uwrap 128 (2 ^ 64 - 1)) = Some (uwrap 64 (2 ^ 64 - 1)).
Proof. vm_compute. now split. Qed.

(** Amounts are ordered as numbers. *)
Theorem C61_currency_order : forall c d,
  (currency_cmp c d = Lt <-> uval c < uval d) /\ (currency_cmp c d = Eq <-> c = d) /\ (currency_cmp c d = Gt <-> uval d < uval c).
Proof. exact currency_order. Qed.
Print Assumptions C61_currency_order.

(** Work is made from the big-endian bytes of the number, and is encoded as them. *)
Theorem C61_work : forall l : arr 32,
  uval (work_of_bytes l) = be_value (aval l) /\ wbytes (encode_work (work_of_bytes l)) = aval l.
Proof. intros l. exact (conj (work_bytes_value l) (work_bytes_encoded l)). Qed.
Print Assumptions C61_work.

Theorem C61_defaults : uval currency_default = 0 /\ aval hash_default = repeat x00 32 /\ aval signature_default = repeat x00 64.
Proof. exact defaults. Qed.
Print Assumptions C61_defaults.

Theorem C61_constants : uval siafund_count = 10000 /\ uval ancestor_depth = 1000 /\ uval max_block_weight = 2000000.
Proof. exact constants. Qed.
Print Assumptions C61_constants.

(** Covering the whole transaction covers nothing else. *)
Theorem C61_whole_transaction :
  wbytes (encode_covered_fields covered_whole_transaction) = x01 :: repeat x00 80 /\
  c_ser j_covered_fields covered_whole_transaction = JOk (JObj [(ascii "wholeTransaction", JBool true)]).
Proof. exact whole_transaction_forms. Qed.
Print Assumptions C61_whole_transaction.

(** Each constructor of a policy makes the policy of its name. *)
Theorem C61_policies :
  (forall n, wbytes (encode_policy (policy_above n)) = [x01; x01] ++ word n) /\
  (forall t, wbytes (encode_policy (policy_after t)) = [x01; x02] ++ timestamp t) /\
  (forall k, wbytes (encode_policy (policy_public_key k)) = [x01; x03] ++ aval k) /\
  (forall h, wbytes (encode_policy (policy_hash h)) = [x01; x04] ++ aval h) /\
  (forall u, wbytes (encode_policy (policy_unlock_conditions u)) = [x01; x07] ++ lay_unlock_conditions u).
Proof. exact constructor_bytes. Qed.
Print Assumptions C61_policies.
