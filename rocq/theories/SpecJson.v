(** Specification: what it means for a value to survive its JSON form, and which values have
    one. *)

From Coq Require Import Permutation.
From Verif Require Import Base Io SpecUtf8 SpecText SpecWire Model_encoding Model_common Model_v1
  Model_policy Model_v2 Model_consensus Model_json Model_jsontypes.
Local Open Scope N_scope.

(** ** Documents *)

(** [Reordered j j']: the same document, except that the entries of the objects in it may come
    in another order. *)
Inductive Reordered : json -> json -> Prop :=
| reordered_same : forall j, Reordered j j
| reordered_array : forall l l', Forall2 Reordered l l' -> Reordered (JArr l) (JArr l')
| reordered_object : forall l m l',
    Forall2 (fun x y => fst x = fst y /\ Reordered (snd x) (snd y)) l m ->
    Permutation m l' -> Reordered (JObj l) (JObj l').

(** No object in the document has two entries with the same key. *)
Inductive DistinctKeys : json -> Prop :=
| distinct_null : DistinctKeys JNull
| distinct_bool : forall b, DistinctKeys (JBool b)
| distinct_uint : forall n, DistinctKeys (JUint n)
| distinct_neg : forall z, DistinctKeys (JNeg z)
| distinct_float : DistinctKeys JFloat
| distinct_string : forall s, DistinctKeys (JStr s)
| distinct_array : forall l, Forall DistinctKeys l -> DistinctKeys (JArr l)
| distinct_object : forall l, NoDup (map fst l) -> Forall (fun x => DistinctKeys (snd x)) l ->
    DistinctKeys (JObj l).

(** Serialising [a] succeeds; the document has no repeated keys and at most [d] levels of arrays
    and objects; and deserialising it gives [a] back, also when the entries of its objects are
    in another order and when the document went through [serde_json::Value]. *)
Definition SurvivesJson {A} (c : codec A) (d : N) (a : A) : Prop :=
  exists j, c_ser c a = JOk j /\ DistinctKeys j /\ json_depth j <= d /\
    (forall j', Reordered j j' -> c_de c j' = JOk a) /\ c_de c (value_of j) = JOk a.

(** [serde_json::from_str] on the text of what [a] serialises to gives [a]. *)
Definition SurvivesText {A} (c : codec A) (a : A) : Prop :=
  exists j, c_ser c a = JOk j /\ from_text (c_de c) j = JOk a.

(** ** Values that have a JSON form *)

(** A timestamp from the year 0 on: RFC 3339 has no negative years. *)
Definition json_time (t : odt) : Prop := (-62167219200 <= odt_secs t)%Z.

(** A duration of less than 2^63 nanoseconds in either direction. *)
Definition json_duration (d : duration) : Prop := (- 2 ^ 63 <= dur_ns d < 2 ^ 63)%Z.

(** Bytes whose base64 text fits into memory. *)
Definition json_bytes {sz} (v : vec sz u8) : Prop :=
  4 * ((N.of_nat (length (vlist v)) + 2) / 3) <= isize_max.

(** A public key whose algorithm is text without a colon, up to trailing zeros, and whose
    text fits into memory. *)
Definition json_key (k : unlock_key) : Prop :=
  exists t n, aval (uk_algorithm k) = t ++ repeat x00 n /\ no_trailing_zero t /\ Utf8 t /\
    Forall (fun c => c <> ":"%byte) t /\
    N.of_nat (length t) + 1 + 2 * N.of_nat (length (vlist (uk_key k))) <= isize_max.

Definition json_conditions (u : unlock_conditions) : Prop := VecAll json_key (uc_public_keys u).

(** A policy without fractions of seconds. *)
Fixpoint json_policy (x : policy) : Prop :=
  match x with
  | PAfter t => odt_nanos t = 0
  | PThreshold _ of => fold_right (fun q acc => json_policy q /\ acc) True of
  | PUnlockConditions u => json_conditions u
  | _ => True
  end.

(** ... that is nested at most [n] deep *)
Definition json_policy_upto (n : nat) (x : policy) : Prop := json_policy x /\ (depth x <= n)%nat.

Definition json_v1_siacoin_input (i : v1_siacoin_input) : Prop :=
  json_conditions (v1sci_unlock_conditions i).
Definition json_v1_siafund_input (i : v1_siafund_input) : Prop :=
  json_conditions (v1sfi_unlock_conditions i).
Definition json_v1_revision (r : v1_file_contract_revision) : Prop :=
  json_conditions (v1fcr_unlock_conditions r).
Definition json_v1_signature (s : transaction_signature) : Prop := json_bytes (ts_signature s).
Definition json_v1_transaction (t : v1_transaction) : Prop :=
  VecAll json_v1_siacoin_input (v1t_siacoin_inputs t) /\
  VecAll json_v1_revision (v1t_file_contract_revisions t) /\
  VecAll json_v1_siafund_input (v1t_siafund_inputs t) /\
  VecAll json_bytes (v1t_arbitrary_data t) /\
  VecAll json_v1_signature (v1t_signatures t).
Definition json_block (b : block) : Prop :=
  json_time (bl_timestamp b) /\ VecAll json_v1_transaction (bl_transactions b).

Definition json_satisfied (n : nat) (s : satisfied_policy) : Prop := json_policy_upto n (sp_policy s).
Definition json_attestation (a : attestation) : Prop := json_bytes (att_value a).
Definition json_v2_siacoin_input (n : nat) (i : v2_siacoin_input) : Prop :=
  json_satisfied n (v2sci_satisfied_policy i).
Definition json_v2_siafund_input (n : nat) (i : v2_siafund_input) : Prop :=
  json_satisfied n (v2sfi_satisfied_policy i).
Definition json_v2_transaction (n : nat) (t : v2_transaction) : Prop :=
  VecAll (json_v2_siacoin_input n) (v2t_siacoin_inputs t) /\
  VecAll (json_v2_siafund_input n) (v2t_siafund_inputs t) /\
  VecAll json_attestation (v2t_attestations t) /\
  json_bytes (v2t_arbitrary_data t).

Definition json_network (n : network) : Prop :=
  json_duration (net_block_interval n) /\
  json_time (hfo_genesis_timestamp (net_hardfork_oak n)) /\
  json_duration (hfa_oak_time (net_hardfork_asic n)).
Definition json_state (s : state) : Prop :=
  Forall json_time (flist (st_prev_timestamps s)) /\
  json_duration (st_oak_time s) /\ ea_normal (st_elements s).
Definition json_chain_state (c : chain_state) : Prop :=
  json_network (cs_network c) /\ json_state (cs_state c).

(** ** Accumulators *)

(** The number of set bits of a 64-bit number. *)
Definition set_bits (n : N) : nat := length (filter (fun i => N.testbit n (N.of_nat i)) (seq 0 64)).
