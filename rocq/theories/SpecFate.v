(** Specification: what becomes of a transaction in JSON, by the names of the algorithms of its
    unlock keys. *)

From Verif Require Import Base Io SpecUtf8 SpecText SpecWire Model_encoding Model_common Model_v1 Model_policy
  Model_v2 Model_json Model_jsontypes SpecJson Model_jsontext.
Local Open Scope N_scope.

(** Serialising [a] succeeds, with a document without repeated keys and at most [d] levels of arrays and
    objects, but deserialising it is an error, whatever the order of the entries of its objects. *)
Definition LostJson {A} (c : codec A) (d : N) (a : A) : Prop :=
  exists j, c_ser c a = JOk j /\ DistinctKeys j /\ json_depth j <= d /\
    forall j', Reordered j j' -> c_de c j' = JErr.

(** Serialising [a] panics. *)
Definition PanicsJson {A} (c : codec A) (a : A) : Prop := exists q, c_ser c a = JPanic q.

(** The algorithm of the key is text, up to trailing zeros. *)
Definition printable (k : unlock_key) : Prop :=
  exists t n, aval (uk_algorithm k) = t ++ repeat x00 n /\ no_trailing_zero t /\ Utf8 t.
(** ... without a colon *)
Definition named (k : unlock_key) : Prop := printable k /\ ~ In ":"%byte (aval (uk_algorithm k)).

(** The unlock keys of a transaction *)
Definition v1_keys (t : v1_transaction) : list unlock_key :=
  flat_map (fun i => vlist (uc_public_keys (v1sci_unlock_conditions i))) (vlist (v1t_siacoin_inputs t)) ++
  flat_map (fun r => vlist (uc_public_keys (v1fcr_unlock_conditions r))) (vlist (v1t_file_contract_revisions t)) ++
  flat_map (fun i => vlist (uc_public_keys (v1sfi_unlock_conditions i))) (vlist (v1t_siafund_inputs t)).
Fixpoint policy_keys (x : policy) : list unlock_key :=
  match x with
  | PThreshold _ of => flat_map policy_keys of
  | PUnlockConditions u => vlist (uc_public_keys u)
  | _ => []
  end.
Definition v2_policies (t : v2_transaction) : list policy :=
  map (fun i => sp_policy (v2sci_satisfied_policy i)) (vlist (v2t_siacoin_inputs t)) ++
  map (fun i => sp_policy (v2sfi_satisfied_policy i)) (vlist (v2t_siafund_inputs t)).
Definition v2_keys (t : v2_transaction) : list unlock_key := flat_map policy_keys (v2_policies t).

Definition block_keys (b : block) : list unlock_key := flat_map v1_keys (vlist (bl_transactions b)).

(** Byte strings of at most 2^61 bytes: their hexadecimal and base64 texts fit into memory. *)
Definition fits {sz} (v : vec sz u8) : Prop := N.of_nat (length (vlist v)) <= 2 ^ 61.
Definition v1_fits (t : v1_transaction) : Prop :=
  Forall (fun k => fits (uk_key k)) (v1_keys t) /\ VecAll fits (v1t_arbitrary_data t) /\
  VecAll (fun s => fits (ts_signature s)) (v1t_signatures t).
Definition v2_fits (t : v2_transaction) : Prop :=
  Forall (fun k => fits (uk_key k)) (v2_keys t) /\ VecAll (fun a => fits (att_value a)) (v2t_attestations t) /\
  fits (v2t_arbitrary_data t).

(** A policy without fractions of seconds, in itself and in its children *)
Fixpoint whole_times (x : policy) : Prop :=
  match x with
  | PAfter t => odt_nanos t = 0
  | PThreshold _ of => fold_right (fun q acc => whole_times q /\ acc) True of
  | _ => True
  end.

(** The fate of a value in JSON, by the keys in it: it survives if all have names, is written but
    cannot be read if all are printable but not all have names, and cannot be written without a panic
    otherwise. *)
Definition FateByKeys {A} (c : codec A) (d : N) (keys : list unlock_key) (a : A) : Prop :=
  (Forall named keys -> SurvivesJson c d a) /\
  (Forall printable keys -> ~ Forall named keys -> LostJson c d a) /\
  (~ Forall printable keys -> PanicsJson c a).

(** The same for the texts: what [to_string] and [to_string_pretty] write, and what [from_str] makes of it. *)
Definition wrote {A} (c : codec A) (a : A) (t : bytes) : Prop := to_string c a = JOk t \/ to_string_pretty c a = JOk t.
Definition TextFateByKeys {A} (c : codec A) (keys : list unlock_key) (a : A) : Prop :=
  (Forall named keys -> forall t, wrote c a t -> from_str c t = JOk a) /\
  (Forall printable keys -> ~ Forall named keys -> forall t, wrote c a t -> from_str c t = JErr) /\
  (~ Forall printable keys -> exists q, to_string c a = JPanic q /\ to_string_pretty c a = JPanic q).
