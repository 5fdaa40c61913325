(** Specification: what the binary formats can represent.

    The formats have no room for a fraction of a second in a timestamp, for a negative
    duration, for more than 255 children of a threshold, or for the unused slots of the
    fixed-size arrays of a chain state. The round-trip properties are stated for the values
    below; that the other values do not survive is stated separately. *)

From Verif Require Import Base Io Model_encoding Model_common Model_v1 Model_policy Model_v2
  Model_consensus.
Local Open Scope N_scope.

(** Every element of a vector satisfies [P]. *)
Definition VecAll {sz A} (P : A -> Prop) (v : vec sz A) : Prop := Forall P (vlist v).

(** The value inside an option, if any, satisfies [P]. *)
Definition OptAll {A} (P : A -> Prop) (o : option A) : Prop :=
  match o with Some a => P a | None => True end.

(** A timestamp without a sub-second part. *)
Definition whole_seconds (t : odt) : Prop := odt_nanos t = 0.

(** A duration of at least zero and less than [2^63] nanoseconds. *)
Definition duration_encodable (d : duration) : Prop := (0 <= dur_ns d < 2 ^ 63)%Z.

(** Policies the binary format can represent: at most 255 children per threshold and whole
    seconds in timestamps. *)
Fixpoint encodable (p : policy) : Prop :=
  match p with
  | PAfter t => odt_nanos t = 0
  | PThreshold _ of =>
    (length of < 256)%nat /\ fold_right (fun q acc => encodable q /\ acc) True of
  | _ => True
  end.

(** Nesting depth: a leaf has depth 1. *)
Fixpoint depth (p : policy) : nat :=
  match p with
  | PThreshold _ of => S (fold_right (fun q acc => Nat.max (depth q) acc) O of)
  | _ => 1%nat
  end.

(** A policy that the binary format can represent and whose nesting fits the stack. *)
Definition policy_fits (stack : nat) (p : policy) : Prop := encodable p /\ (depth p <= stack)%nat.

Definition satisfied_encodable (stack : nat) (s : satisfied_policy) : Prop :=
  encodable (sp_policy s) /\ (depth (sp_policy s) <= stack)%nat.

Definition v2_siacoin_input_encodable (stack : nat) (i : v2_siacoin_input) : Prop :=
  satisfied_encodable stack (v2sci_satisfied_policy i).

Definition v2_siafund_input_encodable (stack : nat) (i : v2_siafund_input) : Prop :=
  satisfied_encodable stack (v2sfi_satisfied_policy i).

(** Every policy in the transaction is encodable and fits the stack. *)
Definition v2_transaction_encodable (stack : nat) (t : v2_transaction) : Prop :=
  VecAll (v2_siacoin_input_encodable stack) (v2t_siacoin_inputs t) /\
  VecAll (v2_siafund_input_encodable stack) (v2t_siafund_inputs t).

(** Slots without a tree hold the zero hash. *)
Definition ea_normal (a : element_accumulator) : Prop :=
  forall i, N.testbit (uval (ea_num_leaves a)) (N.of_nat i) = false ->
            nth i (flist (ea_trees a)) zero_hash = zero_hash.

(** How many of the previous timestamps are meaningful. *)
Definition ts_count (s : state) : nat :=
  N.to_nat (N.min 11 (uval (ci_height (st_index s)) + 1)).

(** What the binary encoding of a state can represent. *)
Definition state_encodable (s : state) : Prop :=
  uval (ci_height (st_index s)) + 1 < 2 ^ 64 /\
  (forall i, (i < ts_count s)%nat ->
     odt_nanos (nth i (flist (st_prev_timestamps s)) unix_epoch) = 0) /\
  (forall i, (ts_count s <= i)%nat ->
     nth i (flist (st_prev_timestamps s)) unix_epoch = unix_epoch) /\
  (0 <= dur_ns (st_oak_time s) < 2 ^ 63)%Z /\
  ea_normal (st_elements s).

