(** Specification: exactly which bytes each decoder accepts, and as what. Where a decoder accepts
    only what the encoder writes, that is the layout of SpecLayout.v. *)

From Verif Require Import Base Io Spec SpecWire SpecLayout SpecCodecs Model_encoding Model_common Model_v1 Model_policy
  Model_v2 Model_consensus.
Local Open Scope N_scope.

(** [W a w]: the bytes [w] stand for [a]. *)
Definition wire (A : Type) : Type := A -> bytes -> Prop.

(** One part after the other. *)
Inductive Seq : list (bytes -> Prop) -> bytes -> Prop :=
| seq_nil : Seq [] []
| seq_cons : forall (P : bytes -> Prop) l u v, P u -> Seq l v -> Seq (P :: l) (u ++ v).

(** A count and that many elements. *)
Definition Many {sz A} (W : wire A) : wire (vec sz A) := fun v w =>
  exists u, Seq (map W (vlist v)) u /\ w = num 8 (N.of_nat (length (vlist v))) ++ u.

Definition Maybe {A} (W : wire A) : wire (option A) := fun o w =>
  match o with None => w = [x00] | Some a => exists u, W a u /\ w = x01 :: u end.

(** Integers narrower than eight bytes: the high bytes are ignored. *)
Definition Narrow {n} : wire (uint n) := fun v w => length w = 8%nat /\ uval v = le_value w mod 2 ^ n.
Definition NarrowSigned {n} : wire (sint n) := fun v w =>
  length w = 8%nat /\ (sval v mod 2 ^ Z.of_N n = Z.of_N (le_value w) mod 2 ^ Z.of_N n)%Z.

(** A v1 amount: a count of at most sixteen, and that many bytes, most significant first; leading
    zeros are allowed. *)
Definition OldAmount (n : N) : bytes -> Prop := fun w =>
  exists u, (length u <= 16)%nat /\ be_value u = n /\ w = num 8 (N.of_nat (length u)) ++ u.
Definition AnyOldAmount : bytes -> Prop := fun w => exists n, OldAmount n w.

Definition OldCurrency : wire currency := fun c => OldAmount (uval c).
Definition OldSiacoinOutput : wire siacoin_output := fun o =>
  Seq [OldAmount (uval (sco_value o)); eq (aval (sco_address o))].
(** The claim start is read and dropped. *)
Definition OldSiafundOutput : wire siafund_output := fun o =>
  Seq [OldAmount (uval (sfo_value o)); eq (aval (sfo_address o)); AnyOldAmount].
Definition OldContract : wire v1_file_contract := fun c =>
  Seq [eq (word (v1fc_file_size c)); eq (aval (v1fc_file_merkle_root c));
       eq (word (v1fc_window_start c)); eq (word (v1fc_window_end c)); OldAmount (uval (v1fc_payout c));
       Many OldSiacoinOutput (v1fc_valid_proof_outputs c); Many OldSiacoinOutput (v1fc_missed_proof_outputs c);
       eq (aval (v1fc_unlock_hash c)); eq (word (v1fc_revision_number c))].
Definition OldRevision : wire v1_file_contract_revision := fun r =>
  Seq [eq (aval (v1fcr_parent_id r)); eq (lay_unlock_conditions (v1fcr_unlock_conditions r));
       eq (word (v1fcr_revision_number r)); eq (word (v1fcr_file_size r)); eq (aval (v1fcr_file_merkle_root r));
       eq (word (v1fcr_window_start r)); eq (word (v1fcr_window_end r));
       Many OldSiacoinOutput (v1fcr_valid_proof_outputs r); Many OldSiacoinOutput (v1fcr_missed_proof_outputs r);
       eq (aval (v1fcr_unlock_hash r))].
Definition OldTransaction : wire v1_transaction := fun t =>
  Seq [eq (many lay_v1_siacoin_input (vlist (v1t_siacoin_inputs t))); Many OldSiacoinOutput (v1t_siacoin_outputs t);
       Many OldContract (v1t_file_contracts t); Many OldRevision (v1t_file_contract_revisions t);
       eq (many lay_v1_storage_proof (vlist (v1t_storage_proofs t)));
       eq (many lay_v1_siafund_input (vlist (v1t_siafund_inputs t))); Many OldSiafundOutput (v1t_siafund_outputs t);
       Many OldCurrency (v1t_miner_fees t); eq (many blob (vlist (v1t_arbitrary_data t)));
       eq (many lay_transaction_signature (vlist (v1t_signatures t)))].
Definition OldBlock : wire block := fun b w => whole_seconds (bl_timestamp b) /\
  Seq [eq (aval (bl_parent_id b)); eq (word (bl_nonce b)); eq (timestamp (bl_timestamp b));
       Many OldSiacoinOutput (bl_miner_payouts b); Many OldTransaction (bl_transactions b)] w.

(** A v2 transaction. Each section has bytes for the case that its bit is set, and may be blank,
    in which case the bit may also be clear. Bits from 11 on are ignored. *)
Definition listed {sz A} (f : A -> bytes) (v : vec sz A) : option bytes * bool :=
  (Some (many f (vlist v)), match vlist v with [] => true | _ => false end).
Definition announced (t : v2_transaction) : list (option bytes * bool) :=
  [ listed lay_v2_siacoin_input (v2t_siacoin_inputs t); listed lay_siacoin_output (v2t_siacoin_outputs t);
    listed lay_v2_siafund_input (v2t_siafund_inputs t); listed lay_siafund_output (v2t_siafund_outputs t);
    listed lay_contract (v2t_file_contracts t); listed lay_v2_file_contract_revision (v2t_file_contract_revisions t);
    listed lay_resolution (v2t_file_contract_resolutions t); listed lay_attestation (v2t_attestations t);
    listed one (v2t_arbitrary_data t);
    (option_map aval (v2t_new_foundation_address t), match v2t_new_foundation_address t with None => true | _ => false end);
    (Some (amount (v2t_miner_fee t)), uval (v2t_miner_fee t) =? 0) ].
Inductive Sections (m : N) : N -> list (option bytes * bool) -> bytes -> Prop :=
| sections_nil : forall i, Sections m i [] []
| sections_set : forall i b blank l u, N.testbit m i = true -> Sections m (i + 1) l u ->
    Sections m i ((Some b, blank) :: l) (b ++ u)
| sections_clear : forall i o l u, N.testbit m i = false -> Sections m (i + 1) l u ->
    Sections m i ((o, true) :: l) u.
Definition NewTransaction (stack : nat) : wire v2_transaction := fun t w =>
  v2_transaction_encodable stack t /\
  exists m u, length m = 8%nat /\ Sections (le_value m) 0 (announced t) u /\ w = x02 :: m ++ u.

(** A chain state. The timestamps are as many as blocks have passed, at most eleven, and that
    number is the height plus one: at the largest height the addition overflows, and stops the
    decoder or gives zero, depending on how the program was built. *)
Definition SavedState (p : profile) : wire state := fun s w =>
  let passed := uval (ci_height (st_index s)) + 1 in
  let n := N.to_nat (N.min 11 (passed mod 2 ^ 64)) in
  let stamps := flist (st_prev_timestamps s) in
  (p = Debug -> passed < 2 ^ 64) /\
  (forall i, (i < n)%nat -> whole_seconds (nth i stamps unix_epoch)) /\
  (forall i, (n <= i)%nat -> nth i stamps unix_epoch = unix_epoch) /\
  duration_encodable (st_oak_time s) /\ ea_normal (st_elements s) /\
  w = concat [lay_chain_index (st_index s); concat (map timestamp (firstn n stamps));
              aval (st_depth s); aval (st_child_target s); amount (st_siafund_pool s);
              nanos (st_oak_time s); aval (st_oak_target s);
              aval (st_foundation_primary_address s); aval (st_foundation_failsafe_address s);
              lay_work (st_total_work s); lay_work (st_difficulty s); lay_work (st_oak_work s);
              lay_accumulator (st_elements s); word (st_attestations s)].

(** The grammar of every decoder. *)
Inductive Grammar (stack : nat) : forall A : Type, dec A -> wire A -> Prop :=
| G_v2_strict : forall A P e d f, V2Codec stack A P e d -> StrictCodec stack A e d -> V2Layout A e f ->
    Grammar stack A d (fun a w => P a /\ w = f a)
| G_v1_strict : forall A P e d f, V1Codec A P e d -> StrictCodec stack A e d -> V1Layout A e f ->
    Grammar stack A d (fun a w => P a /\ w = f a)
| G_vec : forall sz A d W, Grammar stack A d W -> Grammar stack (vec sz A) (decode_vec sz d) (Many W)
| G_option : forall A d W, Grammar stack A d W -> Grammar stack (option A) (decode_option d) (Maybe W)
| G_u16 : Grammar stack u16 decode_u16 Narrow
| G_u32 : Grammar stack u32 decode_u32 Narrow
| G_i16 : Grammar stack i16 decode_i16 NarrowSigned
| G_i32 : Grammar stack i32 decode_i32 NarrowSigned
| G_currency : Grammar stack currency decode_v1_currency OldCurrency
| G_siacoin_output : Grammar stack siacoin_output decode_v1_siacoin_output OldSiacoinOutput
| G_siafund_output : Grammar stack siafund_output decode_v1_siafund_output OldSiafundOutput
| G_file_contract : Grammar stack v1_file_contract decode_v1_file_contract OldContract
| G_revision : Grammar stack v1_file_contract_revision decode_v1_file_contract_revision OldRevision
| G_transaction : Grammar stack v1_transaction decode_v1_transaction OldTransaction
| G_block : Grammar stack block decode_block OldBlock
| G_v2_transaction : Grammar stack v2_transaction (decode_v2_transaction stack) (NewTransaction stack)
| G_state : forall p, Grammar stack state (decode_state p) (SavedState p).
