(** Specification: the bytes of every wire type, and the bytes behind every hash. Nothing here
    uses the encoders of the model: numbers, texts, sequences and options are laid out by the five
    functions of the first section. *)

From Verif Require Import Base Blake2b Model_encoding Model_common Model_currency Model_v1
  Model_policy Model_v2 Model_consensus SpecConsensus SpecIds.
Local Open Scope N_scope.

(** ** Parts *)

(** [k] bytes, the byte of weight [256^i] at position [i]. *)
Definition num (k : nat) (v : N) : bytes :=
  map (fun i => n2b (v / 256 ^ N.of_nat i)) (seq 0 k).

(** [k] bytes, most significant first. *)
Definition big (k : nat) (v : N) : bytes :=
  map (fun i => n2b (v / 256 ^ N.of_nat (k - 1 - i))) (seq 0 k).

(** Two's complement in eight bytes. *)
Definition signed_num (v : Z) : bytes := num 8 (Z.to_N (v mod 2 ^ 64)).

(** A count, then the elements. *)
Definition many {A} (f : A -> bytes) (l : list A) : bytes :=
  num 8 (N.of_nat (length l)) ++ concat (map f l).

(** A flag, then the value if there is one. *)
Definition maybe {A} (f : A -> bytes) (o : option A) : bytes :=
  match o with None => [x00] | Some a => x01 :: f a end.

Definition one (b : byte) : bytes := [b].
Definition word {w} (v : uint w) : bytes := num 8 (uval v).
Definition blob (v : vec 1 u8) : bytes := many one (vlist v).

(** An amount in v2: sixteen bytes. *)
Definition amount (c : currency) : bytes := num 16 (uval c).

(** An amount in v1: the number of its significant bytes, then these, most significant first. *)
Definition significant (v : N) : nat := N.to_nat ((N.size v + 7) / 8).
Definition old_amount (v : N) : bytes :=
  num 8 (N.of_nat (significant v)) ++ big (significant v) v.

(** A name in sixteen bytes, padded with zeros. *)
Definition name16 (s : string) : bytes :=
  list_byte_of_string s ++ repeat x00 (16 - String.length s).

(** ** Types shared by v1 and v2 *)

Definition timestamp (t : odt) : bytes := signed_num (odt_secs t).
Definition nanos (d : duration) : bytes := num 8 (Z.to_N (dur_ns d mod 2 ^ 64)).
Definition lay_work (w : work) : bytes := big 32 (uval w).

Definition lay_chain_index (c : chain_index) : bytes :=
  concat [word (ci_height c); aval (ci_id c)].
Definition lay_siacoin_output (o : siacoin_output) : bytes :=
  concat [amount (sco_value o); aval (sco_address o)].
Definition lay_siafund_output (o : siafund_output) : bytes :=
  concat [word (sfo_value o); aval (sfo_address o)].
Definition lay_old_siacoin_output (o : siacoin_output) : bytes :=
  concat [old_amount (uval (sco_value o)); aval (sco_address o)].
(** The unused claim start of v1 is zero. *)
Definition lay_old_siafund_output (o : siafund_output) : bytes :=
  concat [old_amount (uval (sfo_value o)); aval (sfo_address o); old_amount 0].
Definition lay_state_element (e : state_element) : bytes :=
  concat [word (se_leaf_index e); many aval (vlist (se_merkle_proof e))].
Definition lay_unlock_key (k : unlock_key) : bytes :=
  concat [aval (uk_algorithm k); blob (uk_key k)].
Definition lay_unlock_conditions (u : unlock_conditions) : bytes :=
  concat [word (uc_timelock u); many lay_unlock_key (vlist (uc_public_keys u));
          word (uc_signatures_required u)].

(** ** v1 *)

Definition lay_v1_siacoin_input (i : v1_siacoin_input) : bytes :=
  concat [aval (v1sci_parent_id i); lay_unlock_conditions (v1sci_unlock_conditions i)].
Definition lay_v1_siafund_input (i : v1_siafund_input) : bytes :=
  concat [aval (v1sfi_parent_id i); lay_unlock_conditions (v1sfi_unlock_conditions i);
          aval (v1sfi_claim_address i)].
Definition lay_v1_file_contract (c : v1_file_contract) : bytes :=
  concat [word (v1fc_file_size c); aval (v1fc_file_merkle_root c);
          word (v1fc_window_start c); word (v1fc_window_end c); old_amount (uval (v1fc_payout c));
          many lay_old_siacoin_output (vlist (v1fc_valid_proof_outputs c));
          many lay_old_siacoin_output (vlist (v1fc_missed_proof_outputs c));
          aval (v1fc_unlock_hash c); word (v1fc_revision_number c)].
Definition lay_v1_file_contract_revision (r : v1_file_contract_revision) : bytes :=
  concat [aval (v1fcr_parent_id r); lay_unlock_conditions (v1fcr_unlock_conditions r);
          word (v1fcr_revision_number r); word (v1fcr_file_size r);
          aval (v1fcr_file_merkle_root r); word (v1fcr_window_start r);
          word (v1fcr_window_end r);
          many lay_old_siacoin_output (vlist (v1fcr_valid_proof_outputs r));
          many lay_old_siacoin_output (vlist (v1fcr_missed_proof_outputs r));
          aval (v1fcr_unlock_hash r)].
Definition lay_v1_storage_proof (p : v1_storage_proof) : bytes :=
  concat [aval (v1sp_parent_id p); aval (v1sp_leaf p); many aval (vlist (v1sp_proof p))].
Definition lay_indices (v : vec 8 usize) : bytes := many word (vlist v).
Definition lay_covered_fields (c : covered_fields) : bytes :=
  concat [[if cf_whole_transaction c then x01 else x00];
          lay_indices (cf_siacoin_inputs c); lay_indices (cf_siacoin_outputs c);
          lay_indices (cf_file_contracts c); lay_indices (cf_file_contract_revisions c);
          lay_indices (cf_storage_proofs c); lay_indices (cf_siafund_inputs c);
          lay_indices (cf_siafund_outputs c); lay_indices (cf_miner_fees c);
          lay_indices (cf_arbitrary_data c); lay_indices (cf_signatures c)].
Definition lay_transaction_signature (s : transaction_signature) : bytes :=
  concat [aval (ts_parent_id s); word (ts_public_key_index s); word (ts_timelock s);
          lay_covered_fields (ts_covered_fields s); blob (ts_signature s)].
Definition lay_v1_unsigned (t : v1_transaction) : bytes :=
  concat [many lay_v1_siacoin_input (vlist (v1t_siacoin_inputs t));
          many lay_old_siacoin_output (vlist (v1t_siacoin_outputs t));
          many lay_v1_file_contract (vlist (v1t_file_contracts t));
          many lay_v1_file_contract_revision (vlist (v1t_file_contract_revisions t));
          many lay_v1_storage_proof (vlist (v1t_storage_proofs t));
          many lay_v1_siafund_input (vlist (v1t_siafund_inputs t));
          many lay_old_siafund_output (vlist (v1t_siafund_outputs t));
          many (fun c => old_amount (uval c)) (vlist (v1t_miner_fees t));
          many blob (vlist (v1t_arbitrary_data t))].
Definition lay_v1_transaction (t : v1_transaction) : bytes :=
  lay_v1_unsigned t ++ many lay_transaction_signature (vlist (v1t_signatures t)).
Definition lay_block (b : block) : bytes :=
  concat [aval (bl_parent_id b); word (bl_nonce b); timestamp (bl_timestamp b);
          many lay_old_siacoin_output (vlist (bl_miner_payouts b));
          many lay_v1_transaction (vlist (bl_transactions b))].

(** ** Policies: a version, then per policy an opcode and its operands *)

Fixpoint lay_policy_op (p : policy) : bytes :=
  match p with
  | PAbove h => x01 :: word h
  | PAfter t => x02 :: timestamp t
  | PPublicKey k => x03 :: aval k
  | PHash h => x04 :: aval h
  | PThreshold n of => x05 :: n :: n2b (N.of_nat (length of)) :: concat (map lay_policy_op of)
  | POpaque a => x06 :: aval a
  | PUnlockConditions u => x07 :: lay_unlock_conditions u
  end.
Definition lay_policy (p : policy) : bytes := x01 :: lay_policy_op p.
Definition lay_satisfied_policy (s : satisfied_policy) : bytes :=
  concat [lay_policy (sp_policy s); many aval (vlist (sp_signatures s));
          many aval (vlist (sp_preimages s))].

(** ** v2 *)

Definition no_signature : bytes := repeat x00 64.

Definition lay_attestation_with (a : attestation) (s : bytes) : bytes :=
  concat [aval (att_public_key a); blob (sbytes (att_key a)); blob (att_value a); s].
Definition lay_attestation (a : attestation) : bytes := lay_attestation_with a (aval (att_signature a)).

Definition lay_contract_with (c : v2_file_contract) (renter host : bytes) : bytes :=
  concat [word (v2fc_capacity c); word (v2fc_filesize c);
          aval (v2fc_file_merkle_root c); word (v2fc_proof_height c);
          word (v2fc_expiration_height c); lay_siacoin_output (v2fc_renter_output c);
          lay_siacoin_output (v2fc_host_output c); amount (v2fc_missed_host_value c);
          amount (v2fc_total_collateral c); aval (v2fc_renter_public_key c);
          aval (v2fc_host_public_key c); word (v2fc_revision_number c); renter; host].
Definition lay_contract (c : v2_file_contract) : bytes :=
  lay_contract_with c (aval (v2fc_renter_signature c)) (aval (v2fc_host_signature c)).
Definition lay_contract_unsigned (c : v2_file_contract) : bytes :=
  lay_contract_with c no_signature no_signature.

Definition lay_siacoin_element (e : siacoin_element) : bytes :=
  concat [lay_state_element (sce_state_element e); aval (sce_id e);
          lay_siacoin_output (sce_siacoin_output e); word (sce_maturity_height e)].
Definition lay_siafund_element (e : siafund_element) : bytes :=
  concat [lay_state_element (sfe_state_element e); aval (sfe_id e);
          lay_siafund_output (sfe_siafund_output e); amount (sfe_claim_start e)].
Definition lay_file_contract_element (e : file_contract_element) : bytes :=
  concat [lay_state_element (fce_state_element e); aval (fce_id e);
          lay_contract (fce_v2_file_contract e)].
Definition lay_chain_index_element (e : chain_index_element) : bytes :=
  concat [lay_state_element (cie_state_element e); aval (cie_id e);
          lay_chain_index (cie_chain_index e)].
Definition lay_v2_siacoin_input (i : v2_siacoin_input) : bytes :=
  concat [lay_siacoin_element (v2sci_parent i); lay_satisfied_policy (v2sci_satisfied_policy i)].
Definition lay_v2_siafund_input (i : v2_siafund_input) : bytes :=
  concat [lay_siafund_element (v2sfi_parent i); aval (v2sfi_claim_address i);
          lay_satisfied_policy (v2sfi_satisfied_policy i)].
Definition lay_v2_file_contract_revision (r : v2_file_contract_revision) : bytes :=
  concat [lay_file_contract_element (v2fcr_parent r); lay_contract (v2fcr_revision r)].
Definition lay_renewal (r : file_contract_renewal) : bytes :=
  concat [lay_contract (ren_final_revision r); lay_contract (ren_new_contract r);
          amount (ren_renter_rollover r); amount (ren_host_rollover r);
          aval (ren_renter_signature r); aval (ren_host_signature r)].
Definition lay_v2_storage_proof (p : v2_storage_proof) : bytes :=
  concat [lay_chain_index_element (v2sp_proof_index p); aval (v2sp_leaf p);
          many aval (vlist (v2sp_proof p))].
Definition lay_resolution (r : file_contract_resolution) : bytes :=
  lay_file_contract_element (fcres_parent r) ++
  match fcres_resolution r with
  | ResRenewal n => x00 :: lay_renewal n
  | ResStorageProof p => x01 :: lay_v2_storage_proof p
  | ResExpiration => [x02]
  end.

(** A transaction: its version, a bitmap and the sections whose bit is set. *)
Definition section {sz A} (f : A -> bytes) (v : vec sz A) : option bytes :=
  match vlist v with [] => None | l => Some (many f l) end.
Definition lay_sections (t : v2_transaction) : list (option bytes) :=
  [ section lay_v2_siacoin_input (v2t_siacoin_inputs t);
    section lay_siacoin_output (v2t_siacoin_outputs t);
    section lay_v2_siafund_input (v2t_siafund_inputs t);
    section lay_siafund_output (v2t_siafund_outputs t);
    section lay_contract (v2t_file_contracts t);
    section lay_v2_file_contract_revision (v2t_file_contract_revisions t);
    section lay_resolution (v2t_file_contract_resolutions t);
    section lay_attestation (v2t_attestations t);
    section one (v2t_arbitrary_data t);
    option_map aval (v2t_new_foundation_address t);
    if uval (v2t_miner_fee t) =? 0 then None else Some (amount (v2t_miner_fee t)) ].
Fixpoint bitmap (l : list (option bytes)) : N :=
  match l with
  | [] => 0
  | None :: r => 2 * bitmap r
  | Some _ :: r => 1 + 2 * bitmap r
  end.
Definition lay_v2_transaction (t : v2_transaction) : bytes :=
  x02 :: num 8 (bitmap (lay_sections t)) ++
  concat (map (fun o => match o with Some b => b | None => [] end) (lay_sections t)).

(** ** Chain states *)

(** The roots of the trees whose height is a set bit of the number of leaves. *)
Definition lay_accumulator (a : element_accumulator) : bytes :=
  word (ea_num_leaves a) ++
  concat (map (fun x => if N.testbit (uval (ea_num_leaves a)) (N.of_nat (fst x)) then aval (snd x) else [])
              (combine (seq 0 64) (flist (ea_trees a)))).

(** The timestamps of the last blocks: one more than the height, at most eleven. *)
Definition lay_state (s : state) : bytes :=
  concat [lay_chain_index (st_index s);
          concat (map timestamp (firstn (N.to_nat (N.min 11 (uval (ci_height (st_index s)) + 1)))
                                        (flist (st_prev_timestamps s))));
          aval (st_depth s); aval (st_child_target s); amount (st_siafund_pool s);
          nanos (st_oak_time s); aval (st_oak_target s);
          aval (st_foundation_primary_address s); aval (st_foundation_failsafe_address s);
          lay_work (st_total_work s); lay_work (st_difficulty s); lay_work (st_oak_work s);
          lay_accumulator (st_elements s); word (st_attestations s)].

(** ** The table: the encoder of each type and the layout of its values *)

Inductive V2Layout : forall A : Type, (A -> Io.wprog) -> (A -> bytes) -> Prop :=
| L2_u8 : V2Layout u8 encode_u8 one
| L2_bool : V2Layout bool encode_bool (fun b : bool => [if b then x01 else x00])
| L2_u16 : V2Layout u16 encode_u16 word
| L2_u32 : V2Layout u32 encode_u32 word
| L2_u64 : V2Layout u64 encode_u64 word
| L2_usize : V2Layout usize encode_usize word
| L2_i16 : V2Layout i16 encode_i16 (fun v => signed_num (sval v))
| L2_i32 : V2Layout i32 encode_i32 (fun v => signed_num (sval v))
| L2_i64 : V2Layout i64 encode_i64 (fun v => signed_num (sval v))
| L2_string : V2Layout rstring encode_string (fun s => blob (sbytes s))
| L2_currency : V2Layout currency encode_currency amount
| L2_specifier : V2Layout specifier encode_specifier aval
| L2_hash : V2Layout hash256 encode_hash aval
| L2_signature : V2Layout signature encode_signature aval
| L2_leaf : V2Layout leaf encode_leaf aval
| L2_work : V2Layout work encode_work lay_work
| L2_array : forall n, V2Layout (arr n) encode_arr aval
| L2_vec : forall sz A e f, V2Layout A e f -> V2Layout (vec sz A) (encode_vec e) (fun v => many f (vlist v))
| L2_option : forall A e f, V2Layout A e f -> V2Layout (option A) (encode_option e) (maybe f)
| L2_timestamp : V2Layout odt encode_odt timestamp
| L2_duration : V2Layout duration encode_duration nanos
| L2_chain_index : V2Layout chain_index encode_chain_index lay_chain_index
| L2_siacoin_output : V2Layout siacoin_output encode_siacoin_output lay_siacoin_output
| L2_siafund_output : V2Layout siafund_output encode_siafund_output lay_siafund_output
| L2_state_element : V2Layout state_element encode_state_element lay_state_element
| L2_unlock_key : V2Layout unlock_key encode_unlock_key lay_unlock_key
| L2_unlock_conditions : V2Layout unlock_conditions encode_unlock_conditions lay_unlock_conditions
| L2_attestation : V2Layout attestation encode_attestation lay_attestation
| L2_contract : V2Layout v2_file_contract encode_v2_file_contract lay_contract
| L2_siacoin_element : V2Layout siacoin_element encode_siacoin_element lay_siacoin_element
| L2_siafund_element : V2Layout siafund_element encode_siafund_element lay_siafund_element
| L2_file_contract_element : V2Layout file_contract_element encode_file_contract_element lay_file_contract_element
| L2_chain_index_element : V2Layout chain_index_element encode_chain_index_element lay_chain_index_element
| L2_revision : V2Layout v2_file_contract_revision encode_v2_file_contract_revision lay_v2_file_contract_revision
| L2_renewal : V2Layout file_contract_renewal encode_file_contract_renewal lay_renewal
| L2_storage_proof : V2Layout v2_storage_proof encode_v2_storage_proof lay_v2_storage_proof
| L2_resolution : V2Layout file_contract_resolution encode_file_contract_resolution lay_resolution
| L2_policy : V2Layout policy encode_policy lay_policy
| L2_satisfied_policy : V2Layout satisfied_policy encode_satisfied_policy lay_satisfied_policy
| L2_siacoin_input : V2Layout v2_siacoin_input encode_v2_siacoin_input lay_v2_siacoin_input
| L2_siafund_input : V2Layout v2_siafund_input encode_v2_siafund_input lay_v2_siafund_input
| L2_transaction : V2Layout v2_transaction encode_v2_transaction lay_v2_transaction
| L2_accumulator : V2Layout element_accumulator encode_element_accumulator lay_accumulator.

Inductive V1Layout : forall A : Type, (A -> Io.wprog) -> (A -> bytes) -> Prop :=
| L1_u8 : V1Layout u8 encode_u8 one
| L1_bool : V1Layout bool encode_bool (fun b : bool => [if b then x01 else x00])
| L1_u16 : V1Layout u16 encode_u16 word
| L1_u32 : V1Layout u32 encode_u32 word
| L1_u64 : V1Layout u64 encode_u64 word
| L1_usize : V1Layout usize encode_usize word
| L1_i16 : V1Layout i16 encode_i16 (fun v => signed_num (sval v))
| L1_i32 : V1Layout i32 encode_i32 (fun v => signed_num (sval v))
| L1_i64 : V1Layout i64 encode_i64 (fun v => signed_num (sval v))
| L1_string : V1Layout rstring encode_string (fun s => blob (sbytes s))
| L1_specifier : V1Layout specifier encode_specifier aval
| L1_hash : V1Layout hash256 encode_hash aval
| L1_leaf : V1Layout leaf encode_leaf aval
| L1_array : forall n, V1Layout (arr n) encode_arr aval
| L1_vec : forall sz A e f, V1Layout A e f -> V1Layout (vec sz A) (encode_vec e) (fun v => many f (vlist v))
| L1_option : forall A e f, V1Layout A e f -> V1Layout (option A) (encode_option e) (maybe f)
| L1_currency : V1Layout currency encode_v1_currency (fun c => old_amount (uval c))
| L1_work : V1Layout work encode_work lay_work
| L1_siacoin_output : V1Layout siacoin_output encode_v1_siacoin_output lay_old_siacoin_output
| L1_siafund_output : V1Layout siafund_output encode_v1_siafund_output lay_old_siafund_output
| L1_unlock_key : V1Layout unlock_key encode_unlock_key lay_unlock_key
| L1_unlock_conditions : V1Layout unlock_conditions encode_unlock_conditions lay_unlock_conditions
| L1_siacoin_input : V1Layout v1_siacoin_input encode_v1_siacoin_input lay_v1_siacoin_input
| L1_siafund_input : V1Layout v1_siafund_input encode_v1_siafund_input lay_v1_siafund_input
| L1_file_contract : V1Layout v1_file_contract encode_v1_file_contract lay_v1_file_contract
| L1_revision : V1Layout v1_file_contract_revision encode_v1_file_contract_revision lay_v1_file_contract_revision
| L1_storage_proof : V1Layout v1_storage_proof encode_v1_storage_proof lay_v1_storage_proof
| L1_covered_fields : V1Layout covered_fields encode_covered_fields lay_covered_fields
| L1_transaction_signature : V1Layout transaction_signature encode_transaction_signature lay_transaction_signature
| L1_transaction : V1Layout v1_transaction encode_v1_transaction lay_v1_transaction
| L1_block : V1Layout block encode_block lay_block.

(** ** What is hashed *)

Definition text (s : string) : bytes := list_byte_of_string s.

(** Identifiers. *)
Definition lay_derivation (d : derivation) : bytes :=
  match d with
  | V1Transaction t => lay_v1_unsigned t
  | V1SiacoinOutput t i => concat [name16 "siacoin output"; lay_v1_unsigned t; word i]
  | V1SiafundOutput t i => concat [name16 "siafund output"; lay_v1_unsigned t; word i]
  | V1FileContract t i => concat [name16 "file contract"; lay_v1_unsigned t; word i]
  | V2SiacoinOutput id i => concat [text "sia/id/siacoinoutput|"; aval id; word i]
  | V2SiafundOutput id i => concat [text "sia/id/siafundoutput|"; aval id; word i]
  | V2FileContract id i => concat [text "sia/id/filecontract|"; aval id; word i]
  | V2Attestation id i => concat [text "sia/id/attestation|"; aval id; word i]
  | ClaimOutput id => aval id
  | V2ClaimOutput id => concat [text "sia/id/v2siacoinclaimoutput|"; aval id]
  | ValidOutput id i => concat [name16 "storage proof"; aval id; [x01]; word i]
  | MissedOutput id i => concat [name16 "storage proof"; aval id; [x00]; word i]
  | V2RenterOutput id => concat [text "id/v2filecontractoutput"; aval id; num 8 0]
  | V2HostOutput id => concat [text "id/v2filecontractoutput"; aval id; num 8 1]
  | V2Renewal id => concat [text "id/v2filecontractrenewal"; aval id]
  | FoundationOutput id => concat [aval id; name16 "foundation"]
  | MinerOutput id i => concat [aval id; word i]
  end.

(** The replay prefix: the mark of the last fork of this list whose height has been reached. *)
Definition forks (cs : chain_state) : list (N * bytes) :=
  [ (uval (hfa_height (net_hardfork_asic (cs_network cs))), [x00]);
    (uval (hff_height (net_hardfork_foundation (cs_network cs))), [x01]);
    (uval (hfv2_allow_height (net_hardfork_v2 (cs_network cs))), [x02]) ].
Definition lay_replay (cs : chain_state) : bytes :=
  last (map snd (filter (fun f => fst f <=? uval (ci_height (st_index (cs_state cs)))) (forks cs))) [].

(** A v2 transaction without its witnesses: inputs by the identifiers of what they spend. *)
Definition lay_renewal_unsigned (r : file_contract_renewal) : bytes :=
  concat [lay_contract_unsigned (ren_final_revision r); lay_contract_unsigned (ren_new_contract r);
          amount (ren_renter_rollover r); amount (ren_host_rollover r); no_signature; no_signature].
Definition lay_storage_proof_unproved (p : v2_storage_proof) : bytes :=
  concat [word (se_leaf_index (cie_state_element (v2sp_proof_index p))); num 8 0;
          aval (cie_id (v2sp_proof_index p)); lay_chain_index (cie_chain_index (v2sp_proof_index p));
          aval (v2sp_leaf p); many aval (vlist (v2sp_proof p))].
Definition lay_v2_unsigned (t : v2_transaction) : bytes :=
  concat
    [ many (fun i => aval (sce_id (v2sci_parent i))) (vlist (v2t_siacoin_inputs t));
      many lay_siacoin_output (vlist (v2t_siacoin_outputs t));
      many (fun i => aval (sfe_id (v2sfi_parent i))) (vlist (v2t_siafund_inputs t));
      many lay_siafund_output (vlist (v2t_siafund_outputs t));
      many lay_contract_unsigned (vlist (v2t_file_contracts t));
      many (fun r => aval (fce_id (v2fcr_parent r)) ++ lay_contract_unsigned (v2fcr_revision r))
           (vlist (v2t_file_contract_revisions t));
      many (fun r => aval (fce_id (fcres_parent r)) ++
              match fcres_resolution r with
              | ResRenewal n => lay_renewal_unsigned n
              | ResStorageProof p => lay_storage_proof_unproved p
              | ResExpiration => []
              end) (vlist (v2t_file_contract_resolutions t));
      many lay_attestation (vlist (v2t_attestations t));
      many one (vlist (v2t_arbitrary_data t));
      maybe aval (v2t_new_foundation_address t);
      amount (v2t_miner_fee t) ].

(** Objects signed in v2. *)
Definition lay_signed (s : signed) (cs : chain_state) : bytes :=
  match s with
  | SignedAttestation a =>
      concat [text "sia/sig/attestation|"; lay_replay cs; lay_attestation_with a no_signature]
  | SignedContract c =>
      concat [text "sia/sig/filecontract|"; lay_replay cs; lay_contract_unsigned c]
  | SignedRenewal r =>
      concat [text "sia/sig/filecontractrenewal|"; lay_replay cs; lay_renewal_unsigned r]
  | SignedInput t => concat [text "sia/sig/input|"; lay_replay cs; lay_v2_unsigned t]
  end.

(** A v1 signature over the whole transaction: every input follows the replay prefix. *)
Definition lay_whole (t : v1_transaction) (cs : chain_state) (parent : hash256) (key lock : u64) : bytes :=
  concat [ many (fun i => lay_replay cs ++ lay_v1_siacoin_input i) (vlist (v1t_siacoin_inputs t));
           many lay_old_siacoin_output (vlist (v1t_siacoin_outputs t));
           many lay_v1_file_contract (vlist (v1t_file_contracts t));
           many lay_v1_file_contract_revision (vlist (v1t_file_contract_revisions t));
           many lay_v1_storage_proof (vlist (v1t_storage_proofs t));
           many (fun i => lay_replay cs ++ lay_v1_siafund_input i) (vlist (v1t_siafund_inputs t));
           many lay_old_siafund_output (vlist (v1t_siafund_outputs t));
           many (fun c => old_amount (uval c)) (vlist (v1t_miner_fees t));
           many blob (vlist (v1t_arbitrary_data t));
           aval parent; word key; word lock ].

(** A v1 signature over covered fields: the covered elements, without counts. *)
Definition covered {A sz} (f : A -> bytes) (items : vec sz A) (idx : vec 8 usize) : bytes :=
  concat (map (fun o => match o with Some a => f a | None => [] end) (pick (vlist items) (vlist idx))).
Definition lay_covered (t : v1_transaction) (cs : chain_state) (c : covered_fields) : bytes :=
  concat [ covered (fun i => lay_replay cs ++ lay_v1_siacoin_input i) (v1t_siacoin_inputs t) (cf_siacoin_inputs c);
           covered lay_old_siacoin_output (v1t_siacoin_outputs t) (cf_siacoin_outputs c);
           covered lay_v1_file_contract (v1t_file_contracts t) (cf_file_contracts c);
           covered lay_v1_file_contract_revision (v1t_file_contract_revisions t) (cf_file_contract_revisions c);
           covered lay_v1_storage_proof (v1t_storage_proofs t) (cf_storage_proofs c);
           covered (fun i => lay_replay cs ++ lay_v1_siafund_input i) (v1t_siafund_inputs t) (cf_siafund_inputs c);
           covered lay_old_siafund_output (v1t_siafund_outputs t) (cf_siafund_outputs c);
           covered (fun a => old_amount (uval a)) (v1t_miner_fees t) (cf_miner_fees c);
           covered blob (v1t_arbitrary_data t) (cf_arbitrary_data c);
           covered lay_transaction_signature (v1t_signatures t) (cf_signatures c) ].

(** ** Addresses *)

Definition leaf_digest (b : bytes) : bytes := blake2b_256 (x00 :: b).
Definition node_digest (l r : bytes) : bytes := blake2b_256 (x01 :: l ++ r).

(** The address of unlock conditions with at most one key. *)
Definition key_address (u : unlock_conditions) : option bytes :=
  let lock := leaf_digest (word (uc_timelock u)) in
  let count := leaf_digest (word (uc_signatures_required u)) in
  match vlist (uc_public_keys u) with
  | [] => Some (node_digest lock count)
  | [k] => Some (node_digest (node_digest lock (leaf_digest (lay_unlock_key k))) count)
  | _ => None
  end.

(** Of any unlock conditions: the leaves are grouped in trees of falling size, and in a tree the
    right child of a node is the last leaf below it. *)
Inductive UnlockTree : nat -> list bytes -> bytes -> Prop :=
| UT_leaf : forall h, UnlockTree 0 [h] h
| UT_node : forall k l r h a, UnlockTree k l a -> S (length r) = (2 ^ k)%nat ->
    UnlockTree (S k) (l ++ r ++ [h]) (node_digest a h).
Inductive UnlockRoot : list bytes -> bytes -> Prop :=
| UR_full : forall k l a, UnlockTree k l a -> UnlockRoot l a
| UR_split : forall k l r a b, UnlockTree k l a -> UnlockRoot r b -> (length r < 2 ^ k)%nat ->
    UnlockRoot (l ++ r) (node_digest a b).
Definition address_leaves (u : unlock_conditions) : list bytes :=
  leaf_digest (word (uc_timelock u)) ::
  map (fun k => leaf_digest (lay_unlock_key k)) (vlist (uc_public_keys u)) ++
  [leaf_digest (word (uc_signatures_required u))].

(** The address of a policy: that of opaque policies and of unlock conditions is known, a
    threshold hashes its children as opaque policies, the others hash themselves. *)
Inductive Address : policy -> bytes -> Prop :=
| A_opaque : forall a, Address (POpaque a) (aval a)
| A_conditions : forall u b, UnlockRoot (address_leaves u) b -> Address (PUnlockConditions u) b
| A_above : forall h, Address (PAbove h) (blake2b_256 (text "sia/address|" ++ lay_policy (PAbove h)))
| A_after : forall t, Address (PAfter t) (blake2b_256 (text "sia/address|" ++ lay_policy (PAfter t)))
| A_key : forall k, Address (PPublicKey k) (blake2b_256 (text "sia/address|" ++ lay_policy (PPublicKey k)))
| A_hash : forall h, Address (PHash h) (blake2b_256 (text "sia/address|" ++ lay_policy (PHash h)))
| A_threshold : forall n of addrs, Forall2 (fun q a => Address q (aval a)) of addrs ->
    Address (PThreshold n of)
            (blake2b_256 (text "sia/address|" ++ lay_policy (PThreshold n (map POpaque addrs)))).
