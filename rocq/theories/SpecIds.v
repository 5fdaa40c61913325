(** Specification: the identifier derivations, and what it means for transactions, contracts,
    renewals and attestations to be the same apart from signatures and other witness data. *)

From Verif Require Import Base Io Model_encoding Model_common Model_currency Model_v1 Model_policy
  Model_v2 Model_consensus Model_ids.
Local Open Scope N_scope.

(** ** Derivations *)

(** The identifier derivations with their arguments. *)
Inductive derivation : Type :=
| V1Transaction (t : v1_transaction)
| V1SiacoinOutput (t : v1_transaction) (i : usize)
| V1SiafundOutput (t : v1_transaction) (i : usize)
| V1FileContract (t : v1_transaction) (i : usize)
| V2SiacoinOutput (txid : hash256) (i : usize)
| V2SiafundOutput (txid : hash256) (i : usize)
| V2FileContract (txid : hash256) (i : usize)
| V2Attestation (txid : hash256) (i : usize)
| ClaimOutput (id : hash256)
| V2ClaimOutput (id : hash256)
| ValidOutput (id : hash256) (i : usize)
| MissedOutput (id : hash256) (i : usize)
| V2RenterOutput (id : hash256)
| V2HostOutput (id : hash256)
| V2Renewal (id : hash256)
| FoundationOutput (id : hash256)
| MinerOutput (id : hash256) (i : usize).

(** The identifier. *)
Definition derive (d : derivation) : hash256 :=
  match d with
  | V1Transaction t => v1_transaction_id t
  | V1SiacoinOutput t i => v1_siacoin_output_id t i
  | V1SiafundOutput t i => v1_siafund_output_id t i
  | V1FileContract t i => v1_file_contract_id t i
  | V2SiacoinOutput id i => v2_siacoin_output_id id i
  | V2SiafundOutput id i => v2_siafund_output_id id i
  | V2FileContract id i => v2_file_contract_id id i
  | V2Attestation id i => v2_attestation_id id i
  | ClaimOutput id => claim_output_id id
  | V2ClaimOutput id => v2_claim_output_id id
  | ValidOutput id i => valid_output_id id i
  | MissedOutput id i => missed_output_id id i
  | V2RenterOutput id => v2_renter_output_id id
  | V2HostOutput id => v2_host_output_id id
  | V2Renewal id => v2_renewal_id id
  | FoundationOutput id => foundation_output_id id
  | MinerOutput id i => miner_output_id id i
  end.

(** The bytes that are hashed. *)
Definition hashed (d : derivation) : bytes :=
  match d with
  | V1Transaction t => wbytes (encode_no_sigs t)
  | V1SiacoinOutput t i => v1_child_preimage "siacoin output" t i
  | V1SiafundOutput t i => v1_child_preimage "siafund output" t i
  | V1FileContract t i => v1_child_preimage "file contract" t i
  | V2SiacoinOutput id i => v2_siacoin_output_preimage id i
  | V2SiafundOutput id i => v2_siafund_output_preimage id i
  | V2FileContract id i => v2_file_contract_preimage id i
  | V2Attestation id i => v2_attestation_preimage id i
  | ClaimOutput id => claim_output_preimage id
  | V2ClaimOutput id => v2_claim_output_preimage id
  | ValidOutput id i => proof_output_preimage true id i
  | MissedOutput id i => proof_output_preimage false id i
  | V2RenterOutput id => v2_proof_output_preimage id (uwrap 64 0)
  | V2HostOutput id => v2_proof_output_preimage id (uwrap 64 1)
  | V2Renewal id => v2_renewal_preimage id
  | FoundationOutput id => foundation_output_preimage id
  | MinerOutput id i => miner_output_preimage id i
  end.

(** ** v1 transactions *)

(** The transaction with other signatures. *)
Definition with_signatures (t : v1_transaction) (s : vec 320 transaction_signature) : v1_transaction :=
  MkV1Txn (v1t_siacoin_inputs t) (v1t_siacoin_outputs t) (v1t_file_contracts t)
    (v1t_file_contract_revisions t) (v1t_storage_proofs t) (v1t_siafund_inputs t)
    (v1t_siafund_outputs t) (v1t_miner_fees t) (v1t_arbitrary_data t) s.

(** Two transactions that differ at most in their signatures. *)
Definition SameUnsigned (t u : v1_transaction) : Prop := exists s, u = with_signatures t s.

(** The same derivation of the same arguments, up to the signatures of v1 transactions. *)
Inductive SameDerivation : derivation -> derivation -> Prop :=
| SD_same : forall d, SameDerivation d d
| SD_transaction : forall t u, SameUnsigned t u -> SameDerivation (V1Transaction t) (V1Transaction u)
| SD_siacoin : forall t u i, SameUnsigned t u -> SameDerivation (V1SiacoinOutput t i) (V1SiacoinOutput u i)
| SD_siafund : forall t u i, SameUnsigned t u -> SameDerivation (V1SiafundOutput t i) (V1SiafundOutput u i)
| SD_contract : forall t u i, SameUnsigned t u -> SameDerivation (V1FileContract t i) (V1FileContract u i).

(** There is an input, siacoin or siafund. *)
Definition has_inputs (t : v1_transaction) : Prop :=
  vlist (v1t_siacoin_inputs t) <> [] \/ vlist (v1t_siafund_inputs t) <> [].

(** ** Covered fields *)

(** The elements at the given indices. *)
Definition pick {A} (items : list A) (idx : list usize) : list (option A) :=
  map (fun i => nth_error items (N.to_nat (uval i))) idx.

(** The elements that the covered fields refer to are the same, in the same order. *)
Definition SameCovered (t : v1_transaction) (c : covered_fields) (u : v1_transaction) (d : covered_fields) : Prop :=
  pick (vlist (v1t_siacoin_inputs t)) (vlist (cf_siacoin_inputs c)) =
  pick (vlist (v1t_siacoin_inputs u)) (vlist (cf_siacoin_inputs d)) /\
  pick (vlist (v1t_siacoin_outputs t)) (vlist (cf_siacoin_outputs c)) =
  pick (vlist (v1t_siacoin_outputs u)) (vlist (cf_siacoin_outputs d)) /\
  pick (vlist (v1t_file_contracts t)) (vlist (cf_file_contracts c)) =
  pick (vlist (v1t_file_contracts u)) (vlist (cf_file_contracts d)) /\
  pick (vlist (v1t_file_contract_revisions t)) (vlist (cf_file_contract_revisions c)) =
  pick (vlist (v1t_file_contract_revisions u)) (vlist (cf_file_contract_revisions d)) /\
  pick (vlist (v1t_storage_proofs t)) (vlist (cf_storage_proofs c)) =
  pick (vlist (v1t_storage_proofs u)) (vlist (cf_storage_proofs d)) /\
  pick (vlist (v1t_siafund_inputs t)) (vlist (cf_siafund_inputs c)) =
  pick (vlist (v1t_siafund_inputs u)) (vlist (cf_siafund_inputs d)) /\
  pick (vlist (v1t_siafund_outputs t)) (vlist (cf_siafund_outputs c)) =
  pick (vlist (v1t_siafund_outputs u)) (vlist (cf_siafund_outputs d)) /\
  pick (vlist (v1t_miner_fees t)) (vlist (cf_miner_fees c)) =
  pick (vlist (v1t_miner_fees u)) (vlist (cf_miner_fees d)) /\
  pick (vlist (v1t_arbitrary_data t)) (vlist (cf_arbitrary_data c)) =
  pick (vlist (v1t_arbitrary_data u)) (vlist (cf_arbitrary_data d)) /\
  pick (vlist (v1t_signatures t)) (vlist (cf_signatures c)) =
  pick (vlist (v1t_signatures u)) (vlist (cf_signatures d)).

(** Every index is below the length of its list. *)
Definition below {A} (items : list A) (idx : list usize) : Prop :=
  Forall (fun i => uval i < N.of_nat (length items)) idx.
Definition InRange (t : v1_transaction) (c : covered_fields) : Prop :=
  below (vlist (v1t_siacoin_inputs t)) (vlist (cf_siacoin_inputs c)) /\
  below (vlist (v1t_siacoin_outputs t)) (vlist (cf_siacoin_outputs c)) /\
  below (vlist (v1t_file_contracts t)) (vlist (cf_file_contracts c)) /\
  below (vlist (v1t_file_contract_revisions t)) (vlist (cf_file_contract_revisions c)) /\
  below (vlist (v1t_storage_proofs t)) (vlist (cf_storage_proofs c)) /\
  below (vlist (v1t_siafund_inputs t)) (vlist (cf_siafund_inputs c)) /\
  below (vlist (v1t_siafund_outputs t)) (vlist (cf_siafund_outputs c)) /\
  below (vlist (v1t_miner_fees t)) (vlist (cf_miner_fees c)) /\
  below (vlist (v1t_arbitrary_data t)) (vlist (cf_arbitrary_data c)) /\
  below (vlist (v1t_signatures t)) (vlist (cf_signatures c)).

(** The covered fields list the same number of elements of each kind. *)
Definition SameShape (c d : covered_fields) : Prop :=
  length (vlist (cf_siacoin_inputs c)) = length (vlist (cf_siacoin_inputs d)) /\
  length (vlist (cf_siacoin_outputs c)) = length (vlist (cf_siacoin_outputs d)) /\
  length (vlist (cf_file_contracts c)) = length (vlist (cf_file_contracts d)) /\
  length (vlist (cf_file_contract_revisions c)) = length (vlist (cf_file_contract_revisions d)) /\
  length (vlist (cf_storage_proofs c)) = length (vlist (cf_storage_proofs d)) /\
  length (vlist (cf_siafund_inputs c)) = length (vlist (cf_siafund_inputs d)) /\
  length (vlist (cf_siafund_outputs c)) = length (vlist (cf_siafund_outputs d)) /\
  length (vlist (cf_miner_fees c)) = length (vlist (cf_miner_fees d)) /\
  length (vlist (cf_arbitrary_data c)) = length (vlist (cf_arbitrary_data d)) /\
  length (vlist (cf_signatures c)) = length (vlist (cf_signatures d)).

(** An input is covered. *)
Definition covers_inputs (c : covered_fields) : Prop :=
  vlist (cf_siacoin_inputs c) <> [] \/ vlist (cf_siafund_inputs c) <> [].

(** ** v2 contracts, renewals and attestations *)

(** Two contracts that differ at most in their signatures. *)
Definition SameContract (c d : v2_file_contract) : Prop := exists renter host,
  d = MkV2Fc (v2fc_capacity c) (v2fc_filesize c) (v2fc_file_merkle_root c) (v2fc_proof_height c)
        (v2fc_expiration_height c) (v2fc_renter_output c) (v2fc_host_output c)
        (v2fc_missed_host_value c) (v2fc_total_collateral c) (v2fc_renter_public_key c)
        (v2fc_host_public_key c) (v2fc_revision_number c) renter host.

(** Two renewals that differ at most in their signatures and those of their contracts. *)
Definition SameRenewal (r s : file_contract_renewal) : Prop :=
  SameContract (ren_final_revision r) (ren_final_revision s) /\
  SameContract (ren_new_contract r) (ren_new_contract s) /\
  ren_renter_rollover r = ren_renter_rollover s /\ ren_host_rollover r = ren_host_rollover s.

(** Two attestations that differ at most in their signature. *)
Definition SameAttestation (a b : attestation) : Prop := exists s,
  b = MkAtt (att_public_key a) (att_key a) (att_value a) s.

(** Two storage proofs that differ at most in the Merkle proof of the chain index element. *)
Definition SameProof (p q : v2_storage_proof) : Prop :=
  se_leaf_index (cie_state_element (v2sp_proof_index p)) =
    se_leaf_index (cie_state_element (v2sp_proof_index q)) /\
  cie_id (v2sp_proof_index p) = cie_id (v2sp_proof_index q) /\
  cie_chain_index (v2sp_proof_index p) = cie_chain_index (v2sp_proof_index q) /\
  v2sp_leaf p = v2sp_leaf q /\ v2sp_proof p = v2sp_proof q.

Inductive SameKind : contract_resolution -> contract_resolution -> Prop :=
| SK_renewal : forall r s, SameKind (ResRenewal r) (ResRenewal s)
| SK_proof : forall p q, SameKind (ResStorageProof p) (ResStorageProof q)
| SK_expiration : SameKind ResExpiration ResExpiration.

Inductive SameOutcome : contract_resolution -> contract_resolution -> Prop :=
| SO_renewal : forall r s, SameRenewal r s -> SameOutcome (ResRenewal r) (ResRenewal s)
| SO_proof : forall p q, SameProof p q -> SameOutcome (ResStorageProof p) (ResStorageProof q)
| SO_expiration : SameOutcome ResExpiration ResExpiration.

(** Spent, revised and resolved elements are identified by their id. *)
Definition SameRevision (r s : v2_file_contract_revision) : Prop :=
  fce_id (v2fcr_parent r) = fce_id (v2fcr_parent s) /\
  SameContract (v2fcr_revision r) (v2fcr_revision s).
Definition SameResolution (r s : file_contract_resolution) : Prop :=
  fce_id (fcres_parent r) = fce_id (fcres_parent s) /\
  SameOutcome (fcres_resolution r) (fcres_resolution s).

(** ** v2 transactions *)

Definition siacoin_parents (t : v2_transaction) : list hash256 :=
  map (fun i => sce_id (v2sci_parent i)) (vlist (v2t_siacoin_inputs t)).
Definition siafund_parents (t : v2_transaction) : list hash256 :=
  map (fun i => sfe_id (v2sfi_parent i)) (vlist (v2t_siafund_inputs t)).
Definition claim_addresses (t : v2_transaction) : list hash256 :=
  map v2sfi_claim_address (vlist (v2t_siafund_inputs t)).

(** The same except for witness data and for the claim addresses. *)
Definition SameButClaims (t u : v2_transaction) : Prop :=
  siacoin_parents t = siacoin_parents u /\
  v2t_siacoin_outputs t = v2t_siacoin_outputs u /\
  siafund_parents t = siafund_parents u /\
  v2t_siafund_outputs t = v2t_siafund_outputs u /\
  Forall2 SameContract (vlist (v2t_file_contracts t)) (vlist (v2t_file_contracts u)) /\
  Forall2 SameRevision (vlist (v2t_file_contract_revisions t)) (vlist (v2t_file_contract_revisions u)) /\
  Forall2 SameResolution (vlist (v2t_file_contract_resolutions t)) (vlist (v2t_file_contract_resolutions u)) /\
  v2t_attestations t = v2t_attestations u /\
  v2t_arbitrary_data t = v2t_arbitrary_data u /\
  v2t_new_foundation_address t = v2t_new_foundation_address u /\
  v2t_miner_fee t = v2t_miner_fee u.

(** The same except for witness data. *)
Definition SameTransaction (t u : v2_transaction) : Prop :=
  SameButClaims t u /\ claim_addresses t = claim_addresses u.

(** What is the same whatever kinds of resolutions there are: everything before the resolutions, their
    number, the resolutions up to the first that differ in kind, the contract these resolve, and
    the miner fee. *)
Definition SameApartResolutions (t u : v2_transaction) : Prop :=
  siacoin_parents t = siacoin_parents u /\
  v2t_siacoin_outputs t = v2t_siacoin_outputs u /\
  siafund_parents t = siafund_parents u /\
  v2t_siafund_outputs t = v2t_siafund_outputs u /\
  Forall2 SameContract (vlist (v2t_file_contracts t)) (vlist (v2t_file_contracts u)) /\
  Forall2 SameRevision (vlist (v2t_file_contract_revisions t)) (vlist (v2t_file_contract_revisions u)) /\
  length (vlist (v2t_file_contract_resolutions t)) = length (vlist (v2t_file_contract_resolutions u)) /\
  (forall n,
     let rs := vlist (v2t_file_contract_resolutions t) in
     let ss := vlist (v2t_file_contract_resolutions u) in
     Forall2 (fun r s => SameKind (fcres_resolution r) (fcres_resolution s)) (firstn n rs) (firstn n ss) ->
     Forall2 SameResolution (firstn n rs) (firstn n ss) /\
     nth_error (map (fun r => fce_id (fcres_parent r)) rs) n = nth_error (map (fun r => fce_id (fcres_parent r)) ss) n) /\
  v2t_miner_fee t = v2t_miner_fee u.

(** The resolutions are of the same kinds in the same order. *)
Definition SameKinds (t u : v2_transaction) : Prop :=
  Forall2 (fun r s => SameKind (fcres_resolution r) (fcres_resolution s))
    (vlist (v2t_file_contract_resolutions t)) (vlist (v2t_file_contract_resolutions u)).

(** ** Objects signed in v2 *)

Inductive signed : Type :=
| SignedAttestation (a : attestation)
| SignedContract (c : v2_file_contract)
| SignedRenewal (r : file_contract_renewal)
| SignedInput (t : v2_transaction).

(** The hash that is signed. *)
Definition signed_hash (s : signed) (cs : chain_state) : hash256 :=
  match s with
  | SignedAttestation a => att_sig_hash a cs
  | SignedContract c => fc_sig_hash c cs
  | SignedRenewal r => ren_sig_hash r cs
  | SignedInput t => input_sig_hash t cs
  end.

(** The bytes it is the hash of. *)
Definition signed_bytes (s : signed) (cs : chain_state) : bytes :=
  match s with
  | SignedAttestation a => att_sig_preimage a cs
  | SignedContract c => fc_sig_preimage c cs
  | SignedRenewal r => ren_sig_preimage r cs
  | SignedInput t => input_sig_preimage t cs
  end.

Inductive kind := KAttestation | KContract | KRenewal | KInput.
Definition signed_kind (s : signed) : kind :=
  match s with
  | SignedAttestation _ => KAttestation
  | SignedContract _ => KContract
  | SignedRenewal _ => KRenewal
  | SignedInput _ => KInput
  end.

(** Contracts and renewals have an encoding of fixed size. *)
Definition fixed_size (s : signed) : Prop := signed_kind s = KContract \/ signed_kind s = KRenewal.
