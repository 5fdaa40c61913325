(** Model of the identifier derivations, signature hashes and addresses of
    sia/src/types/common.rs, v1.rs, v2.rs and spendpolicy.rs.

    Each derivation is given as the bytes that are hashed, [.._preimage], and the hash. *)

From Verif Require Import Base Io Model_encoding Model_common Blake2b Model_currency Model_v1
  Model_policy Model_v2 Model_consensus Model_merkle.
Local Open Scope N_scope.

(** [(i as u64).to_le_bytes()] for a [usize] *)
Definition index_bytes (i : usize) : bytes := le_bytes 8 (uval i).

(** ** common.rs *)

(** common.rs:25-29 *)
Definition claim_output_preimage (id : hash256) : bytes := aval id.
Definition claim_output_id (id : hash256) : hash256 := hash (claim_output_preimage id).

(** common.rs:31-36 *)
Definition v2_claim_output_preimage (id : hash256) : bytes :=
  ascii "sia/id/v2siacoinclaimoutput|" ++ aval id.
Definition v2_claim_output_id (id : hash256) : hash256 := hash (v2_claim_output_preimage id).

(** common.rs:42, 44-49 *)
Definition foundation_output_preimage (id : hash256) : bytes :=
  aval id ++ aval (specifier_of_text "foundation").
Definition foundation_output_id (id : hash256) : hash256 := hash (foundation_output_preimage id).

(** common.rs:51-56 *)
Definition miner_output_preimage (id : hash256) (i : usize) : bytes := aval id ++ index_bytes i.
Definition miner_output_id (id : hash256) (i : usize) : hash256 :=
  hash (miner_output_preimage id i).

(** common.rs:67-73 *)
Definition v2_child_preimage (prefix : string) (id : hash256) (i : usize) : bytes :=
  ascii prefix ++ aval id ++ index_bytes i.

(** common.rs:62-65, 75-93 *)
Definition v2_siacoin_output_preimage := v2_child_preimage "sia/id/siacoinoutput|".
Definition v2_siafund_output_preimage := v2_child_preimage "sia/id/siafundoutput|".
Definition v2_file_contract_preimage := v2_child_preimage "sia/id/filecontract|".
Definition v2_attestation_preimage := v2_child_preimage "sia/id/attestation|".
Definition v2_siacoin_output_id (id : hash256) (i : usize) : hash256 :=
  hash (v2_siacoin_output_preimage id i).
Definition v2_siafund_output_id (id : hash256) (i : usize) : hash256 :=
  hash (v2_siafund_output_preimage id i).
Definition v2_file_contract_id (id : hash256) (i : usize) : hash256 :=
  hash (v2_file_contract_preimage id i).
Definition v2_attestation_id (id : hash256) (i : usize) : hash256 :=
  hash (v2_attestation_preimage id i).

(** common.rs:99, 103-110 *)
Definition proof_output_preimage (valid : bool) (id : hash256) (i : usize) : bytes :=
  aval (specifier_of_text "storage proof") ++ aval id ++ [if valid then x01 else x00] ++
  index_bytes i.
(** common.rs:120-128 *)
Definition valid_output_id (id : hash256) (i : usize) : hash256 :=
  hash (proof_output_preimage true id i).
Definition missed_output_id (id : hash256) (i : usize) : hash256 :=
  hash (proof_output_preimage false id i).

(** common.rs:100, 112-118 *)
Definition v2_proof_output_preimage (id : hash256) (i : usize) : bytes :=
  ascii "id/v2filecontractoutput" ++ aval id ++ index_bytes i.
(** common.rs:130-138 *)
Definition v2_renter_output_id (id : hash256) : hash256 :=
  hash (v2_proof_output_preimage id (uwrap 64 0)).
Definition v2_host_output_id (id : hash256) : hash256 :=
  hash (v2_proof_output_preimage id (uwrap 64 1)).

(** common.rs:101, 140-146 *)
Definition v2_renewal_preimage (id : hash256) : bytes :=
  ascii "id/v2filecontractrenewal" ++ aval id.
Definition v2_renewal_id (id : hash256) : hash256 := hash (v2_renewal_preimage id).

(** ** v1.rs *)

(** v1.rs:457-462 *)
Definition v1_transaction_id (t : v1_transaction) : hash256 := hash (wbytes (encode_no_sigs t)).

(** v1.rs:464-470 *)
Definition v1_child_preimage (prefix : string) (t : v1_transaction) (i : usize) : bytes :=
  aval (specifier_of_text prefix) ++ wbytes (encode_no_sigs t) ++ index_bytes i.
(** v1.rs:472-491 *)
Definition v1_siacoin_output_id (t : v1_transaction) (i : usize) : hash256 :=
  hash (v1_child_preimage "siacoin output" t i).
Definition v1_siafund_output_id (t : v1_transaction) (i : usize) : hash256 :=
  hash (v1_child_preimage "siafund output" t i).
Definition v1_file_contract_id (t : v1_transaction) (i : usize) : hash256 :=
  hash (v1_child_preimage "file contract" t i).

(** v1.rs:319-352 *)
Definition whole_sig_preimage (t : v1_transaction) (cs : chain_state) (parent_id : hash256)
  (public_key_index timelock : u64) : bytes :=
  le_bytes 8 (N.of_nat (length (vlist (v1t_siacoin_inputs t)))) ++
  concat (map (fun i => replay_prefix cs ++ wbytes (encode_v1_siacoin_input i))
              (vlist (v1t_siacoin_inputs t))) ++
  wbytes (encode_vec encode_v1_siacoin_output (v1t_siacoin_outputs t)) ++
  wbytes (encode_vec encode_v1_file_contract (v1t_file_contracts t)) ++
  wbytes (encode_vec encode_v1_file_contract_revision (v1t_file_contract_revisions t)) ++
  wbytes (encode_vec encode_v1_storage_proof (v1t_storage_proofs t)) ++
  le_bytes 8 (N.of_nat (length (vlist (v1t_siafund_inputs t)))) ++
  concat (map (fun i => replay_prefix cs ++ wbytes (encode_v1_siafund_input i))
              (vlist (v1t_siafund_inputs t))) ++
  wbytes (encode_vec encode_v1_siafund_output (v1t_siafund_outputs t)) ++
  wbytes (encode_vec encode_v1_currency (v1t_miner_fees t)) ++
  wbytes (encode_vec (encode_vec encode_u8) (v1t_arbitrary_data t)) ++
  aval parent_id ++
  wbytes (encode_u64 public_key_index) ++
  wbytes (encode_u64 timelock).

(** v1.rs:319-354. Encoding into a hash state does not fail. *)
Definition whole_sig_hash (t : v1_transaction) (cs : chain_state) (parent_id : hash256)
  (public_key_index timelock : u64) : hash256 :=
  hash (whole_sig_preimage t cs parent_id public_key_index timelock).

(** One of the loops of v1.rs:363-453. *)
Fixpoint cover {A} (msg : string) (enc : A -> bytes) (items : list A) (idx : list usize)
  : bytes + error :=
  match idx with
  | [] => inl []
  | i :: r =>
    if N.of_nat (length items) <=? uval i then inr (ECustom msg)
    else match nth_error items (N.to_nat (uval i)), cover msg enc items r with
         | Some x, inl rest => inl (enc x ++ rest)
         | _, inr e => inr e
         | None, _ => inr (ECustom msg)
         end
  end.

Definition cat_result (a b : bytes + error) : bytes + error :=
  match a with
  | inr e => inr e
  | inl x => match b with inr e => inr e | inl y => inl (x ++ y) end
  end.

(** v1.rs:356-454. The first out-of-range index, in the order of the loops, is reported. *)
Definition partial_sig_preimage (t : v1_transaction) (cs : chain_state) (cf : covered_fields)
  : bytes + error :=
  cat_result (cover "siacoin_inputs index out of bounds"
                (fun x => replay_prefix cs ++ wbytes (encode_v1_siacoin_input x))
                (vlist (v1t_siacoin_inputs t)) (vlist (cf_siacoin_inputs cf)))
  (cat_result (cover "siacoin_outputs index out of bounds"
                (fun x => wbytes (encode_v1_siacoin_output x))
                (vlist (v1t_siacoin_outputs t)) (vlist (cf_siacoin_outputs cf)))
  (cat_result (cover "file_contracts index out of bounds"
                (fun x => wbytes (encode_v1_file_contract x))
                (vlist (v1t_file_contracts t)) (vlist (cf_file_contracts cf)))
  (cat_result (cover "file_contract_revisions index out of bounds"
                (fun x => wbytes (encode_v1_file_contract_revision x))
                (vlist (v1t_file_contract_revisions t)) (vlist (cf_file_contract_revisions cf)))
  (cat_result (cover "storage_proofs index out of bounds"
                (fun x => wbytes (encode_v1_storage_proof x))
                (vlist (v1t_storage_proofs t)) (vlist (cf_storage_proofs cf)))
  (cat_result (cover "siafund_inputs index out of bounds"
                (fun x => replay_prefix cs ++ wbytes (encode_v1_siafund_input x))
                (vlist (v1t_siafund_inputs t)) (vlist (cf_siafund_inputs cf)))
  (cat_result (cover "siafund_outputs index out of bounds"
                (fun x => wbytes (encode_v1_siafund_output x))
                (vlist (v1t_siafund_outputs t)) (vlist (cf_siafund_outputs cf)))
  (cat_result (cover "miner_fees index out of bounds"
                (fun x => wbytes (encode_v1_currency x))
                (vlist (v1t_miner_fees t)) (vlist (cf_miner_fees cf)))
  (cat_result (cover "arbitrary_data index out of bounds"
                (fun x => wbytes (encode_vec encode_u8 x))
                (vlist (v1t_arbitrary_data t)) (vlist (cf_arbitrary_data cf)))
              (cover "signatures index out of bounds"
                (fun x => wbytes (encode_transaction_signature x))
                (vlist (v1t_signatures t)) (vlist (cf_signatures cf))))))))))).

(** v1.rs:356-455 *)
Definition partial_sig_hash (t : v1_transaction) (cs : chain_state) (cf : covered_fields)
  : hash256 + error :=
  match partial_sig_preimage t cs cf with inl b => inl (hash b) | inr e => inr e end.

(** v1.rs:125-153: the leaves of the address tree *)
Definition unlock_leaves (u : unlock_conditions) : list hash256 :=
  hash (x00 :: le_bytes 8 (uval (uc_timelock u))) ::
  map (fun k => hash (x00 :: wbytes (encode_unlock_key k))) (vlist (uc_public_keys u)) ++
  [hash (x00 :: le_bytes 8 (uval (uc_signatures_required u)))].

(** v1.rs:125-156 *)
Definition unlock_conditions_address (p : profile) (u : unlock_conditions) : outcome hash256 :=
  obind (add_leaves p acc_new (unlock_leaves u)) (fun a => Val (acc_root a)).

(** v1.rs:26, 77-84 *)
Definition algorithm_ed25519 : specifier := specifier_of_text "ed25519".

Lemma pk_vec_ok : forall pk : hash256,
  (N.of_nat (length (aval pk)) * 1 <=? isize_max) && (N.of_nat (length (aval pk)) <=? isize_max)
  = true.
Proof. intros pk. rewrite arr_len. reflexivity. Qed.

Definition unlock_key_of_public_key (pk : hash256) : unlock_key :=
  MkUnlockKey algorithm_ed25519 (MkVec (aval pk) (pk_vec_ok pk)).

(** v1.rs:117-123 *)
Definition standard_unlock_conditions (pk : hash256) : unlock_conditions :=
  MkUc (uwrap 64 0) (@MkVec 40 _ [unlock_key_of_public_key pk] eq_refl) (uwrap 64 1).

(** ** spendpolicy.rs *)

(** spendpolicy.rs:124-133 *)
Definition policy_threshold (n : u8) (of : list policy) : outcome policy :=
  if existsb (fun q => match q with PUnlockConditions _ => true | _ => false end) of
  then Panic AssertFailed else Val (PThreshold n of).

(** The addresses of the children of a threshold, or the first panic. *)
Fixpoint sequence_outcome {A} (l : list (outcome A)) : outcome (list A) :=
  match l with
  | [] => Val []
  | x :: r => obind x (fun a => obind (sequence_outcome r) (fun t => Val (a :: t)))
  end.

(** spendpolicy.rs:153-167 *)
Definition policy_address_preimage (q : policy) : bytes :=
  ascii "sia/address|" ++ wbytes (encode_policy q).

(** spendpolicy.rs:143-168 *)
Fixpoint policy_address (p : profile) (q : policy) : outcome hash256 :=
  match q with
  | PUnlockConditions uc => unlock_conditions_address p uc
  | POpaque addr => Val addr
  | PThreshold n of =>
    obind (sequence_outcome (map (policy_address p) of)) (fun addrs =>
    Val (hash (policy_address_preimage (PThreshold n (map POpaque addrs)))))
  | _ => Val (hash (policy_address_preimage q))
  end.

(** ** v2.rs *)

(** v2.rs:47-53 *)
Definition att_sig_preimage (a : attestation) (cs : chain_state) : bytes :=
  ascii "sia/sig/attestation|" ++ replay_prefix cs ++ wbytes (att_encode_semantics a).
Definition att_sig_hash (a : attestation) (cs : chain_state) : hash256 :=
  hash (att_sig_preimage a cs).

(** v2.rs:104-110 *)
Definition fc_sig_preimage (c : v2_file_contract) (cs : chain_state) : bytes :=
  ascii "sia/sig/filecontract|" ++ replay_prefix cs ++ wbytes (fc_encode_semantics c).
Definition fc_sig_hash (c : v2_file_contract) (cs : chain_state) : hash256 :=
  hash (fc_sig_preimage c cs).

(** v2.rs:231-237 *)
Definition ren_sig_preimage (r : file_contract_renewal) (cs : chain_state) : bytes :=
  ascii "sia/sig/filecontractrenewal|" ++ replay_prefix cs ++ wbytes (ren_encode_semantics r).
Definition ren_sig_hash (r : file_contract_renewal) (cs : chain_state) : hash256 :=
  hash (ren_sig_preimage r cs).

(** v2.rs:514-518 *)
Definition v2_transaction_preimage (t : v2_transaction) : bytes :=
  wbytes (txn_encode_semantics t).
Definition v2_transaction_id (t : v2_transaction) : hash256 := hash (v2_transaction_preimage t).

(** v2.rs:520-526 *)
Definition input_sig_preimage (t : v2_transaction) (cs : chain_state) : bytes :=
  ascii "sia/sig/input|" ++ replay_prefix cs ++ wbytes (txn_encode_semantics t).
Definition input_sig_hash (t : v2_transaction) (cs : chain_state) : hash256 :=
  hash (input_sig_preimage t cs).
