(** Concrete values used by the examples that accompany the theorems. *)

From Verif Require Import Base Io Model_encoding Model_common Model_v1 Model_policy Model_v2
  Model_consensus.
Local Open Scope N_scope.

Definition s_hash (n : N) : hash256 := arr_of 32 [n2b n; n2b (n + 1)].
Definition s_sig (n : N) : signature := arr_of 64 [n2b n; n2b (n + 1)].
Definition s_u64 (n : N) : u64 := uwrap 64 n.
Definition s_cur (n : N) : currency := uwrap 128 n.

Lemma s_time_ok : ((ts_min <=? 1700000000)%Z && (1700000000 <=? ts_max)%Z && (0 <? 1000000000)) = true.
Proof. reflexivity. Qed.
Definition s_time : odt := MkOdt 1700000000 0 s_time_ok.

Definition s_unlock_key : unlock_key :=
  MkUnlockKey (arr_of 16 (ascii "ed25519")) (@MkVec 1 u8 (aval (s_hash 7)) eq_refl).
Definition s_unlock_conditions : unlock_conditions :=
  MkUc (s_u64 0) (@MkVec 40 _ [s_unlock_key; s_unlock_key] eq_refl) (s_u64 1).

(** A policy of depth 4 with one child of every kind. *)
Definition s_policy : policy :=
  PThreshold x02 [PAbove (s_u64 1000); PAfter s_time; PPublicKey (s_hash 1);
                  PThreshold x01 [PHash (s_hash 2); POpaque (s_hash 3);
                                  PThreshold x01 [PUnlockConditions s_unlock_conditions]]].

Definition s_satisfied : satisfied_policy :=
  MkSatisfied s_policy (@MkVec 64 _ [s_sig 1; s_sig 2] eq_refl) (@MkVec 32 _ [s_hash 4] eq_refl).

Definition s_state_element : state_element :=
  MkSe (s_u64 5) (@MkVec 32 _ [s_hash 5; s_hash 6] eq_refl).
Definition s_siacoin_output : siacoin_output := MkSco (s_cur 1000000) (s_hash 8).
Definition s_siafund_output : siafund_output := MkSfo (s_u64 300) (s_hash 9).

Definition s_v2_siacoin_input : v2_siacoin_input :=
  MkV2Sci (MkSce s_state_element (s_hash 10) s_siacoin_output (s_u64 144)) s_satisfied.
Definition s_v2_siafund_input : v2_siafund_input :=
  MkV2Sfi (MkSfe s_state_element (s_hash 11) s_siafund_output (s_cur 3)) (s_hash 12) s_satisfied.

Definition s_v2_contract : v2_file_contract :=
  MkV2Fc (s_u64 4096) (s_u64 2048) (s_hash 13) (s_u64 100) (s_u64 200)
    s_siacoin_output s_siacoin_output (s_cur 10) (s_cur 20) (s_hash 14) (s_hash 15) (s_u64 1)
    (s_sig 3) (s_sig 4).
Definition s_fce : file_contract_element := MkFce s_state_element (s_hash 16) s_v2_contract.
Definition s_renewal : file_contract_renewal :=
  MkRen s_v2_contract s_v2_contract (s_cur 1) (s_cur 2) (s_sig 5) (s_sig 6).
Definition s_v2_storage_proof : v2_storage_proof :=
  MkV2Sp (MkCie s_state_element (s_hash 17) (MkChainIndex (s_u64 77) (s_hash 18)))
    (arr_of 64 [x01]) (@MkVec 32 _ [s_hash 19] eq_refl).

Definition s_attestation : attestation :=
  MkAtt (s_hash 20) (MkStr (@MkVec 1 u8 (ascii "HostAnnouncement") eq_refl) eq_refl)
    (@MkVec 1 u8 [x01; x02; x03] eq_refl) (s_sig 7).

(** A v2 transaction with every section present. *)
Definition s_v2_transaction : v2_transaction :=
  MkV2Txn (@MkVec 224 _ [s_v2_siacoin_input] eq_refl)
    (@MkVec 48 _ [s_siacoin_output; s_siacoin_output] eq_refl)
    (@MkVec 256 _ [s_v2_siafund_input] eq_refl)
    (@MkVec 40 _ [s_siafund_output] eq_refl)
    (@MkVec 400 _ [s_v2_contract] eq_refl)
    (@MkVec 864 _ [MkV2Fcr s_fce s_v2_contract] eq_refl)
    (@MkVec 1440 _ [MkFcres s_fce (ResRenewal s_renewal);
                    MkFcres s_fce (ResStorageProof s_v2_storage_proof);
                    MkFcres s_fce ResExpiration] eq_refl)
    (@MkVec 144 _ [s_attestation] eq_refl)
    (@MkVec 1 u8 [x61; x62] eq_refl) (Some (s_hash 21)) (s_cur 1000).

Definition s_v2_empty : v2_transaction :=
  MkV2Txn vec_nil vec_nil vec_nil vec_nil vec_nil vec_nil vec_nil vec_nil vec_nil None (s_cur 0).

Definition s_v1_contract : v1_file_contract :=
  MkV1Fc (s_u64 4096) (s_hash 22) (s_u64 10) (s_u64 20) (s_cur 500)
    (@MkVec 48 _ [s_siacoin_output] eq_refl) (@MkVec 48 _ [s_siacoin_output] eq_refl)
    (s_hash 23) (s_u64 0).
Definition s_v1_revision : v1_file_contract_revision :=
  MkV1Fcr (s_hash 24) s_unlock_conditions (s_u64 2) (s_u64 4096) (s_hash 25) (s_u64 10) (s_u64 20)
    (@MkVec 48 _ [s_siacoin_output] eq_refl) (@MkVec 48 _ [] eq_refl) (s_hash 26).
Definition s_covered : covered_fields :=
  MkCf false (@MkVec 8 usize [uwrap 64 0] eq_refl) vec_nil vec_nil vec_nil vec_nil vec_nil vec_nil
    vec_nil vec_nil vec_nil.
Definition s_v1_signature : transaction_signature :=
  MkTs (s_hash 27) (s_u64 0) (s_u64 0) s_covered (@MkVec 1 u8 (aval (s_sig 8)) eq_refl).

(** A v1 transaction with every section present. *)
Definition s_v1_transaction : v1_transaction :=
  MkV1Txn (@MkVec 72 _ [MkV1Sci (s_hash 28) s_unlock_conditions] eq_refl)
    (@MkVec 48 _ [s_siacoin_output] eq_refl)
    (@MkVec 160 _ [s_v1_contract] eq_refl)
    (@MkVec 216 _ [s_v1_revision] eq_refl)
    (@MkVec 120 _ [MkV1Sp (s_hash 29) (arr_of 64 [x02]) (@MkVec 32 _ [s_hash 30] eq_refl)] eq_refl)
    (@MkVec 104 _ [MkV1Sfi (s_hash 31) s_unlock_conditions (s_hash 32)] eq_refl)
    (@MkVec 40 _ [s_siafund_output] eq_refl)
    (@MkVec 16 _ [s_cur 7] eq_refl)
    (@MkVec 24 _ [@MkVec 1 u8 [x01; x02] eq_refl] eq_refl)
    (@MkVec 320 _ [s_v1_signature] eq_refl).

Definition s_block : block :=
  MkBlock (s_hash 33) (s_u64 42) s_time (@MkVec 48 _ [s_siacoin_output] eq_refl)
    (@MkVec 240 _ [s_v1_transaction] eq_refl).

Definition s_accumulator : element_accumulator :=
  MkEa (s_u64 5) (@MkFarr 64 hash256 (s_hash 34 :: zero_hash :: s_hash 35 :: repeat zero_hash 61) eq_refl).


Definition s_state (height : N) (ts : list odt) (k : Nat.eqb (length ts) 11 = true) : state :=
  MkState (MkChainIndex (s_u64 height) (s_hash 36)) (@MkFarr 11 odt ts k)
    (s_hash 37) (s_hash 38) (s_cur 5) (nanoseconds (swrap 64 w64_nz 1000)) (s_hash 39) (s_hash 40)
    (s_hash 41) (uwrap 256 6) (uwrap 256 7) (uwrap 256 8) s_accumulator (s_u64 9).

(** A state at height 2: three timestamps are meaningful. *)
Definition s_state_2 : state :=
  s_state 2 (repeat s_time 3 ++ repeat unix_epoch 8) eq_refl.
