(** Model of the network constants of sia/src/consensus.rs. *)

From Verif Require Import Base Io Model_encoding Model_common Model_currency Model_consensus
  Model_text.
Local Open Scope N_scope.

(** A value that is computed without panic; [NetworkProofs.v] proves that for every use. *)
Definition const_value {A} (default : A) (o : outcome A) : A :=
  match o with Val a => a | Panic _ => default end.

Definition const_siacoins (n : N) : currency := const_value currency_zero (siacoins Debug (uwrap 64 n)).
Definition const_address (s : string) : hash256 := const_value zero_hash (address_literal (ascii s)).

(** [Duration::seconds(n)] for a non-negative [n] of at most 32 bits *)
Lemma seconds_ok : forall n : u32,
  (dur_min <=? Z.of_N (uval n) * 1000000000)%Z && (Z.of_N (uval n) * 1000000000 <=? dur_max)%Z = true.
Proof.
  intros n. pose proof (uint_lt 32 n) as H. change (2 ^ 32) with 4294967296 in H.
  unfold dur_min, dur_max. change (2 ^ 63)%Z with 9223372036854775808%Z. lia.
Qed.
Definition seconds (n : N) : duration :=
  MkDur (Z.of_N (uval (uwrap 32 n)) * 1000000000)%Z (seconds_ok (uwrap 32 n)).

(** consensus.rs:98-103 *)
Definition const_timestamp (secs : Z) : odt :=
  match from_unix_timestamp (swrap 64 w64_nz secs) with Some t => t | None => unix_epoch end.

(** A target with one byte [b] at index [i] and zeros elsewhere. *)
Definition target (i : nat) (b : byte) : hash256 :=
  arr_of 32 (repeat x00 i ++ [b] ++ repeat x00 (31 - i)).

(** "mainnet" and so on, [.to_string()] *)
Definition mainnet_name : rstring := MkStr (@MkVec 1 byte (ascii "mainnet") eq_refl) eq_refl.
Definition zen_name : rstring := MkStr (@MkVec 1 byte (ascii "zen") eq_refl) eq_refl.
Definition anagami_name : rstring := MkStr (@MkVec 1 byte (ascii "anagami") eq_refl) eq_refl.

(** consensus.rs:106-156 *)
Definition mainnet : network := {|
  net_name := mainnet_name;
  net_initial_coinbase := const_siacoins 300000;
  net_minimum_coinbase := const_siacoins 30000;
  net_initial_target := target 4 x20;
  net_block_interval := seconds 600;
  net_maturity_delay := uwrap 64 144;
  net_hardfork_dev_addr := {|
    hfda_height := uwrap 64 10000;
    hfda_old_address := const_address
      "7d0c44f7664e2d34e53efde0661a6f628ec9264785ae8e3cd7c973e8d190c3c97b5e3ecbc567";
    hfda_new_address := const_address
      "f371c70bce9eb8979cd5099f599ec4e4fcb14e0afcf31f9791e03e6496a4c0b358c98279730b" |};
  net_hardfork_tax := {| hft_height := uwrap 64 21000 |};
  net_hardfork_storage_proof := {| hfsp_height := uwrap 64 100000 |};
  net_hardfork_oak := {|
    hfo_height := uwrap 64 135000;
    hfo_fix_height := uwrap 64 139000;
    hfo_genesis_timestamp := const_timestamp 1433600000 |};
  net_hardfork_asic := {|
    hfa_height := uwrap 64 179000;
    hfa_oak_time := seconds 120000;
    hfa_oak_target := target 8 x20 |};
  net_hardfork_foundation := {|
    hff_height := uwrap 64 298000;
    hff_primary_address := const_address
      "053b2def3cbdd078c19d62ce2b4f0b1a3c5e0ffbeeff01280efb1f8969b2f5bb4fdc680f0807";
    hff_failsafe_address := const_address
      "27c22a6c6e6645802a3b8fa0e5374657438ef12716d2205d3e866272de1b644dbabd53d6d560" |};
  net_hardfork_v2 := {|
    hfv2_allow_height := uwrap 64 1000000;
    hfv2_require_height := uwrap 64 1025000 |} |}.

(** consensus.rs:158-202 *)
Definition zen : network := {|
  net_name := zen_name;
  net_initial_coinbase := const_siacoins 300000;
  net_minimum_coinbase := const_siacoins 300000;
  net_initial_target := target 3 x01;
  net_block_interval := seconds 600;
  net_maturity_delay := uwrap 64 144;
  net_hardfork_dev_addr := {|
    hfda_height := uwrap 64 1;
    hfda_old_address := zero_hash;
    hfda_new_address := zero_hash |};
  net_hardfork_tax := {| hft_height := uwrap 64 2 |};
  net_hardfork_storage_proof := {| hfsp_height := uwrap 64 5 |};
  net_hardfork_oak := {|
    hfo_height := uwrap 64 10;
    hfo_fix_height := uwrap 64 12;
    hfo_genesis_timestamp := const_timestamp 1673600000 |};
  net_hardfork_asic := {|
    hfa_height := uwrap 64 20;
    hfa_oak_time := seconds 10000;
    hfa_oak_target := target 3 x01 |};
  net_hardfork_foundation := {|
    hff_height := uwrap 64 30;
    hff_primary_address := const_address
      "053b2def3cbdd078c19d62ce2b4f0b1a3c5e0ffbeeff01280efb1f8969b2f5bb4fdc680f0807";
    hff_failsafe_address := zero_hash |};
  net_hardfork_v2 := {|
    hfv2_allow_height := uwrap 64 100000;
    hfv2_require_height := uwrap 64 102000 |} |}.

(** consensus.rs:204-248 *)
Definition anagami : network := {|
  net_name := anagami_name;
  net_initial_coinbase := const_siacoins 300000;
  net_minimum_coinbase := const_siacoins 300000;
  net_initial_target := target 3 x01;
  net_block_interval := seconds 600;
  net_maturity_delay := uwrap 64 144;
  net_hardfork_dev_addr := {|
    hfda_height := uwrap 64 1;
    hfda_old_address := zero_hash;
    hfda_new_address := zero_hash |};
  net_hardfork_tax := {| hft_height := uwrap 64 2 |};
  net_hardfork_storage_proof := {| hfsp_height := uwrap 64 5 |};
  net_hardfork_oak := {|
    hfo_height := uwrap 64 10;
    hfo_fix_height := uwrap 64 12;
    hfo_genesis_timestamp := const_timestamp 1724284800 |};
  net_hardfork_asic := {|
    hfa_height := uwrap 64 20;
    hfa_oak_time := seconds 10000;
    hfa_oak_target := target 3 x01 |};
  net_hardfork_foundation := {|
    hff_height := uwrap 64 30;
    hff_primary_address := const_address
      "241352c83da002e61f57e96b14f3a5f8b5de22156ce83b753ea495e64f1affebae88736b2347";
    hff_failsafe_address := zero_hash |};
  net_hardfork_v2 := {|
    hfv2_allow_height := uwrap 64 2016;
    hfv2_require_height := uwrap 64 2304 |} |}.

(** A chain state at a given height of a network, for examples: every other field is zero. *)
Definition state_at (h : N) : state := {|
  st_index := MkChainIndex (uwrap 64 h) zero_hash;
  st_prev_timestamps := @MkFarr 11 odt (repeat unix_epoch 11) eq_refl;
  st_depth := zero_hash;
  st_child_target := zero_hash;
  st_siafund_pool := currency_zero;
  st_oak_time := seconds 0;
  st_oak_target := zero_hash;
  st_foundation_primary_address := zero_hash;
  st_foundation_failsafe_address := zero_hash;
  st_total_work := uwrap 256 0;
  st_difficulty := uwrap 256 0;
  st_oak_work := uwrap 256 0;
  st_elements := element_accumulator_default;
  st_attestations := uwrap 64 0 |}.
Definition chain_at (n : network) (h : N) : chain_state := MkChainState n (state_at h).
