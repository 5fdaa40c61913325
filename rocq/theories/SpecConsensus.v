(** Specification: the vocabulary of the consensus properties. *)

From Verif Require Import Base Io Model_encoding Model_common Model_v1 Model_consensus.
Local Open Scope N_scope.

(** The height of the last block. *)
Definition height (cs : chain_state) : N := uval (ci_height (st_index (cs_state cs))).

(** Hastings in a siacoin. *)
Definition siacoin : N := 10 ^ 24.

(** Nanoseconds in a month of 365/12 days. *)
Definition month_ns : Z := (365 * 24 * 60 * 60 * 1000000000 / 12)%Z.

(** The child block is at the foundation hardfork, or a whole number of months after it. *)
Definition subsidy_due (cs : chain_state) : Prop :=
  exists k, height cs + 1 =
    uval (hff_height (net_hardfork_foundation (cs_network cs))) +
    k * Z.to_N (month_ns / dur_ns (net_block_interval (cs_network cs))).

(** The number of blocks in a month as the code counts them, for a block interval of either
    sign that is not longer than a month: a negative number is taken modulo [2^64]. *)
Definition month_blocks (cs : chain_state) : N :=
  let d := dur_ns (net_block_interval (cs_network cs)) in
  if (0 <? d)%Z then Z.to_N (month_ns / d) else 2 ^ 64 - Z.to_N (month_ns / - d).

(** How many blocks a subsidy paid in the child block covers: a year for the first one, a
    month for the others. *)
Definition blocks_covered (cs : chain_state) : N :=
  (if height cs + 1 =? uval (hff_height (net_hardfork_foundation (cs_network cs))) then 12 else 1) *
  Z.to_N (month_ns / dur_ns (net_block_interval (cs_network cs))).

(** The hardforks that change the replay prefix are in chronological order. *)
Definition ordered_forks (n : network) : Prop :=
  uval (hfa_height (net_hardfork_asic n)) <= uval (hff_height (net_hardfork_foundation n)) /\
  uval (hff_height (net_hardfork_foundation n)) <= uval (hfv2_allow_height (net_hardfork_v2 n)).

(** The latest of them that is active at the current height. *)
Inductive fork := NoFork | AsicFork | FoundationFork | V2Fork.
Definition latest_fork (cs : chain_state) : fork :=
  if height cs <? uval (hfa_height (net_hardfork_asic (cs_network cs))) then NoFork
  else if height cs <? uval (hff_height (net_hardfork_foundation (cs_network cs))) then AsicFork
  else if height cs <? uval (hfv2_allow_height (net_hardfork_v2 (cs_network cs))) then FoundationFork
  else V2Fork.

(** The total paid out by a v2 contract. *)
Definition v2_payout (fc : Model_v2.v2_file_contract) : N :=
  uval (sco_value (Model_v2.v2fc_renter_output fc)) + uval (sco_value (Model_v2.v2fc_host_output fc)).
