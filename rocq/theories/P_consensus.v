(** Properties C30-C35: the consensus functions and the contract taxes. Each holds for both
    build profiles [p]; a result [Val r] says that the computation does not panic. *)

From Verif Require Import Base Io Model_encoding Model_common Model_currency Model_v1 Model_v2
  Model_consensus Model_networks SpecConsensus Samples ConsensusProofs ConsensusFnProofs SubsidyTotal.
Local Open Scope N_scope.

(** ** C30. The bound is height 340282366920937: several billion years of blocks. *)

Theorem C30_reward : forall p cs, (height cs + 1) * siacoin < 2 ^ 128 ->
  exists r, block_reward p cs = Val r /\
    uval r = N.max (uval (net_minimum_coinbase (cs_network cs)))
                   (uval (net_initial_coinbase (cs_network cs)) - (height cs + 1) * siacoin).
Proof. exact block_reward_spec. Qed.
Print Assumptions C30_reward.

Theorem C30_never_increases : forall p net s1 s2 r1 r2,
  (height (MkChainState net s2) + 1) * siacoin < 2 ^ 128 ->
  height (MkChainState net s1) <= height (MkChainState net s2) ->
  block_reward p (MkChainState net s1) = Val r1 ->
  block_reward p (MkChainState net s2) = Val r2 -> uval r2 <= uval r1.
Proof. exact block_reward_monotone. Qed.
Print Assumptions C30_never_increases.

(** The bound is needed. *)
Theorem C30_bound_needed :
  block_reward Debug (chain_at mainnet 340282366920938) = Panic ArithOverflow /\
  exists r1 r2, block_reward Release (chain_at mainnet 340282366920937) = Val r1 /\
    block_reward Release (chain_at mainnet 340282366920938) = Val r2 /\
    uval r1 = 30000 * siacoin /\ 299999 * siacoin < uval r2.
Proof. exact block_reward_overflow. Qed.
Print Assumptions C30_bound_needed.

Example C30_example : (height (chain_at mainnet 500000) + 1) * siacoin < 2 ^ 128 /\
  (exists r, block_reward Debug (chain_at mainnet 100000) = Val r /\ uval r = 199999 * siacoin) /\
  exists r, block_reward Release (chain_at mainnet 500000) = Val r /\ uval r = 30000 * siacoin.
Proof.
  split; [reflexivity|]. split; eexists; (split; [vm_compute; reflexivity|vm_compute; reflexivity]).
Qed.

(** ** C31 *)

(** Full statement, in three parts. It never panics: fails for a block interval of zero. *)
Theorem C31_panics_refuted : ~ (forall p cs, height cs + 1 < 2 ^ 64 ->
  exists o, foundation_subsidy p cs = Val o).
Proof. exact foundation_subsidy_panics. Qed.
Print Assumptions C31_panics_refuted.

(** The amount is that of the blocks covered: it is not multiplied by their number. *)
Theorem C31_amount_refuted : ~ (forall p cs out, foundation_subsidy p cs = Val (Some out) ->
  uval (sco_value out) = 30000 * siacoin * blocks_covered cs).
Proof. exact foundation_subsidy_amount. Qed.
Print Assumptions C31_amount_refuted.

(** It is paid to the address in the state: it is paid to the one in the network parameters. *)
Theorem C31_address_refuted : ~ (forall p cs out, foundation_subsidy p cs = Val (Some out) ->
  sco_address out = st_foundation_primary_address (cs_state cs)).
Proof. exact foundation_subsidy_address. Qed.
Print Assumptions C31_address_refuted.

(** The schedule is right, and the amount and address are these, when a month has at least one
    block interval. *)
Theorem C31_schedule_partial : forall p cs, height cs + 1 < 2 ^ 64 ->
  (0 < dur_ns (net_block_interval (cs_network cs)) <= month_ns)%Z ->
  exists o, foundation_subsidy p cs = Val o /\
    ((exists out, o = Some out) <-> subsidy_due cs) /\
    (forall out, o = Some out ->
       sco_address out = hff_primary_address (net_hardfork_foundation (cs_network cs)) /\
       uval (sco_value out) =
         (if height cs + 1 =? uval (hff_height (net_hardfork_foundation (cs_network cs))) then 12 else 1)
         * (30000 * siacoin)).
Proof. exact foundation_subsidy_when. Qed.
Print Assumptions C31_schedule_partial.

(** Otherwise it panics once the hardfork is reached. *)
Theorem C31_division_partial : forall p cs, height cs + 1 < 2 ^ 64 ->
  uval (hff_height (net_hardfork_foundation (cs_network cs))) <= height cs + 1 ->
  (dur_ns (net_block_interval (cs_network cs)) = 0 \/
   month_ns < dur_ns (net_block_interval (cs_network cs)))%Z ->
  foundation_subsidy p cs = Panic DivByZero.
Proof. exact foundation_subsidy_zero_interval. Qed.
Print Assumptions C31_division_partial.

Example C31_division_example : let cs := chain_at instant_network 300000 in
  height cs + 1 < 2 ^ 64 /\ uval (hff_height (net_hardfork_foundation (cs_network cs))) <= height cs + 1 /\
  dur_ns (net_block_interval (cs_network cs)) = 0%Z.
Proof. split; [reflexivity|]. split; [vm_compute; discriminate|reflexivity]. Qed.

(** For every height and block interval, negative ones included. At the largest height the
    child block's height overflows: a panic with overflow checks, height 0 without. *)
Theorem C31_outcome_partial : forall p cs,
  let fh := uval (hff_height (net_hardfork_foundation (cs_network cs))) in
  let interval := dur_ns (net_block_interval (cs_network cs)) in
  let h := (height cs + 1) mod 2 ^ 64 in
  (p = Debug -> height cs + 1 = 2 ^ 64 -> foundation_subsidy p cs = Panic ArithOverflow) /\
  (p = Release \/ height cs + 1 < 2 ^ 64 ->
   (h < fh -> foundation_subsidy p cs = Val None) /\
   (fh <= h -> (interval = 0 \/ month_ns < Z.abs interval)%Z -> foundation_subsidy p cs = Panic DivByZero) /\
   (fh <= h -> (interval <> 0)%Z -> (Z.abs interval <= month_ns)%Z ->
      (h - fh) mod month_blocks cs <> 0 -> foundation_subsidy p cs = Val None) /\
   (fh <= h -> (interval <> 0)%Z -> (Z.abs interval <= month_ns)%Z -> (h - fh) mod month_blocks cs = 0 ->
      exists out, foundation_subsidy p cs = Val (Some out) /\
        sco_address out = hff_primary_address (net_hardfork_foundation (cs_network cs)) /\
        uval (sco_value out) = (if h =? fh then 12 else 1) * (30000 * siacoin))).
Proof. exact subsidy_outcome. Qed.
Print Assumptions C31_outcome_partial.

Example C31_example : (0 < dur_ns (net_block_interval mainnet) <= month_ns)%Z /\
  subsidy_due (chain_at mainnet 297999) /\ subsidy_due (chain_at mainnet (297999 + 4380)) /\
  ~ subsidy_due (chain_at mainnet 298000).
Proof. exact (conj mainnet_interval mainnet_subsidies). Qed.

Example C31_outcome_example :
  height (chain_at mainnet (2 ^ 64 - 1)) + 1 = 2 ^ 64 /\
  month_blocks (chain_at mainnet 0) = 4380 /\
  month_blocks (MkChainState backward_network (cs_state (chain_at mainnet 0))) = 2 ^ 64 - 4380 /\
  (Z.abs (dur_ns (net_block_interval backward_network)) <= month_ns)%Z.
Proof. exact subsidy_examples. Qed.

(** ** C32 *)

Theorem C32_prefix : forall net s1 s2, ordered_forks net ->
  (replay_prefix (MkChainState net s1) = replay_prefix (MkChainState net s2) <->
   latest_fork (MkChainState net s1) = latest_fork (MkChainState net s2)).
Proof. exact replay_prefix_era. Qed.
Print Assumptions C32_prefix.

Theorem C32_values : forall cs,
  uval (hfa_height (net_hardfork_asic (cs_network cs))) <=
  uval (hff_height (net_hardfork_foundation (cs_network cs))) <=
  uval (hfv2_allow_height (net_hardfork_v2 (cs_network cs))) ->
  (height cs < uval (hfa_height (net_hardfork_asic (cs_network cs))) -> replay_prefix cs = []) /\
  (uval (hfa_height (net_hardfork_asic (cs_network cs))) <= height cs
     < uval (hff_height (net_hardfork_foundation (cs_network cs))) -> replay_prefix cs = [x00]) /\
  (uval (hff_height (net_hardfork_foundation (cs_network cs))) <= height cs
     < uval (hfv2_allow_height (net_hardfork_v2 (cs_network cs))) -> replay_prefix cs = [x01]) /\
  (uval (hfv2_allow_height (net_hardfork_v2 (cs_network cs))) <= height cs -> replay_prefix cs = [x02]).
Proof. exact replay_prefix_spec. Qed.
Print Assumptions C32_values.

(** The nonce factor is that of the child block. *)
Theorem C32_nonce_factor : forall p cs, height cs + 1 < 2 ^ 64 ->
  nonce_factor p cs = Val (uwrap 64
    (if height cs + 1 <? uval (hfa_height (net_hardfork_asic (cs_network cs))) then 1 else 1009)).
Proof. exact nonce_factor_spec. Qed.
Print Assumptions C32_nonce_factor.

Example C32_example : ordered_forks mainnet /\ ordered_forks zen /\ ordered_forks anagami.
Proof. exact networks_ordered. Qed.

(** ** C33 *)

Theorem C33_child : forall p cs, height cs + 1 < 2 ^ 64 ->
  exists h, child_height p cs = Val h /\ uval h = height cs + 1.
Proof. exact child_height_spec. Qed.
Print Assumptions C33_child.

Theorem C33_maturity : forall p cs,
  height cs + 1 + uval (net_maturity_delay (cs_network cs)) < 2 ^ 64 ->
  exists m, maturity_height p cs = Val m /\
    uval m = height cs + 1 + uval (net_maturity_delay (cs_network cs)).
Proof. exact maturity_height_spec. Qed.
Print Assumptions C33_maturity.

Theorem C33_child_increasing : forall p a b ha hb, height b + 1 < 2 ^ 64 -> height a < height b ->
  child_height p a = Val ha -> child_height p b = Val hb -> uval ha < uval hb.
Proof. exact child_height_increasing. Qed.
Print Assumptions C33_child_increasing.

Theorem C33_maturity_increasing : forall p net s1 s2 m1 m2,
  height (MkChainState net s2) + 1 + uval (net_maturity_delay net) < 2 ^ 64 ->
  height (MkChainState net s1) < height (MkChainState net s2) ->
  maturity_height p (MkChainState net s1) = Val m1 ->
  maturity_height p (MkChainState net s2) = Val m2 -> uval m1 < uval m2.
Proof. exact maturity_height_increasing. Qed.
Print Assumptions C33_maturity_increasing.

Example C33_increasing_example : height (chain_at mainnet 7) < height (chain_at mainnet 500000) /\
  exists a b, maturity_height Release (chain_at mainnet 7) = Val a /\
    maturity_height Release (chain_at mainnet 500000) = Val b.
Proof. split; [reflexivity|]. eexists _, _. split; reflexivity. Qed.

(** At the last height a debug build panics and a release build starts again at zero. *)
Theorem C33_bound_needed : forall cs, height cs = 2 ^ 64 - 1 ->
  child_height Debug cs = Panic ArithOverflow /\ child_height Release cs = Val (uwrap 64 0).
Proof. exact child_height_max. Qed.
Print Assumptions C33_bound_needed.

Example C33_bound_example : height (chain_at zen (2 ^ 64 - 1)) = 2 ^ 64 - 1.
Proof. reflexivity. Qed.

Example C33_example : height (chain_at mainnet 500000) + 1 + uval (net_maturity_delay mainnet) < 2 ^ 64 /\
  exists m, maturity_height Debug (chain_at mainnet 500000) = Val m /\ uval m = 500145.
Proof. split; [reflexivity|]. eexists; split; [vm_compute; reflexivity|reflexivity]. Qed.

(** ** C34. The hypothesis excludes only the last height, where the child height does not exist. *)

Theorem C34_tax : forall p fc cs, height cs + 1 < 2 ^ 64 ->
  exists r, v1_tax p fc cs = Val r /\
    uval r mod 10000 = 0 /\
    1000 * uval r <= 39 * uval (v1fc_payout fc) /\
    (uval (hft_height (net_hardfork_tax (cs_network cs))) <= height cs + 1 ->
     39 * uval (v1fc_payout fc) < 1000 * (uval r + 10000)).
Proof. exact v1_tax_spec. Qed.
Print Assumptions C34_tax.

(** Before the hardfork the rate is a 64-bit float, less exact for large payouts. *)
Theorem C34_before_hardfork : forall p fc cs, height cs + 1 < 2 ^ 64 ->
  exists r, v1_tax p fc cs = Val r /\
    39 * uval (v1fc_payout fc) < 1000 * (uval r + 10000) + uval (v1fc_payout fc) / 2 ^ 54 + 1.
Proof. exact v1_tax_before. Qed.
Print Assumptions C34_before_hardfork.

Theorem C34_monotone : forall p fc1 fc2 cs r1 r2, uval (v1fc_payout fc1) <= uval (v1fc_payout fc2) ->
  v1_tax p fc1 cs = Val r1 -> v1_tax p fc2 cs = Val r2 -> uval r1 <= uval r2.
Proof. exact v1_tax_monotone. Qed.
Print Assumptions C34_monotone.

Example C34_example : height (chain_at mainnet 500000) + 1 < 2 ^ 64 /\
  uval (hft_height (net_hardfork_tax mainnet)) <= 500001.
Proof. split; [reflexivity|]. vm_compute. discriminate. Qed.

(** ** C35 *)

(** Full statement. It fails when renter and host payouts add up to more than 128 bits. *)
Theorem C35_total_refuted : ~ (forall p fc cs, exists r, v2_tax p fc cs = Val r /\
  25 * uval r <= v2_payout fc /\ v2_payout fc < 25 * (uval r + 10000)).
Proof. exact v2_tax_fails. Qed.
Print Assumptions C35_total_refuted.

Theorem C35_tax_partial : forall p fc cs, v2_payout fc < 2 ^ 128 ->
  exists r, v2_tax p fc cs = Val r /\
    uval r mod 10000 = 0 /\ 25 * uval r <= v2_payout fc /\ v2_payout fc < 25 * (uval r + 10000).
Proof. exact v2_tax_spec. Qed.
Print Assumptions C35_tax_partial.

(** Beyond that a debug build panics and a release build taxes the wrapped sum. *)
Theorem C35_overflow_partial : forall fc cs, 2 ^ 128 <= v2_payout fc ->
  v2_tax Debug fc cs = Panic ArithOverflow /\
  v2_tax Release fc cs = Val (uwrap 128
    ((v2_payout fc - 2 ^ 128) / 25 - ((v2_payout fc - 2 ^ 128) / 25) mod 10000)).
Proof. exact v2_tax_overflow. Qed.
Print Assumptions C35_overflow_partial.

Example C35_overflow_example : exists fc, v2_payout fc = 2 ^ 128.
Proof.
  pose (o := MkSco (uwrap 128 (2 ^ 127)) zero_hash).
  exists (MkV2Fc (uwrap 64 0) (uwrap 64 0) zero_hash (uwrap 64 0) (uwrap 64 0) o o
    (uwrap 128 0) (uwrap 128 0) zero_hash zero_hash (uwrap 64 0) (arr_of 64 []) (arr_of 64 [])).
  reflexivity.
Qed.

Example C35_example : v2_payout s_v2_contract < 2 ^ 128 /\
  exists r, v2_tax Debug s_v2_contract (chain_at mainnet 0) = Val r /\ uval r = 80000.
Proof. split; [reflexivity|]. eexists; split; [vm_compute; reflexivity|reflexivity]. Qed.
