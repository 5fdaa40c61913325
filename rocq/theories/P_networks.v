(** Property C57: the built-in networks. The documents and the mining totals are those of
    SpecNetworks.v. Blocks are counted from the genesis block, 0; the child of a state of height
    [h] is block [h + 1]. *)

From Verif Require Import Base Io Model_encoding Model_common Model_currency Model_text Model_json Model_jsontypes
  Model_consensus Model_networks SpecConsensus SpecNetworks NetworkProofs.
Local Open Scope N_scope.

(** The parameters are the published ones, with the checksums of all addresses. *)
Theorem C57_parameters : forall p,
  c_ser (j_network p) mainnet = JOk mainnet_document /\
  c_ser (j_network p) zen = JOk zen_document /\
  c_ser (j_network p) anagami = JOk anagami_document.
Proof. exact documents. Qed.
Print Assumptions C57_parameters.

Theorem C57_parameters_read : forall p,
  c_de (j_network p) mainnet_document = JOk mainnet /\
  c_de (j_network p) zen_document = JOk zen /\
  c_de (j_network p) anagami_document = JOk anagami.
Proof. exact documents_read. Qed.
Print Assumptions C57_parameters_read.

(** Block rewards *)
Theorem C57_mainnet_reward : forall p s, plausible (height (MkChainState mainnet s) + 1) ->
  exists r, block_reward p (MkChainState mainnet s) = Val r /\
    uval r = mainnet_coins (height (MkChainState mainnet s) + 1) * siacoin.
Proof. exact mainnet_reward. Qed.
Print Assumptions C57_mainnet_reward.

Theorem C57_testnet_reward : forall p net s, net = zen \/ net = anagami ->
  plausible (height (MkChainState net s) + 1) ->
  exists r, block_reward p (MkChainState net s) = Val r /\ uval r = 300000 * siacoin.
Proof. exact testnet_reward. Qed.
Print Assumptions C57_testnet_reward.

(** The rewards [r 1], ..., [r n] of the first [n] blocks of the main network add up. *)
Theorem C57_mined : forall p n r, plausible (N.of_nat n) ->
  (forall s, height (MkChainState mainnet s) < N.of_nat n ->
     exists c, block_reward p (MkChainState mainnet s) = Val c /\ uval c = r (height (MkChainState mainnet s) + 1)) ->
  total r n = mainnet_mined (N.of_nat n) * siacoin.
Proof. exact mined. Qed.
Print Assumptions C57_mined.

(** The Foundation is paid every 4380 blocks, and in no other block. *)
Theorem C57_subsidies : forall p net s first,
  (net = mainnet /\ first = 298000) \/ ((net = zen \/ net = anagami) /\ first = 30) ->
  height (MkChainState net s) + 1 < 2 ^ 64 ->
  exists o, foundation_subsidy p (MkChainState net s) = Val o /\
    (o <> None <-> exists k, height (MkChainState net s) + 1 = first + 4380 * k) /\
    (forall out, o = Some out -> sco_address out = hff_primary_address (net_hardfork_foundation net) /\
       uval (sco_value out) = (if height (MkChainState net s) + 1 =? first then 360000 else 30000) * siacoin).
Proof. exact subsidies. Qed.
Print Assumptions C57_subsidies.

(** Signature hashes change with the hardforks; the nonce factor is that of the child block. *)
Theorem C57_replay_prefix : forall net s asic foundation v2,
  (net = mainnet /\ asic = 179000 /\ foundation = 298000 /\ v2 = 1000000) \/
  (net = zen /\ asic = 20 /\ foundation = 30 /\ v2 = 100000) \/
  (net = anagami /\ asic = 20 /\ foundation = 30 /\ v2 = 2016) ->
  replay_prefix (MkChainState net s) =
    (if height (MkChainState net s) <? asic then []
     else if height (MkChainState net s) <? foundation then [x00]
     else if height (MkChainState net s) <? v2 then [x01] else [x02]).
Proof. exact eras. Qed.
Print Assumptions C57_replay_prefix.

Theorem C57_nonce_factor : forall p net s asic,
  (net = mainnet /\ asic = 179000) \/ ((net = zen \/ net = anagami) /\ asic = 20) ->
  height (MkChainState net s) + 1 < 2 ^ 64 ->
  exists f, nonce_factor p (MkChainState net s) = Val f /\
    uval f = (if height (MkChainState net s) + 1 <? asic then 1 else 1009).
Proof. exact nonce_factors. Qed.
Print Assumptions C57_nonce_factor.

(** Outputs created in the child block mature 144 blocks later. *)
Theorem C57_maturity : forall p net s, net = mainnet \/ net = zen \/ net = anagami ->
  height (MkChainState net s) + 145 < 2 ^ 64 ->
  exists m, maturity_height p (MkChainState net s) = Val m /\ uval m = height (MkChainState net s) + 145.
Proof. exact maturities. Qed.
Print Assumptions C57_maturity.

Example C57_example : plausible (height (chain_at mainnet 500000) + 1) /\
  mainnet_coins 1 = 299999 /\ mainnet_coins 269999 = 30001 /\ mainnet_coins 270000 = 30000 /\ mainnet_coins 500001 = 30000 /\
  mainnet_mined 3 = 299999 + 299998 + 299997 /\
  forall p, exists r, forall s, height (MkChainState mainnet s) < 1000000 ->
    exists c, block_reward p (MkChainState mainnet s) = Val c /\ uval c = r (height (MkChainState mainnet s) + 1).
Proof.
  repeat (split; [reflexivity|]). intros p. exists (fun h => mainnet_coins h * siacoin). intros s H.
  apply mainnet_reward. unfold plausible. apply N.lt_trans with 1000001; [|reflexivity].
  rewrite N.add_1_r. apply (proj1 (N.succ_lt_mono _ 1000000)). exact H.
Qed.
