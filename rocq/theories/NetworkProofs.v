(** Proofs for the built-in networks (P_networks.v). *)

From Verif Require Import Base Io Model_encoding Model_common Model_currency Model_text Model_json Model_jsontypes
  Model_consensus Model_networks SpecConsensus SpecJson SpecNetworks ConsensusFnProofs JsonProofs JsonMore JsonExamples.
Local Open Scope N_scope.

Lemma plausible_small : forall h, plausible h -> h * siacoin < 2 ^ 128 /\ h < 2 ^ 64.
Proof.
  intros h H. unfold plausible in H. unfold siacoin. change (10 ^ 24) with 1000000000000000000000000.
  change (2 ^ 128) with 340282366920938463463374607431768211456. change (2 ^ 64) with 18446744073709551616. lia.
Qed.

Lemma mainnet_initial : uval (net_initial_coinbase mainnet) = 300000 * siacoin.
Proof. vm_compute. reflexivity. Qed.
Lemma mainnet_minimum : uval (net_minimum_coinbase mainnet) = 30000 * siacoin.
Proof. vm_compute. reflexivity. Qed.
Lemma zen_coinbase : uval (net_initial_coinbase zen) = 300000 * siacoin /\ uval (net_minimum_coinbase zen) = 300000 * siacoin.
Proof. vm_compute. auto. Qed.
Lemma anagami_coinbase :
  uval (net_initial_coinbase anagami) = 300000 * siacoin /\ uval (net_minimum_coinbase anagami) = 300000 * siacoin.
Proof. vm_compute. auto. Qed.

Lemma mainnet_reward : forall p s, plausible (height (MkChainState mainnet s) + 1) ->
  exists r, block_reward p (MkChainState mainnet s) = Val r /\
    uval r = mainnet_coins (height (MkChainState mainnet s) + 1) * siacoin.
Proof.
  intros p s H. pose proof (proj1 (plausible_small _ H)) as B.
  destruct (block_reward_spec p _ B) as (r & E & V). exists r. split; [exact E|]. rewrite V.
  change (cs_network (MkChainState mainnet s)) with mainnet. rewrite mainnet_initial, mainnet_minimum.
  revert H. generalize (height (MkChainState mainnet s) + 1). intros h H.
  unfold mainnet_coins. unfold siacoin. change (10 ^ 24) with 1000000000000000000000000.
  destruct (N.leb_spec h 270000); lia.
Qed.

Lemma testnet_reward : forall p net s, net = zen \/ net = anagami -> plausible (height (MkChainState net s) + 1) ->
  exists r, block_reward p (MkChainState net s) = Val r /\ uval r = 300000 * siacoin.
Proof.
  intros p net s N H. pose proof (proj1 (plausible_small _ H)) as B.
  destruct (block_reward_spec p _ B) as (r & E & V). exists r. split; [exact E|]. rewrite V.
  change (cs_network (MkChainState net s)) with net.
  revert H. generalize (height (MkChainState net s) + 1). intros h H.
  destruct N as [-> | ->].
  - destruct zen_coinbase as [-> ->]. unfold siacoin. change (10 ^ 24) with 1000000000000000000000000. lia.
  - destruct anagami_coinbase as [-> ->]. unfold siacoin. change (10 ^ 24) with 1000000000000000000000000. lia.
Qed.

Lemma height_at : forall net h, h < 2 ^ 64 -> height (chain_at net h) = h.
Proof. intros net h H. unfold height, chain_at, state_at. cbn [cs_state st_index ci_height]. now apply uwrap_small. Qed.

Lemma twice_triangle : forall n, 2 * (n * (n + 1) / 2) = n * (n + 1).
Proof.
  intros n. symmetry. apply N.div_exact; [lia|]. destruct (N.Even_or_Odd n) as [[k ->]|[k ->]].
  - replace (2 * k * (2 * k + 1)) with (k * (2 * k + 1) * 2) by lia. now apply N.mod_mul.
  - replace ((2 * k + 1) * (2 * k + 1 + 1)) with ((2 * k + 1) * (k + 1) * 2) by lia. now apply N.mod_mul.
Qed.

Lemma mined_step : forall n, mainnet_mined (n + 1) = mainnet_mined n + mainnet_coins (n + 1).
Proof.
  intros n. unfold mainnet_mined, mainnet_coins.
  pose proof (twice_triangle n) as T. pose proof (twice_triangle (n + 1)) as T'.
  revert T T'. generalize (n * (n + 1) / 2) as a. generalize ((n + 1) * (n + 1 + 1) / 2) as b. intros b a T T'.
  change (300000 * 270000 - 270000 * 270001 / 2) with 44549865000.
  destruct (N.leb_spec n 270000), (N.leb_spec (n + 1) 270000); try lia.
  - assert (b = a + n + 1) by lia. assert (2 * a <= n * 270001) by nia. lia.
  - assert (n = 270000) by lia. subst n. lia.
Qed.

Lemma mined : forall p n r, plausible (N.of_nat n) ->
  (forall s, height (MkChainState mainnet s) < N.of_nat n ->
     exists c, block_reward p (MkChainState mainnet s) = Val c /\ uval c = r (height (MkChainState mainnet s) + 1)) ->
  total r n = mainnet_mined (N.of_nat n) * siacoin.
Proof.
  intros p n. induction n as [|n IH]; intros r B H; [reflexivity|]. cbn [total].
  assert (B' : plausible (N.of_nat n)) by (unfold plausible in *; lia).
  rewrite IH; [|exact B'|intros s Hs; apply H; lia].
  rewrite Nat2N.inj_succ, <- N.add_1_r, mined_step.
  pose proof (proj2 (plausible_small _ B')) as S.
  specialize (H (state_at (N.of_nat n))). change (MkChainState mainnet (state_at (N.of_nat n))) with (chain_at mainnet (N.of_nat n)) in H.
  rewrite height_at in H by exact S. destruct H as (c & E & V); [lia|].
  destruct (mainnet_reward p (state_at (N.of_nat n))) as (c' & E' & V').
  { change (MkChainState mainnet (state_at (N.of_nat n))) with (chain_at mainnet (N.of_nat n)). rewrite height_at by exact S.
    unfold plausible in *. lia. }
  change (MkChainState mainnet (state_at (N.of_nat n))) with (chain_at mainnet (N.of_nat n)) in E', V'.
  rewrite height_at in V' by exact S. rewrite E in E'. injection E' as <-. rewrite <- V, V'. lia.
Qed.

Lemma ten_minutes : forall net, net = mainnet \/ net = zen \/ net = anagami ->
  dur_ns (net_block_interval net) = 600000000000%Z.
Proof. intros net [->|[->| ->]]; reflexivity. Qed.

Definition foundation_from (net : network) (h : N) : Prop :=
  uval (hff_height (net_hardfork_foundation net)) = h.
Lemma foundation_heights : foundation_from mainnet 298000 /\ foundation_from zen 30 /\ foundation_from anagami 30.
Proof. repeat split. Qed.

Lemma subsidies : forall p net s first,
  (net = mainnet /\ first = 298000) \/ ((net = zen \/ net = anagami) /\ first = 30) ->
  height (MkChainState net s) + 1 < 2 ^ 64 ->
  exists o, foundation_subsidy p (MkChainState net s) = Val o /\
    (o <> None <-> exists k, height (MkChainState net s) + 1 = first + 4380 * k) /\
    (forall out, o = Some out -> sco_address out = hff_primary_address (net_hardfork_foundation net) /\
       uval (sco_value out) = (if height (MkChainState net s) + 1 =? first then 360000 else 30000) * siacoin).
Proof.
  intros p net s first C H.
  assert (N : net = mainnet \/ net = zen \/ net = anagami) by tauto.
  assert (F : uval (hff_height (net_hardfork_foundation net)) = first).
  { destruct foundation_heights as (F1 & F2 & F3).
    destruct C as [[-> ->]|[[->| ->] ->]]; [exact F1|exact F2|exact F3]. }
  pose proof (ten_minutes net N) as D.
  destruct (foundation_subsidy_when p (MkChainState net s) H) as (o & E & W & V).
  { cbn [cs_network]. rewrite D. unfold month_ns. split; [reflexivity|vm_compute; discriminate]. }
  exists o. split; [exact E|]. cbn [cs_network] in V. rewrite F in V. split.
  - unfold subsidy_due in W. cbn [cs_network] in W. rewrite F, D in W.
    change (Z.to_N (month_ns / 600000000000)) with 4380 in W.
    split.
    + intros O. destruct W as [W _]. destruct W as [k K]; [destruct o; [eauto|congruence]|]. exists k. lia.
    + intros [k K]. destruct W as [_ W]. destruct W as [out ->]; [exists k; lia|discriminate].
  - intros out O. destruct (V out O) as [A B]. split; [exact A|]. rewrite B.
    destruct (_ =? _); lia.
Qed.

Lemma eras : forall net s asic foundation v2,
  (net = mainnet /\ asic = 179000 /\ foundation = 298000 /\ v2 = 1000000) \/
  (net = zen /\ asic = 20 /\ foundation = 30 /\ v2 = 100000) \/
  (net = anagami /\ asic = 20 /\ foundation = 30 /\ v2 = 2016) ->
  replay_prefix (MkChainState net s) =
    (if height (MkChainState net s) <? asic then []
     else if height (MkChainState net s) <? foundation then [x00]
     else if height (MkChainState net s) <? v2 then [x01] else [x02]).
Proof.
  intros net s asic foundation v2 C.
  assert (A : uval (hfa_height (net_hardfork_asic net)) = asic /\ uval (hff_height (net_hardfork_foundation net)) = foundation /\
    uval (hfv2_allow_height (net_hardfork_v2 net)) = v2 /\ asic <= foundation <= v2).
  { destruct C as [(-> & -> & -> & ->)|[(-> & -> & -> & ->)|(-> & -> & -> & ->)]]; repeat split; vm_compute; discriminate. }
  destruct A as (A1 & A2 & A3 & O).
  pose proof (replay_prefix_spec (MkChainState net s)) as R. cbv zeta in R. cbn [cs_network] in R.
  rewrite A1, A2, A3 in R. destruct (R O) as (R1 & R2 & R3 & R4).
  destruct (N.ltb_spec (height (MkChainState net s)) asic); [auto|].
  destruct (N.ltb_spec (height (MkChainState net s)) foundation); [auto|].
  destruct (N.ltb_spec (height (MkChainState net s)) v2); auto.
Qed.

Lemma nonce_factors : forall p net s asic,
  (net = mainnet /\ asic = 179000) \/ ((net = zen \/ net = anagami) /\ asic = 20) ->
  height (MkChainState net s) + 1 < 2 ^ 64 ->
  exists f, nonce_factor p (MkChainState net s) = Val f /\
    uval f = (if height (MkChainState net s) + 1 <? asic then 1 else 1009).
Proof.
  intros p net s asic C H. rewrite nonce_factor_spec by exact H. eexists. split; [reflexivity|]. cbn [cs_network].
  assert (A : uval (hfa_height (net_hardfork_asic net)) = asic).
  { destruct C as [[-> ->]|[[->| ->] ->]]; reflexivity. }
  rewrite A. destruct (_ <? _); reflexivity.
Qed.

Lemma maturities : forall p net s, net = mainnet \/ net = zen \/ net = anagami ->
  height (MkChainState net s) + 145 < 2 ^ 64 ->
  exists m, maturity_height p (MkChainState net s) = Val m /\ uval m = height (MkChainState net s) + 145.
Proof.
  intros p net s N H.
  assert (A : uval (net_maturity_delay net) = 144) by (destruct N as [->|[->| ->]]; reflexivity).
  destruct (maturity_height_spec p (MkChainState net s)) as (m & E & V).
  - cbn [cs_network]. rewrite A. lia.
  - exists m. split; [exact E|]. rewrite V. cbn [cs_network]. rewrite A. lia.
Qed.

Lemma documents : forall p,
  c_ser (j_network p) mainnet = JOk mainnet_document /\
  c_ser (j_network p) zen = JOk zen_document /\
  c_ser (j_network p) anagami = JOk anagami_document.
Proof. intros [|]; (split; [|split]); (vm_compute; reflexivity). Qed.

Lemma documents_read : forall p,
  c_de (j_network p) mainnet_document = JOk mainnet /\
  c_de (j_network p) zen_document = JOk zen /\
  c_de (j_network p) anagami_document = JOk anagami.
Proof.
  intros p. destruct (documents p) as (M & Z & A).
  assert (T : forall net, net = mainnet \/ net = zen \/ net = anagami -> json_network net).
  { intros net N. unfold json_network, json_duration, json_time.
    destruct N as [->|[->| ->]]; vm_compute; repeat split; try discriminate. }
  pose proof (fun net N => proj1 (proj2 (consensus_survives p)) net (T net N)) as S.
  assert (R0 : forall j, DistinctKeys j -> Reordered j j).
  { intros j D. apply value_of_reordered in D. eapply reordered_trans; [exact D|]. now apply reordered_sym. }
  split; [|split].
  - destruct (S mainnet) as (j & E & D & _ & R & _); [auto|]. rewrite M in E. injection E as <-. apply R. exact (R0 _ D).
  - destruct (S zen) as (j & E & D & _ & R & _); [auto|]. rewrite Z in E. injection E as <-. apply R. exact (R0 _ D).
  - destruct (S anagami) as (j & E & D & _ & R & _); [auto|]. rewrite A in E. injection E as <-. apply R. exact (R0 _ D).
Qed.
