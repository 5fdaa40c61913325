(** The consensus functions and the contract taxes. *)

From Verif Require Import Base Io Spec Model_encoding Model_common Model_currency Model_v1 Model_v2
  Model_consensus Model_text Model_networks ConsensusProofs SpecConsensus.
Local Open Scope N_scope.

Lemma siacoin_val : siacoin = 1000000000000000000000000. Proof. reflexivity. Qed.
Lemma u128_pow : 2 ^ 128 = 340282366920938463463374607431768211456. Proof. reflexivity. Qed.

Lemma child_height_spec : forall p cs, height cs + 1 < 2 ^ 64 ->
  exists h, child_height p cs = Val h /\ uval h = height cs + 1.
Proof.
  intros p cs H. unfold child_height. rewrite child_height_val by exact H.
  eexists; split; [reflexivity|]. now rewrite uwrap_small.
Qed.

Lemma child_height_max : forall cs, height cs = 2 ^ 64 - 1 ->
  child_height Debug cs = Panic ArithOverflow /\
  child_height Release cs = Val (uwrap 64 0).
Proof.
  intros cs H. unfold child_height, ci_child_height, u_add. fold (height cs). rewrite H.
  split; [reflexivity|]. f_equal. apply uint_eq. reflexivity.
Qed.

Lemma maturity_height_spec : forall p cs,
  height cs + 1 + uval (net_maturity_delay (cs_network cs)) < 2 ^ 64 ->
  exists m, maturity_height p cs = Val m /\
            uval m = height cs + 1 + uval (net_maturity_delay (cs_network cs)).
Proof.
  intros p cs H. unfold maturity_height.
  destruct (child_height_spec p cs) as (h & -> & Hh); [lia|]. cbn [obind]. unfold u_add. rewrite Hh.
  assert (E : (height cs + 1 + uval (net_maturity_delay (cs_network cs)) <? 2 ^ 64) = true)
    by now apply N.ltb_lt.
  rewrite E. exists (uwrap 64 (height cs + 1 + uval (net_maturity_delay (cs_network cs)))).
  split; [now destruct p|]. now apply uwrap_small.
Qed.

Lemma pow10_24 : forall p, pow10 p (uwrap 32 24) = Val (uwrap 128 siacoin).
Proof. intros [|]; reflexivity. Qed.

Lemma uval_siacoin : uval (uwrap 128 siacoin) = siacoin. Proof. reflexivity. Qed.

Lemma siacoins_spec : forall p (n : u64), uval n * siacoin < 2 ^ 128 ->
  siacoins p n = Val (uwrap 128 (uval n * siacoin)).
Proof.
  intros p n H. unfold siacoins. rewrite pow10_24. cbn [obind]. unfold u_mul.
  rewrite uval_siacoin. rewrite uwrap_small.
  2:{ pose proof (uint_lt 64 n) as Hn. eapply N.lt_trans; [exact Hn|reflexivity]. }
  destruct p; [|reflexivity]. apply N.ltb_lt in H. now rewrite H.
Qed.

Lemma height_small : forall n, n * siacoin < 2 ^ 128 -> n < 2 ^ 64.
Proof. intros n H. rewrite siacoin_val, u128_pow in H. rewrite u64_pow. lia. Qed.

Lemma block_reward_spec : forall p cs,
  (height cs + 1) * siacoin < 2 ^ 128 ->
  exists r, block_reward p cs = Val r /\
    uval r = N.max (uval (net_minimum_coinbase (cs_network cs)))
                   (uval (net_initial_coinbase (cs_network cs)) - (height cs + 1) * siacoin).
Proof.
  intros p cs H. unfold block_reward.
  destruct (child_height_spec p cs) as (h & -> & Hh); [now apply height_small|].
  cbn [obind]. rewrite <- Hh in *. rewrite siacoins_spec by assumption. cbn [obind].
  eexists; split; [reflexivity|]. unfold checked_sub. rewrite uwrap_small by assumption.
  destruct (N.leb_spec (uval h * siacoin) (uval (net_initial_coinbase (cs_network cs)))) as [Hs|Hs].
  - rewrite uwrap_small.
    2:{ pose proof (uint_lt 128 (net_initial_coinbase (cs_network cs))). lia. }
    destruct (N.leb_spec (uval (net_minimum_coinbase (cs_network cs)))
      (uval (net_initial_coinbase (cs_network cs)) - uval h * siacoin)) as [Hm|Hm].
    + rewrite uwrap_small; [lia|]. pose proof (uint_lt 128 (net_initial_coinbase (cs_network cs))). lia.
    + lia.
  - lia.
Qed.

Lemma block_reward_monotone : forall p net s1 s2 r1 r2,
  (height (MkChainState net s2) + 1) * siacoin < 2 ^ 128 ->
  height (MkChainState net s1) <= height (MkChainState net s2) ->
  block_reward p (MkChainState net s1) = Val r1 ->
  block_reward p (MkChainState net s2) = Val r2 ->
  uval r2 <= uval r1.
Proof.
  intros p net s1 s2 r1 r2 H Hle E1 E2.
  assert (H1 : (height (MkChainState net s1) + 1) * siacoin < 2 ^ 128).
  { eapply N.le_lt_trans; [|exact H]. apply N.mul_le_mono_r. lia. }
  destruct (block_reward_spec p _ H1) as (r1' & E1' & V1).
  destruct (block_reward_spec p _ H) as (r2' & E2' & V2).
  rewrite E1 in E1'; injection E1' as <-. rewrite E2 in E2'; injection E2' as <-.
  rewrite V1, V2. cbn [cs_network].
  assert ((height (MkChainState net s1) + 1) * siacoin <= (height (MkChainState net s2) + 1) * siacoin)
    by (apply N.mul_le_mono_r; lia).
  lia.
Qed.

(** Beyond that height: the computation panics, or the reward jumps back up. *)
Lemma block_reward_overflow :
  block_reward Debug (chain_at mainnet 340282366920938) = Panic ArithOverflow /\
  exists r1 r2,
    block_reward Release (chain_at mainnet 340282366920937) = Val r1 /\
    block_reward Release (chain_at mainnet 340282366920938) = Val r2 /\
    uval r1 = 30000 * siacoin /\ 299999 * siacoin < uval r2.
Proof.
  split; [vm_compute; reflexivity|].
  eexists _, _. split; [vm_compute; reflexivity|]. split; [vm_compute; reflexivity|].
  split; vm_compute; reflexivity.
Qed.

(** ** Foundation subsidy *)

Lemma blocks_per_month_spec : forall cs,
  (0 < dur_ns (net_block_interval (cs_network cs)) <= month_ns)%Z ->
  exists b, blocks_per_month cs = Val b /\
    Z.of_N (uval b) = (month_ns / dur_ns (net_block_interval (cs_network cs)))%Z /\ 0 < uval b.
Proof.
  intros cs H. unfold blocks_per_month.
  destruct (Z.eqb_spec (dur_ns (net_block_interval (cs_network cs))) 0); [lia|].
  set (d := dur_ns _) in *.
  eexists; split; [reflexivity|].
  assert (Hm : Z.quot (365 * 86400 * 1000000000) 12 = month_ns) by reflexivity.
  rewrite Hm. unfold month_ns in *. set (m := (365 * 24 * 60 * 60 * 1000000000 / 12)%Z) in *.
  rewrite Z.quot_div_nonneg by lia.
  assert (1 <= m / d)%Z by (apply Z.div_le_lower_bound; lia).
  assert (m / d <= m)%Z by (apply Z.div_le_upper_bound; nia).
  assert (Hlt : (m / d < 2 ^ 64)%Z).
  { eapply Z.le_lt_trans; [eassumption|]. reflexivity. }
  rewrite Z.mod_small by lia.
  rewrite uwrap_small.
  - split; [apply Z2N.id; lia|lia].
  - apply N2Z.inj_lt. rewrite Z2N.id by lia. exact Hlt.
Qed.

Lemma siacoins_30000 : forall p, siacoins p (uwrap 64 30000) = Val (uwrap 128 (30000 * siacoin)).
Proof. intros [|]; vm_compute; reflexivity. Qed.
Lemma siacoins_360000 : forall p,
  currency_mul p (uwrap 128 (30000 * siacoin)) (currency_new 12) = Val (uwrap 128 (360000 * siacoin)).
Proof. intros [|]; vm_compute; reflexivity. Qed.

Lemma foundation_subsidy_spec : forall p cs,
  height cs + 1 < 2 ^ 64 ->
  (0 < dur_ns (net_block_interval (cs_network cs)) <= month_ns)%Z ->
  let fh := uval (hff_height (net_hardfork_foundation (cs_network cs))) in
  let bpm := Z.to_N (month_ns / dur_ns (net_block_interval (cs_network cs))) in
  ((height cs + 1 < fh \/ (height cs + 1 - fh) mod bpm <> 0) ->
   foundation_subsidy p cs = Val None) /\
  ((fh <= height cs + 1 /\ (height cs + 1 - fh) mod bpm = 0) ->
   foundation_subsidy p cs =
     Val (Some (MkSco (uwrap 128 (if height cs + 1 =? fh then 360000 * siacoin else 30000 * siacoin))
                      (hff_primary_address (net_hardfork_foundation (cs_network cs)))))).
Proof.
  intros p cs H Hi fh bpm. unfold foundation_subsidy.
  destruct (child_height_spec p cs H) as (h & -> & Hh). cbn [obind].
  destruct (blocks_per_month_spec cs Hi) as (b & -> & Hb & Hpos). fold fh.
  assert (Eb : uval b = bpm) by (unfold bpm; rewrite <- Hb; lia).
  rewrite Hh. destruct (N.ltb_spec (height cs + 1) fh) as [Hlt|Hge].
  { split; [reflexivity|]. lia. }
  cbn [obind]. unfold u_sub. rewrite Hh. fold fh.
  assert (E : (fh <=? height cs + 1) = true) by now apply N.leb_le.
  rewrite E. cbn [obind]. unfold u_rem.
  destruct (N.eqb_spec (uval b) 0); [lia|]. cbn [obind].
  rewrite Eb in *. clear E.
  assert (Hd : uval (uwrap 64 (height cs + 1 - fh)) = height cs + 1 - fh) by (apply uwrap_small; lia).
  rewrite Hd.
  assert (Hr : uval (uwrap 64 ((height cs + 1 - fh) mod bpm)) = (height cs + 1 - fh) mod bpm).
  { apply uwrap_small. pose proof (N.mod_le (height cs + 1 - fh) bpm ltac:(lia)). lia. }
  rewrite Hr.
  destruct (N.eqb_spec ((height cs + 1 - fh) mod bpm) 0) as [E|E]; cbn [negb].
  - split; [intros [X|X]; [lia|contradiction]|]. intros _.
    rewrite siacoins_30000. cbn [obind].
    destruct (N.eqb_spec (height cs + 1) fh); [|reflexivity].
    rewrite siacoins_360000. reflexivity.
  - split; [reflexivity|]. intros [_ X]; contradiction.
Qed.

Lemma foundation_subsidy_zero_interval : forall p cs,
  height cs + 1 < 2 ^ 64 ->
  uval (hff_height (net_hardfork_foundation (cs_network cs))) <= height cs + 1 ->
  (dur_ns (net_block_interval (cs_network cs)) = 0 \/
   month_ns < dur_ns (net_block_interval (cs_network cs)))%Z ->
  foundation_subsidy p cs = Panic DivByZero.
Proof.
  intros p cs H Hf Hi. unfold foundation_subsidy.
  destruct (child_height_spec p cs H) as (h & -> & Hh). cbn [obind]. rewrite Hh.
  destruct (N.ltb_spec (height cs + 1) (uval (hff_height (net_hardfork_foundation (cs_network cs)))));
    [lia|].
  unfold blocks_per_month. destruct (Z.eqb_spec (dur_ns (net_block_interval (cs_network cs))) 0) as [E|E].
  - reflexivity.
  - destruct Hi as [Hi|Hi]; [contradiction|].
    assert (Hm : Z.quot (365 * 86400 * 1000000000) 12 = month_ns) by reflexivity. rewrite Hm.
    rewrite Z.quot_small by (unfold month_ns in *; lia).
    cbn [obind]. unfold u_sub. rewrite Hh.
    assert (E' : (uval (hff_height (net_hardfork_foundation (cs_network cs))) <=? height cs + 1) = true)
      by now apply N.leb_le.
    rewrite E'. reflexivity.
Qed.

(** ** Replay prefix and nonce factor *)

Lemma replay_prefix_spec : forall cs,
  let h := height cs in
  let asic := uval (hfa_height (net_hardfork_asic (cs_network cs))) in
  let fnd := uval (hff_height (net_hardfork_foundation (cs_network cs))) in
  let v2 := uval (hfv2_allow_height (net_hardfork_v2 (cs_network cs))) in
  asic <= fnd <= v2 ->
  (h < asic -> replay_prefix cs = []) /\
  (asic <= h < fnd -> replay_prefix cs = [x00]) /\
  (fnd <= h < v2 -> replay_prefix cs = [x01]) /\
  (v2 <= h -> replay_prefix cs = [x02]).
Proof.
  intros cs h asic fnd v2 H. unfold replay_prefix. fold (height cs). fold h. fold asic. fold fnd. fold v2.
  destruct (N.leb_spec v2 h); destruct (N.leb_spec fnd h); destruct (N.leb_spec asic h);
    repeat split; intros; try reflexivity; lia.
Qed.

Lemma nonce_factor_spec : forall p cs, height cs + 1 < 2 ^ 64 ->
  let asic := uval (hfa_height (net_hardfork_asic (cs_network cs))) in
  nonce_factor p cs = Val (uwrap 64 (if height cs + 1 <? asic then 1 else 1009)).
Proof.
  intros p cs H asic. unfold nonce_factor. destruct (child_height_spec p cs H) as (h & -> & Hh).
  cbn [obind]. rewrite Hh. fold asic. now destruct (height cs + 1 <? asic).
Qed.

(** ** Taxes *)

(** Rounding down to a multiple of the number of siafunds. *)
Lemma round_down : forall t, let r := t - t mod 10000 in r mod 10000 = 0 /\ r <= t /\ t < r + 10000.
Proof.
  intros t r. pose proof (N.div_mod t 10000 ltac:(discriminate)) as H.
  pose proof (N.mod_lt t 10000 ltac:(discriminate)) as H'.
  assert (E : r = (t / 10000) * 10000) by (unfold r; lia).
  split; [|lia]. rewrite E. apply N.mod_mul. discriminate.
Qed.

Lemma siafund_count_val : uval siafund_count = 10000. Proof. reflexivity. Qed.

Definition v1_tax_amount (pre : bool) (payout : N) : N :=
  let tax := if pre then payout * float_039_num / float_039_den else payout * 39 / 1000 in
  tax - tax mod 10000.

Lemma float_039_below : float_039_num * 1000 <= 39 * float_039_den.
Proof. vm_compute. discriminate. Qed.

Lemma v1_tax_raw_le : forall pre payout,
  (if pre : bool then payout * float_039_num / float_039_den else payout * 39 / 1000) * 1000 <= payout * 39.
Proof.
  intros pre payout.
  destruct pre.
  - pose proof (N.mul_div_le (payout * float_039_num) float_039_den ltac:(discriminate)) as H.
    pose proof float_039_below as Hf. set (q := payout * float_039_num / float_039_den) in *.
    assert (0 < float_039_den) by reflexivity.
    apply N.mul_le_mono_pos_l with (p := float_039_den); [assumption|].
    assert (float_039_den * q * 1000 <= payout * float_039_num * 1000) by (apply N.mul_le_mono_r; exact H).
    assert (payout * (float_039_num * 1000) <= payout * (39 * float_039_den))
      by (apply N.mul_le_mono_l; exact Hf).
    replace (float_039_den * (q * 1000)) with (float_039_den * q * 1000) by ring.
    replace (float_039_den * (payout * 39)) with (payout * (39 * float_039_den)) by ring.
    replace (payout * (float_039_num * 1000)) with (payout * float_039_num * 1000) in * by ring.
    lia.
  - pose proof (N.mul_div_le (payout * 39) 1000 ltac:(discriminate)). lia.
Qed.

Lemma v1_tax_val : forall p fc cs h, child_height p cs = Val h ->
  v1_tax p fc cs = Val (uwrap 128 (v1_tax_amount
    (uval h <? uval (hft_height (net_hardfork_tax (cs_network cs)))) (uval (v1fc_payout fc)))).
Proof.
  intros p fc cs h E. unfold v1_tax. rewrite E. cbn [obind]. cbv zeta. rewrite siafund_count_val.
  set (pre := uval h <? _). fold (v1_tax_amount pre (uval (v1fc_payout fc))).
  assert (Hlt : v1_tax_amount pre (uval (v1fc_payout fc)) < 2 ^ 128).
  { unfold v1_tax_amount. cbv zeta. pose proof (v1_tax_raw_le pre (uval (v1fc_payout fc))) as H.
    pose proof (uint_lt 128 (v1fc_payout fc)) as Hp. set (t := if pre then _ else _) in *. lia. }
  apply N.ltb_lt in Hlt. now rewrite Hlt.
Qed.

Lemma v1_tax_spec : forall p fc cs, height cs + 1 < 2 ^ 64 ->
  exists r, v1_tax p fc cs = Val r /\
    uval r mod 10000 = 0 /\
    1000 * uval r <= 39 * uval (v1fc_payout fc) /\
    (uval (hft_height (net_hardfork_tax (cs_network cs))) <= height cs + 1 ->
     39 * uval (v1fc_payout fc) < 1000 * (uval r + 10000)).
Proof.
  intros p fc cs H. destruct (child_height_spec p cs H) as (h & E & Hh).
  rewrite (v1_tax_val _ _ _ _ E). eexists; split; [reflexivity|].
  set (pre := uval h <? _). set (payout := uval (v1fc_payout fc)).
  pose proof (v1_tax_raw_le pre payout) as Hle.
  pose proof (uint_lt 128 (v1fc_payout fc)) as Hp. fold payout in Hp.
  assert (Hv : uval (uwrap 128 (v1_tax_amount pre payout)) = v1_tax_amount pre payout).
  { apply uwrap_small. unfold v1_tax_amount. cbv zeta. set (t := if pre then _ else _) in *. lia. }
  rewrite Hv. unfold v1_tax_amount. cbv zeta.
  set (t := if pre then _ else _) in *.
  destruct (round_down t) as (R1 & R2 & R3). cbv zeta in *.
  split; [exact R1|]. split; [lia|]. intros Hf.
  assert (Epre : pre = false) by (unfold pre; apply N.ltb_ge; lia).
  unfold t in *. rewrite Epre in *.
  pose proof (N.div_mod (payout * 39) 1000 ltac:(discriminate)).
  pose proof (N.mod_lt (payout * 39) 1000 ltac:(discriminate)). lia.
Qed.

Lemma round_mono : forall a b, a <= b -> a - a mod 10000 <= b - b mod 10000.
Proof.
  intros a b H.
  pose proof (N.div_mod a 10000 ltac:(discriminate)). pose proof (N.div_mod b 10000 ltac:(discriminate)).
  pose proof (N.div_le_mono a b 10000 ltac:(discriminate) H). lia.
Qed.

Lemma v1_tax_monotone : forall p fc1 fc2 cs r1 r2,
  uval (v1fc_payout fc1) <= uval (v1fc_payout fc2) ->
  v1_tax p fc1 cs = Val r1 -> v1_tax p fc2 cs = Val r2 -> uval r1 <= uval r2.
Proof.
  intros p fc1 fc2 cs r1 r2 Hle E1 E2.
  destruct (child_height p cs) as [h|q] eqn:Eh.
  2:{ unfold v1_tax in E1. rewrite Eh in E1. discriminate. }
  rewrite (v1_tax_val _ _ _ _ Eh) in E1. rewrite (v1_tax_val _ _ _ _ Eh) in E2.
  injection E1 as <-. injection E2 as <-. set (pre := uval h <? _).
  assert (Hv : forall fc, uval (uwrap 128 (v1_tax_amount pre (uval (v1fc_payout fc))))
               = v1_tax_amount pre (uval (v1fc_payout fc))).
  { intros fc. apply uwrap_small. unfold v1_tax_amount. cbv zeta.
    pose proof (v1_tax_raw_le pre (uval (v1fc_payout fc))) as H.
    pose proof (uint_lt 128 (v1fc_payout fc)) as Hp. set (t := if pre then _ else _) in *. lia. }
  rewrite !Hv. unfold v1_tax_amount. cbv zeta. apply round_mono. destruct pre.
  - apply N.div_le_mono; [discriminate|]. now apply N.mul_le_mono_r.
  - apply N.div_le_mono; [discriminate|]. lia.
Qed.

Lemma v2_tax_val : forall p fc cs,
  let total := uval (sco_value (v2fc_renter_output fc)) + uval (sco_value (v2fc_host_output fc)) in
  total < 2 ^ 128 ->
  v2_tax p fc cs = Val (uwrap 128 (total / 25 - (total / 25) mod 10000)).
Proof.
  intros p fc cs total H. unfold v2_tax, currency_add, u_add. fold total.
  assert (E : (total <? 2 ^ 128) = true) by now apply N.ltb_lt.
  rewrite E. set (T := match p with Debug => _ | Release => _ end).
  assert (HT : T = Val (uwrap 128 total)) by (now destruct p). rewrite HT. clear T HT.
  cbn [obind]. unfold currency_div, u_div. change (uval (currency_new 25)) with 25.
  cbn [N.eqb obind]. rewrite (uwrap_small 128 total) by assumption.
  unfold currency_rem, u_rem. change (uval (currency_new (uval siafund_count))) with 10000.
  cbn [N.eqb obind].
  assert (Hq : total / 25 < 2 ^ 128) by (eapply N.le_lt_trans; [apply N.div_le_upper_bound with (q := total); lia|exact H]).
  rewrite (uwrap_small 128 (total / 25)) by assumption.
  unfold currency_sub, u_sub. rewrite (uwrap_small 128 (total / 25)) by assumption.
  assert (Hm : (total / 25) mod 10000 <= total / 25) by (apply N.mod_le; discriminate).
  rewrite (uwrap_small 128 ((total / 25) mod 10000)) by lia.
  apply N.leb_le in Hm. now rewrite Hm.
Qed.

Lemma v2_tax_spec : forall p fc cs,
  let total := uval (sco_value (v2fc_renter_output fc)) + uval (sco_value (v2fc_host_output fc)) in
  total < 2 ^ 128 ->
  exists r, v2_tax p fc cs = Val r /\
    uval r mod 10000 = 0 /\ 25 * uval r <= total /\ total < 25 * (uval r + 10000).
Proof.
  intros p fc cs total H. rewrite (v2_tax_val p fc cs H). fold total.
  eexists; split; [reflexivity|].
  destruct (round_down (total / 25)) as (R1 & R2 & R3). cbv zeta in *.
  pose proof (N.div_mod total 25 ltac:(discriminate)).
  pose proof (N.mod_lt total 25 ltac:(discriminate)).
  rewrite uwrap_small by lia. repeat split; [exact R1|lia|lia].
Qed.

Lemma v2_tax_overflow : forall fc cs,
  let total := uval (sco_value (v2fc_renter_output fc)) + uval (sco_value (v2fc_host_output fc)) in
  2 ^ 128 <= total ->
  v2_tax Debug fc cs = Panic ArithOverflow /\
  v2_tax Release fc cs = Val (uwrap 128 ((total - 2 ^ 128) / 25 - ((total - 2 ^ 128) / 25) mod 10000)).
Proof.
  intros fc cs total H.
  pose proof (uint_lt 128 (sco_value (v2fc_renter_output fc))) as H1.
  pose proof (uint_lt 128 (sco_value (v2fc_host_output fc))) as H2.
  split.
  - unfold v2_tax, currency_add, u_add. fold total.
    assert (E : (total <? 2 ^ 128) = false) by now apply N.ltb_ge. now rewrite E.
  - set (fc' := MkV2Fc (v2fc_capacity fc) (v2fc_filesize fc) (v2fc_file_merkle_root fc)
      (v2fc_proof_height fc) (v2fc_expiration_height fc)
      (MkSco (uwrap 128 (total - 2 ^ 128)) (sco_address (v2fc_renter_output fc)))
      (MkSco (uwrap 128 0) (sco_address (v2fc_host_output fc)))
      (v2fc_missed_host_value fc) (v2fc_total_collateral fc) (v2fc_renter_public_key fc)
      (v2fc_host_public_key fc) (v2fc_revision_number fc) (v2fc_renter_signature fc)
      (v2fc_host_signature fc)).
    assert (Hs : total - 2 ^ 128 < 2 ^ 128) by (unfold total in *; lia).
    assert (Hv : uval (uwrap 128 (total - 2 ^ 128)) = total - 2 ^ 128) by now apply uwrap_small.
    pose proof (v2_tax_val Release fc' cs) as Hx. cbv zeta in Hx. unfold fc' in Hx at 1 2.
    cbn [v2fc_renter_output v2fc_host_output sco_value] in Hx. rewrite Hv in Hx.
    change (uval (uwrap 128 0)) with 0 in Hx. rewrite N.add_0_r in Hx.
    specialize (Hx Hs).
    assert (Et : v2_tax Release fc cs = v2_tax Release fc' cs).
    { unfold v2_tax, currency_add, u_add.
      assert (Ew : uwrap 128 (uval (sco_value (v2fc_renter_output fc)) + uval (sco_value (v2fc_host_output fc)))
        = uwrap 128 (uval (sco_value (v2fc_renter_output fc')) + uval (sco_value (v2fc_host_output fc')))).
      { apply uint_eq. unfold fc'. cbn [v2fc_renter_output v2fc_host_output sco_value].
        rewrite Hv. change (uval (uwrap 128 0)) with 0. rewrite N.add_0_r. fold total.
        cbn [uwrap uval]. replace total with (total - 2 ^ 128 + 1 * 2 ^ 128) at 1 by lia.
        apply N.mod_add. discriminate. }
      rewrite Ew. reflexivity. }
    rewrite Et, Hx. unfold fc'. cbn [v2fc_renter_output v2fc_host_output sco_value].
    rewrite Hv. change (uval (uwrap 128 0)) with 0. now rewrite N.add_0_r.
Qed.

(** ** The constants are computed without panic *)

Lemma mainnet_constants : forall p,
  siacoins p (uwrap 64 300000) = Val (net_initial_coinbase mainnet) /\
  siacoins p (uwrap 64 30000) = Val (net_minimum_coinbase mainnet) /\
  siacoins p (uwrap 64 300000) = Val (net_initial_coinbase zen).
Proof. intros [|]; repeat split; vm_compute; reflexivity. Qed.

(** ** The forms used by the properties *)

Lemma replay_prefix_era : forall net s1 s2, ordered_forks net ->
  (replay_prefix (MkChainState net s1) = replay_prefix (MkChainState net s2) <->
   latest_fork (MkChainState net s1) = latest_fork (MkChainState net s2)).
Proof.
  intros net s1 s2 H. pose proof (replay_prefix_spec (MkChainState net s1) H) as A.
  pose proof (replay_prefix_spec (MkChainState net s2) H) as B. cbv zeta in A, B.
  unfold latest_fork. cbn [cs_network] in *. set (h1 := height (MkChainState net s1)) in *.
  set (h2 := height (MkChainState net s2)) in *.
  destruct H as [F1 F2].
  set (a := uval (hfa_height _)) in *. set (f := uval (hff_height _)) in *. set (v := uval (hfv2_allow_height _)) in *.
  destruct A as (A0 & A1 & A2 & A3). destruct B as (B0 & B1 & B2 & B3).
  destruct (N.ltb_spec h1 a); [rewrite A0 by lia|
    destruct (N.ltb_spec h1 f); [rewrite A1 by lia|
      destruct (N.ltb_spec h1 v); [rewrite A2 by lia|rewrite A3 by lia]]];
  (destruct (N.ltb_spec h2 a); [rewrite B0 by lia|
    destruct (N.ltb_spec h2 f); [rewrite B1 by lia|
      destruct (N.ltb_spec h2 v); [rewrite B2 by lia|rewrite B3 by lia]]]);
  split; (reflexivity || discriminate).
Qed.

Lemma child_height_increasing : forall p a b ha hb,
  height b + 1 < 2 ^ 64 -> height a < height b ->
  child_height p a = Val ha -> child_height p b = Val hb -> uval ha < uval hb.
Proof.
  intros p a b ha hb Hb Hlt Ea Eb.
  destruct (child_height_spec p a) as (x & Ex & Hx); [lia|].
  destruct (child_height_spec p b Hb) as (y & Ey & Hy).
  rewrite Ex in Ea; injection Ea as <-. rewrite Ey in Eb; injection Eb as <-. lia.
Qed.

Lemma maturity_height_increasing : forall p net s1 s2 m1 m2,
  height (MkChainState net s2) + 1 + uval (net_maturity_delay net) < 2 ^ 64 ->
  height (MkChainState net s1) < height (MkChainState net s2) ->
  maturity_height p (MkChainState net s1) = Val m1 ->
  maturity_height p (MkChainState net s2) = Val m2 -> uval m1 < uval m2.
Proof.
  intros p net s1 s2 m1 m2 Hb Hlt Ea Eb.
  destruct (maturity_height_spec p (MkChainState net s1)) as (x & Ex & Hx); [cbn [cs_network]; lia|].
  destruct (maturity_height_spec p (MkChainState net s2) Hb) as (y & Ey & Hy).
  rewrite Ex in Ea; injection Ea as <-. rewrite Ey in Eb; injection Eb as <-.
  cbn [cs_network] in *. lia.
Qed.

Lemma foundation_subsidy_when : forall p cs,
  height cs + 1 < 2 ^ 64 ->
  (0 < dur_ns (net_block_interval (cs_network cs)) <= month_ns)%Z ->
  exists o, foundation_subsidy p cs = Val o /\
    ((exists out, o = Some out) <-> subsidy_due cs) /\
    (forall out, o = Some out -> sco_address out = hff_primary_address (net_hardfork_foundation (cs_network cs)) /\
       uval (sco_value out) =
         (if height cs + 1 =? uval (hff_height (net_hardfork_foundation (cs_network cs))) then 12 else 1)
         * (30000 * siacoin)).
Proof.
  intros p cs H Hi. destruct (foundation_subsidy_spec p cs H Hi) as (A & B). cbv zeta in A, B.
  set (fh := uval (hff_height (net_hardfork_foundation (cs_network cs)))) in *.
  set (bpm := Z.to_N (month_ns / dur_ns (net_block_interval (cs_network cs)))) in *.
  assert (Hpos : 0 < bpm).
  { destruct (blocks_per_month_spec cs Hi) as (b & _ & Eb & Hp). unfold bpm. rewrite <- Eb. lia. }
  assert (D : subsidy_due cs <-> fh <= height cs + 1 /\ (height cs + 1 - fh) mod bpm = 0).
  { unfold subsidy_due. fold fh. fold bpm. split.
    - intros [k Hk]. rewrite Hk. split; [lia|]. replace (fh + k * bpm - fh) with (k * bpm) by lia.
      apply N.mod_mul. lia.
    - intros [Hle Hm]. exists ((height cs + 1 - fh) / bpm).
      pose proof (N.div_mod (height cs + 1 - fh) bpm ltac:(lia)). lia. }
  destruct (N.lt_ge_cases (height cs + 1) fh) as [Hlt|Hge].
  - rewrite A by lia. eexists; split; [reflexivity|]. split.
    + split; [intros [x Hx]; discriminate|]. intros Hd. apply D in Hd. lia.
    + discriminate.
  - destruct (N.eq_dec ((height cs + 1 - fh) mod bpm) 0) as [E|E].
    + rewrite B by (split; assumption). eexists; split; [reflexivity|]. split.
      * split; [intros _; now apply D|]. intros _. eexists; reflexivity.
      * intros out Ho.
        apply (f_equal (fun o => match o with Some x => x | None => out end)) in Ho. cbv beta iota in Ho.
        rewrite <- Ho. cbn [sco_address sco_value]. split; [reflexivity|].
        destruct (height cs + 1 =? fh); vm_compute; reflexivity.
    + rewrite A by (right; exact E). eexists; split; [reflexivity|]. split.
      * split; [intros [x Hx]; discriminate|]. intros Hd. apply D in Hd. destruct Hd; contradiction.
      * discriminate.
Qed.

(** Mainnet with a block interval of zero. *)
Definition instant_network : network := {|
  net_name := net_name mainnet;
  net_initial_coinbase := net_initial_coinbase mainnet;
  net_minimum_coinbase := net_minimum_coinbase mainnet;
  net_initial_target := net_initial_target mainnet;
  net_block_interval := seconds 0;
  net_maturity_delay := net_maturity_delay mainnet;
  net_hardfork_dev_addr := net_hardfork_dev_addr mainnet;
  net_hardfork_tax := net_hardfork_tax mainnet;
  net_hardfork_storage_proof := net_hardfork_storage_proof mainnet;
  net_hardfork_oak := net_hardfork_oak mainnet;
  net_hardfork_asic := net_hardfork_asic mainnet;
  net_hardfork_foundation := net_hardfork_foundation mainnet;
  net_hardfork_v2 := net_hardfork_v2 mainnet |}.

Lemma foundation_subsidy_panics : ~ (forall p cs, height cs + 1 < 2 ^ 64 ->
  exists o, foundation_subsidy p cs = Val o).
Proof.
  intros H. destruct (H Debug (chain_at instant_network 300000)) as [o Ho]; [reflexivity|].
  rewrite foundation_subsidy_zero_interval in Ho; [discriminate|reflexivity| |left; reflexivity].
  vm_compute. discriminate.
Qed.

Lemma foundation_subsidy_amount : ~ (forall p cs out, foundation_subsidy p cs = Val (Some out) ->
  uval (sco_value out) = 30000 * siacoin * blocks_covered cs).
Proof.
  intros H. specialize (H Debug (chain_at mainnet 297999)). vm_compute in H.
  specialize (H _ eq_refl). discriminate.
Qed.

Lemma foundation_subsidy_address : ~ (forall p cs out, foundation_subsidy p cs = Val (Some out) ->
  sco_address out = st_foundation_primary_address (cs_state cs)).
Proof.
  intros H. specialize (H Debug (chain_at mainnet 297999)). vm_compute in H.
  specialize (H _ eq_refl). discriminate.
Qed.

(** The example network and states: mainnet around the foundation hardfork at 298000. *)
Lemma mainnet_interval : (0 < dur_ns (net_block_interval mainnet) <= month_ns)%Z.
Proof. vm_compute. split; congruence. Qed.

Lemma mainnet_subsidies :
  subsidy_due (chain_at mainnet 297999) /\ subsidy_due (chain_at mainnet (297999 + 4380)) /\
  ~ subsidy_due (chain_at mainnet 298000).
Proof.
  unfold subsidy_due.
  change (height (chain_at mainnet 297999) + 1) with 298000.
  change (height (chain_at mainnet (297999 + 4380)) + 1) with 302380.
  change (height (chain_at mainnet 298000) + 1) with 298001.
  change (uval (hff_height (net_hardfork_foundation (cs_network (chain_at mainnet 297999))))) with 298000.
  change (uval (hff_height (net_hardfork_foundation (cs_network (chain_at mainnet (297999 + 4380)))))) with 298000.
  change (uval (hff_height (net_hardfork_foundation (cs_network (chain_at mainnet 298000))))) with 298000.
  change (Z.to_N (month_ns / dur_ns (net_block_interval (cs_network (chain_at mainnet 297999))))) with 4380.
  change (Z.to_N (month_ns / dur_ns (net_block_interval (cs_network (chain_at mainnet (297999 + 4380)))))) with 4380.
  change (Z.to_N (month_ns / dur_ns (net_block_interval (cs_network (chain_at mainnet 298000))))) with 4380.
  split; [exists 0; reflexivity|]. split; [exists 1; reflexivity|]. intros [k Hk]. lia.
Qed.

Lemma networks_ordered : ordered_forks mainnet /\ ordered_forks zen /\ ordered_forks anagami.
Proof. unfold ordered_forks. repeat split; vm_compute; discriminate. Qed.

Lemma v2_tax_fails : ~ (forall p fc cs, exists r, v2_tax p fc cs = Val r /\
  25 * uval r <= uval (sco_value (v2fc_renter_output fc)) + uval (sco_value (v2fc_host_output fc)) /\
  uval (sco_value (v2fc_renter_output fc)) + uval (sco_value (v2fc_host_output fc)) < 25 * (uval r + 10000)).
Proof.
  intros H.
  set (o := MkSco (uwrap 128 (2 ^ 127)) zero_hash).
  set (fc := MkV2Fc (uwrap 64 0) (uwrap 64 0) zero_hash (uwrap 64 0) (uwrap 64 0) o o
    (uwrap 128 0) (uwrap 128 0) zero_hash zero_hash (uwrap 64 0) (arr_of 64 []) (arr_of 64 [])).
  destruct (H Debug fc (chain_at mainnet 0)) as (r & E & _). vm_compute in E. discriminate.
Qed.

(** Before the tax hardfork the rate is the 64-bit float nearest to 0.039. *)
Lemma v1_tax_before : forall p fc cs, height cs + 1 < 2 ^ 64 ->
  exists r, v1_tax p fc cs = Val r /\
    39 * uval (v1fc_payout fc) < 1000 * (uval r + 10000) + uval (v1fc_payout fc) / 2 ^ 54 + 1.
Proof.
  intros p fc cs H. destruct (v1_tax_spec p fc cs H) as (r & E & _ & _ & Hpost).
  exists r. split; [exact E|].
  destruct (N.lt_ge_cases (height cs + 1) (uval (hft_height (net_hardfork_tax (cs_network cs))))) as [Hlt|Hge].
  2:{ specialize (Hpost Hge). generalize dependent (uval (v1fc_payout fc) / 2 ^ 54). intros; lia. }
  destruct (child_height_spec p cs H) as (h & Eh & Hh).
  rewrite (v1_tax_val _ _ _ _ Eh) in E. rewrite Hh in E.
  apply N.ltb_lt in Hlt. rewrite Hlt in E.
  apply (f_equal (fun o => match o with Val x => x | Panic _ => r end)) in E. cbv beta iota in E.
  pose proof (v1_tax_raw_le true (uval (v1fc_payout fc))) as Hle. cbv beta iota in Hle.
  pose proof (uint_lt 128 (v1fc_payout fc)) as Hp.
  rewrite <- E. clear E.
  set (x := uval (v1fc_payout fc)) in *. unfold v1_tax_amount. cbv zeta beta iota.
  set (t := x * float_039_num / float_039_den) in *.
  destruct (round_down t) as (_ & R2 & R3). cbv zeta in R2, R3.
  rewrite uwrap_small by (eapply N.le_lt_trans; [exact R2|]; lia).
  pose proof (N.div_mod (x * float_039_num) float_039_den ltac:(discriminate)) as D1. fold t in D1.
  pose proof (N.mod_lt (x * float_039_num) float_039_den ltac:(discriminate)) as D2.
  pose proof (N.div_mod x (2 ^ 54) ltac:(discriminate)) as D3.
  pose proof (N.mod_lt x (2 ^ 54) ltac:(discriminate)) as D4.
  set (m := (x * float_039_num) mod float_039_den) in *. set (q := x / 2 ^ 54) in *.
  set (m' := x mod 2 ^ 54) in *.
  unfold float_039_num, float_039_den in *.
  change (2 ^ 57) with 144115188075855872 in *. change (2 ^ 54) with 18014398509481984 in *.
  clearbody t q m m' x. clear Hp Hle. lia.
Qed.
