(** The foundation subsidy for every height and every block interval (C31). *)

From Verif Require Import Base Io Model_encoding Model_common Model_currency Model_v1 Model_v2
  Model_consensus Model_networks SpecConsensus Samples ConsensusProofs ConsensusFnProofs.
Local Open Scope N_scope.

Lemma child_height_wrap : forall cs,
  (height cs + 1 < 2 ^ 64 \/ height cs + 1 = 2 ^ 64) /\
  (height cs + 1 = 2 ^ 64 -> child_height Debug cs = Panic ArithOverflow) /\
  (exists h, child_height Release cs = Val h /\ uval h = (height cs + 1) mod 2 ^ 64).
Proof.
  intros cs. unfold child_height, ci_child_height, height.
  pose proof (uint_lt 64 (ci_height (st_index (cs_state cs)))) as L. split; [lia|].
  assert (E1 : uval (uwrap 64 1) = 1) by reflexivity. unfold u_add. rewrite E1. split.
  - intros E. rewrite E. reflexivity.
  - eexists. split; reflexivity.
Qed.

Lemma month_quot : forall d, (d <> 0)%Z ->
  Z.quot (Z.quot (365 * 86400 * 1000000000) 12) d =
    (if (0 <? d)%Z then month_ns / d else - (month_ns / - d))%Z.
Proof.
  intros d Hd. assert (Hm : Z.quot (365 * 86400 * 1000000000) 12 = month_ns) by reflexivity. rewrite Hm.
  assert (0 <= month_ns)%Z by (unfold month_ns; lia).
  destruct (Z.ltb_spec 0 d).
  - apply Z.quot_div_nonneg; lia.
  - rewrite <- (Z.opp_involutive d) at 1. rewrite Z.quot_opp_r by lia. f_equal. apply Z.quot_div_nonneg; lia.
Qed.

(** The divisor of the remainder operation. *)
Lemma blocks_per_month_all : forall cs,
  let d := dur_ns (net_block_interval (cs_network cs)) in
  (d = 0%Z -> blocks_per_month cs = Panic DivByZero) /\
  ((d <> 0)%Z -> (month_ns < Z.abs d)%Z -> exists b, blocks_per_month cs = Val b /\ uval b = 0) /\
  ((d <> 0)%Z -> (Z.abs d <= month_ns)%Z ->
     exists b, blocks_per_month cs = Val b /\ uval b = month_blocks cs /\ 0 < uval b).
Proof.
  intros cs d. unfold blocks_per_month, month_blocks. fold d. clearbody d. split; [|split].
  - intros ->. reflexivity.
  - intros Hd Hm. destruct (Z.eqb_spec d 0) as [E|_]; [contradiction|]. eexists. split; [reflexivity|].
    rewrite (month_quot d Hd). assert (0 <= month_ns)%Z by (unfold month_ns; lia).
    destruct (Z.ltb_spec 0 d) as [L|L]; rewrite Z.div_small by lia; reflexivity.
  - intros Hd Hm. destruct (Z.eqb_spec d 0) as [E|_]; [contradiction|].
    rewrite (month_quot d Hd). clear E || idtac.
    assert (M : (0 <= month_ns < 2 ^ 63)%Z) by (unfold month_ns; split; [discriminate|reflexivity]).
    set (m := month_ns) in *. clearbody m.
    assert (Q : forall x, (0 < x <= m)%Z -> (1 <= m / x < 2 ^ 63)%Z).
    { intros x Hx. split; [apply Z.div_le_lower_bound; lia|].
      eapply Z.le_lt_trans; [|apply M]. apply Z.div_le_upper_bound; nia. }
    eexists. split; [reflexivity|].
    destruct (Z.ltb_spec 0 d) as [L|L].
    + specialize (Q d ltac:(lia)). set (q := (m / d)%Z) in *. clearbody q.
      rewrite Z.mod_small by lia. rewrite uwrap_small by (change (2 ^ 64) with (Z.to_N (2 ^ 64)); lia).
      split; [reflexivity|lia].
    + specialize (Q (- d)%Z ltac:(lia)). set (q := (m / - d)%Z) in *. clearbody q.
      assert (E : (- q mod 2 ^ 64 = 2 ^ 64 - q)%Z).
      { rewrite <- (Z.mod_small (2 ^ 64 - q) (2 ^ 64)) by lia.
        replace (2 ^ 64 - q)%Z with (- q + 1 * 2 ^ 64)%Z by lia. now rewrite Z.mod_add by lia. }
      rewrite E. rewrite uwrap_small by (change (2 ^ 64) with (Z.to_N (2 ^ 64)); lia).
      split; [|lia]. change (2 ^ 64) with (Z.to_N (2 ^ 64)). lia.
Qed.

Lemma subsidy_from_height : forall p cs (h : u64), child_height p cs = Val h ->
  let fh := uval (hff_height (net_hardfork_foundation (cs_network cs))) in
  let d := dur_ns (net_block_interval (cs_network cs)) in
  (uval h < fh -> foundation_subsidy p cs = Val None) /\
  (fh <= uval h -> (d = 0 \/ month_ns < Z.abs d)%Z -> foundation_subsidy p cs = Panic DivByZero) /\
  (fh <= uval h -> (d <> 0)%Z -> (Z.abs d <= month_ns)%Z ->
     (uval h - fh) mod month_blocks cs <> 0 -> foundation_subsidy p cs = Val None) /\
  (fh <= uval h -> (d <> 0)%Z -> (Z.abs d <= month_ns)%Z ->
     (uval h - fh) mod month_blocks cs = 0 ->
     exists out, foundation_subsidy p cs = Val (Some out) /\
       sco_address out = hff_primary_address (net_hardfork_foundation (cs_network cs)) /\
       uval (sco_value out) = (if uval h =? fh then 12 else 1) * (30000 * siacoin)).
Proof.
  intros p cs h Eh fh d. destruct (blocks_per_month_all cs) as (B1 & B2 & B3). cbv zeta in B1, B2, B3.
  fold d in B1, B2, B3. unfold foundation_subsidy. rewrite Eh. cbn [obind]. fold fh.
  assert (S : fh <= uval h -> u_sub p h (hff_height (net_hardfork_foundation (cs_network cs)))
    = Val (uwrap 64 (uval h - fh))).
  { intros L. unfold u_sub. fold fh. apply N.leb_le in L. now rewrite L. }
  pose proof (uint_lt 64 h) as Lh.
  assert (Hd' : uval (uwrap 64 (uval h - fh)) = uval h - fh) by (apply uwrap_small; lia).
  split; [|split; [|split]].
  - intros L. apply N.ltb_lt in L. now rewrite L.
  - intros L Hd. pose proof L as L'. apply N.ltb_ge in L'. rewrite L'.
    destruct (Z.eq_dec d 0) as [E|E].
    + rewrite (B1 E). reflexivity.
    + destruct Hd as [Hd|Hd]; [contradiction|]. destruct (B2 E Hd) as (b & -> & Hb). cbn [obind].
      rewrite (S L). cbn [obind]. unfold u_rem. rewrite Hb. reflexivity.
  - intros L E Hm N. pose proof L as L'. apply N.ltb_ge in L'. rewrite L'.
    destruct (B3 E Hm) as (b & -> & Hb & Hp). cbn [obind]. rewrite (S L). cbn [obind]. unfold u_rem.
    destruct (N.eqb_spec (uval b) 0) as [E0|_]; [lia|]. cbn [obind].
    rewrite Hd', Hb. rewrite uwrap_small.
    2:{ rewrite Hb in Hp. pose proof (N.mod_le (uval h - fh) (month_blocks cs) ltac:(lia)). lia. }
    destruct (N.eqb_spec ((uval h - fh) mod month_blocks cs) 0); [contradiction|]. reflexivity.
  - intros L E Hm N. pose proof L as L'. apply N.ltb_ge in L'. rewrite L'.
    destruct (B3 E Hm) as (b & -> & Hb & Hp). cbn [obind]. rewrite (S L). cbn [obind]. unfold u_rem.
    destruct (N.eqb_spec (uval b) 0) as [E0|_]; [lia|]. cbn [obind].
    rewrite Hd', Hb, N. change (negb (uval (uwrap 64 0) =? 0)) with false. cbv iota.
    rewrite siacoins_30000. cbn [obind].
    destruct (N.eqb_spec (uval h) fh) as [E1|E1].
    + rewrite siacoins_360000. cbn [obind]. eexists. split; [reflexivity|]. split; [reflexivity|].
      vm_compute. reflexivity.
    + cbn [obind]. eexists. split; [reflexivity|]. split; [reflexivity|]. vm_compute. reflexivity.
Qed.

Lemma subsidy_outcome : forall p cs,
  let fh := uval (hff_height (net_hardfork_foundation (cs_network cs))) in
  let d := dur_ns (net_block_interval (cs_network cs)) in
  let h := (height cs + 1) mod 2 ^ 64 in
  (p = Debug -> height cs + 1 = 2 ^ 64 -> foundation_subsidy p cs = Panic ArithOverflow) /\
  (p = Release \/ height cs + 1 < 2 ^ 64 ->
   (h < fh -> foundation_subsidy p cs = Val None) /\
   (fh <= h -> (d = 0 \/ month_ns < Z.abs d)%Z -> foundation_subsidy p cs = Panic DivByZero) /\
   (fh <= h -> (d <> 0)%Z -> (Z.abs d <= month_ns)%Z ->
      (h - fh) mod month_blocks cs <> 0 -> foundation_subsidy p cs = Val None) /\
   (fh <= h -> (d <> 0)%Z -> (Z.abs d <= month_ns)%Z -> (h - fh) mod month_blocks cs = 0 ->
      exists out, foundation_subsidy p cs = Val (Some out) /\
        sco_address out = hff_primary_address (net_hardfork_foundation (cs_network cs)) /\
        uval (sco_value out) = (if h =? fh then 12 else 1) * (30000 * siacoin))).
Proof.
  intros p cs fh d h. destruct (child_height_wrap cs) as (C1 & C2 & (x & C3 & C4)). split.
  - intros -> E. unfold foundation_subsidy. now rewrite (C2 E).
  - intros Hp. assert (exists y, child_height p cs = Val y /\ uval y = h) as (y & E & Hy).
    { destruct Hp as [->|Hp]; [exists x; split; assumption|].
      destruct (child_height_spec p cs Hp) as (y & E & Hy). exists y. split; [exact E|].
      rewrite Hy. unfold h. now rewrite N.mod_small. }
    pose proof (subsidy_from_height p cs y E) as F. cbv zeta in F. rewrite Hy in F. exact F.
Qed.

(** Mainnet with a block interval of minus ten minutes. *)
Definition backward_network : network := {|
  net_name := net_name mainnet;
  net_initial_coinbase := net_initial_coinbase mainnet;
  net_minimum_coinbase := net_minimum_coinbase mainnet;
  net_initial_target := net_initial_target mainnet;
  net_block_interval := MkDur (-600000000000)%Z eq_refl;
  net_maturity_delay := net_maturity_delay mainnet;
  net_hardfork_dev_addr := net_hardfork_dev_addr mainnet;
  net_hardfork_tax := net_hardfork_tax mainnet;
  net_hardfork_storage_proof := net_hardfork_storage_proof mainnet;
  net_hardfork_oak := net_hardfork_oak mainnet;
  net_hardfork_asic := net_hardfork_asic mainnet;
  net_hardfork_foundation := net_hardfork_foundation mainnet;
  net_hardfork_v2 := net_hardfork_v2 mainnet |}.

Lemma subsidy_examples :
  height (chain_at mainnet (2 ^ 64 - 1)) + 1 = 2 ^ 64 /\
  month_blocks (chain_at mainnet 0) = 4380 /\
  month_blocks (MkChainState backward_network (cs_state (chain_at mainnet 0))) = 2 ^ 64 - 4380 /\
  (Z.abs (dur_ns (net_block_interval backward_network)) <= month_ns)%Z.
Proof.
  split; [vm_compute; reflexivity|]. split; [vm_compute; reflexivity|]. split; [vm_compute; reflexivity|].
  vm_compute. discriminate.
Qed.
