(** Model of sia/src/consensus.rs (types, binary codecs and consensus functions) and of the
    two contract tax functions. *)

From Verif Require Import Base Io Model_encoding Model_common Model_currency Model_v1 Model_v2.
Local Open Scope N_scope.
Local Open Scope dec_scope.

(** ** Networks *)

(** consensus.rs:9-17 *)
Record hardfork_dev_addr : Type :=
  MkHfDevAddr { hfda_height : u64; hfda_old_address : hash256; hfda_new_address : hash256 }.

(** consensus.rs:19-25 *)
Record hardfork_tax : Type := MkHfTax { hft_height : u64 }.

(** consensus.rs:27-33 *)
Record hardfork_storage_proof : Type := MkHfSp { hfsp_height : u64 }.

(** consensus.rs:35-44 *)
Record hardfork_oak : Type :=
  MkHfOak { hfo_height : u64; hfo_fix_height : u64; hfo_genesis_timestamp : odt }.

(** consensus.rs:46-55 *)
Record hardfork_asic : Type :=
  MkHfAsic { hfa_height : u64; hfa_oak_time : duration; hfa_oak_target : hash256 }.

(** consensus.rs:57-65 *)
Record hardfork_foundation : Type :=
  MkHfFoundation { hff_height : u64; hff_primary_address : hash256;
                   hff_failsafe_address : hash256 }.

(** consensus.rs:67-73 *)
Record hardfork_v2 : Type := MkHfV2 { hfv2_allow_height : u64; hfv2_require_height : u64 }.

(** consensus.rs:75-96 *)
Record network : Type :=
  MkNetwork { net_name : rstring;
              net_initial_coinbase : currency;
              net_minimum_coinbase : currency;
              net_initial_target : hash256;
              net_block_interval : duration;
              net_maturity_delay : u64;
              net_hardfork_dev_addr : hardfork_dev_addr;
              net_hardfork_tax : hardfork_tax;
              net_hardfork_storage_proof : hardfork_storage_proof;
              net_hardfork_oak : hardfork_oak;
              net_hardfork_asic : hardfork_asic;
              net_hardfork_foundation : hardfork_foundation;
              net_hardfork_v2 : hardfork_v2 }.

(** ** ElementAccumulator *)

(** Fixed-size arrays of values, Rust's [[A; n]]. *)
Record farr (n : nat) (A : Type) : Type :=
  MkFarr { flist : list A; flist_ok : Nat.eqb (length flist) n = true }.
Arguments MkFarr {n A} flist flist_ok.
Arguments flist {n A} f.

Lemma farr_eq : forall n A (a b : farr n A), flist a = flist b -> a = b.
Proof.
  intros n A [x hx] [y hy] H; cbn in H; subst y; f_equal. apply Eqdep_dec.UIP_dec, bool_dec.
Qed.

Definition farr_of {A} (n : nat) (l : list A) : option (farr n A) :=
  match bool_dec (Nat.eqb (length l) n) true with
  | left h => Some (MkFarr l h)
  | right _ => None
  end.

Lemma farr_of_flist : forall n A (a : farr n A), farr_of n (flist a) = Some a.
Proof.
  intros n A a; unfold farr_of. destruct (bool_dec _ true) as [h|h].
  - f_equal; now apply farr_eq.
  - destruct h, a; assumption.
Qed.

Lemma farr_of_some : forall n A (l : list A) a, farr_of n l = Some a -> flist a = l.
Proof.
  intros n A l a; unfold farr_of. destruct (bool_dec _ true); [|discriminate]. now intros [= <-].
Qed.

Lemma farr_of_ok : forall n A (l : list A), length l = n -> exists a, farr_of n l = Some a.
Proof.
  intros n A l H. unfold farr_of. destruct (bool_dec _ true) as [h|h]; [eauto|].
  destruct h. now apply Nat.eqb_eq.
Qed.

Lemma farr_len : forall n A (a : farr n A), length (flist a) = n.
Proof. intros n A [x hx]; cbn; now apply Nat.eqb_eq. Qed.

(** consensus.rs:251-253, merkle.rs:26-28; the height is below 64 at every call. *)
Definition has_tree_at_height (num_leaves : u64) (height : N) : bool :=
  negb (N.land (uval num_leaves) (N.shiftl 1 height) =? 0).

(** [Hash256::default()] *)
Definition zero_hash : hash256 := arr_of 32 [].

(** consensus.rs:255-259 *)
Record element_accumulator : Type :=
  MkEa { ea_num_leaves : u64; ea_trees : farr 64 hash256 }.

(** consensus.rs:261-268 *)
Definition element_accumulator_default : element_accumulator :=
  MkEa (uwrap 64 0) (@MkFarr 64 hash256 (repeat zero_hash 64) eq_refl).

(** consensus.rs:273-277, from index [i] on *)
Fixpoint encode_trees (num_leaves : u64) (i : N) (l : list hash256) : wprog :=
  match l with
  | [] => []
  | root :: r =>
    (if has_tree_at_height num_leaves i then encode_hash root else [])
      ++ encode_trees num_leaves (i + 1) r
  end.

(** consensus.rs:270-280 *)
Definition encode_element_accumulator (a : element_accumulator) : wprog :=
  encode_u64 (ea_num_leaves a) ++ encode_trees (ea_num_leaves a) 0 (flist (ea_trees a)).

(** consensus.rs:285-291, for the last [k] slots, the first of which is slot [i] *)
Fixpoint decode_trees (num_leaves : u64) (i : N) (k : nat) : dec (list hash256) :=
  match k with
  | O => DRet []
  | S k' =>
    root <- (if has_tree_at_height num_leaves i then decode_hash else DRet zero_hash) ;;
    rest <- decode_trees num_leaves (i + 1) k' ;;
    DRet (root :: rest)
  end.

(** consensus.rs:282-294 *)
Definition decode_element_accumulator : dec element_accumulator :=
  num_leaves <- decode_u64 ;;
  l <- decode_trees num_leaves 0 64 ;;
  match farr_of 64 l with
  | Some trees => DRet (MkEa num_leaves trees)
  | None => DPanic Unreachable
  end.

(** ** State — consensus.rs:348-373 *)
Record state : Type :=
  MkState { st_index : chain_index;
            st_prev_timestamps : farr 11 odt;
            st_depth : hash256;
            st_child_target : hash256;
            st_siafund_pool : currency;
            st_oak_time : duration;
            st_oak_target : hash256;
            st_foundation_primary_address : hash256;
            st_foundation_failsafe_address : hash256;
            st_total_work : work;
            st_difficulty : work;
            st_oak_work : work;
            st_elements : element_accumulator;
            st_attestations : u64 }.

(** consensus.rs:378-382, 406-410 *)
Definition timestamps_count (p : profile) (c : chain_index) : outcome nat :=
  obind (ci_child_height p c) (fun h =>
  Val (if uval h <? 11 then N.to_nat (uval h) else 11%nat)).

(** consensus.rs:375-401 *)
Definition encode_state (p : profile) (s : state) : wprog :=
  encode_chain_index (st_index s) ++
  match timestamps_count p (st_index s) with
  | Panic q => [WPanic q]
  | Val count =>
    wunwrap (concat (map encode_odt (firstn count (flist (st_prev_timestamps s))))) ++
    encode_hash (st_depth s) ++
    encode_hash (st_child_target s) ++
    encode_currency (st_siafund_pool s) ++
    encode_duration (st_oak_time s) ++
    encode_hash (st_oak_target s) ++
    encode_hash (st_foundation_primary_address s) ++
    encode_hash (st_foundation_failsafe_address s) ++
    encode_work (st_total_work s) ++
    encode_work (st_difficulty s) ++
    encode_work (st_oak_work s) ++
    encode_element_accumulator (st_elements s) ++
    encode_u64 (st_attestations s)
  end.

Lemma epoch_ok : ((ts_min <=? 0)%Z && (0 <=? ts_max)%Z && (0 <? 1000000000)) = true.
Proof. reflexivity. Qed.

(** [OffsetDateTime::UNIX_EPOCH] *)
Definition unix_epoch : odt := MkOdt 0 0 epoch_ok.

(** consensus.rs:412-417: the first [count] of [k] slots are read, the others keep the epoch. *)
Fixpoint decode_timestamps (count k : nat) : dec (list odt) :=
  match k with
  | O => DRet []
  | S k' =>
    match count with
    | O => DRet (repeat unix_epoch k)
    | S c =>
      ts <- decode_odt ;;
      rest <- decode_timestamps c k' ;;
      DRet (ts :: rest)
    end
  end.

(** consensus.rs:403-435 *)
Definition decode_state (p : profile) : dec state :=
  index <- decode_chain_index ;;
  match timestamps_count p index with
  | Panic q => DPanic q
  | Val count =>
    ts <- decode_timestamps count 11 ;;
    match farr_of 11 ts with
    | None => DPanic Unreachable
    | Some prev_timestamps =>
      depth <- decode_hash ;;
      child_target <- decode_hash ;;
      siafund_pool <- decode_currency ;;
      oak_time <- decode_duration ;;
      oak_target <- decode_hash ;;
      foundation_primary_address <- decode_hash ;;
      foundation_failsafe_address <- decode_hash ;;
      total_work <- decode_work ;;
      difficulty <- decode_work ;;
      oak_work <- decode_work ;;
      elements <- decode_element_accumulator ;;
      attestations <- decode_u64 ;;
      DRet (MkState index prev_timestamps depth child_target siafund_pool oak_time oak_target
              foundation_primary_address foundation_failsafe_address total_work difficulty
              oak_work elements attestations)
    end
  end.

(** ** ChainState — consensus.rs:437-443 *)
Record chain_state : Type := MkChainState { cs_network : network; cs_state : state }.

(** consensus.rs:446-449 *)
Definition child_height (p : profile) (cs : chain_state) : outcome u64 :=
  ci_child_height p (st_index (cs_state cs)).

(** consensus.rs:451-462 *)
Definition block_reward (p : profile) (cs : chain_state) : outcome currency :=
  obind (child_height p cs) (fun h =>
  obind (siacoins p h) (fun dec =>
  Val (match checked_sub (net_initial_coinbase (cs_network cs)) dec with
       | Some reward =>
         if uval (net_minimum_coinbase (cs_network cs)) <=? uval reward then reward
         else net_minimum_coinbase (cs_network cs)
       | None => net_minimum_coinbase (cs_network cs)
       end))).

(** consensus.rs:464-467 *)
Definition maturity_height (p : profile) (cs : chain_state) : outcome u64 :=
  obind (child_height p cs) (fun h => u_add p h (net_maturity_delay (cs_network cs))).

(** consensus.rs:469-472 *)
Definition siafund_count : u64 := uwrap 64 10000.

(** consensus.rs:474-477 *)
Definition ancestor_depth : u64 := uwrap 64 1000.

(** consensus.rs:479-484: [i128] division truncates towards zero and panics on zero; the
    quotient by -1 cannot overflow. *)
Definition blocks_per_month (cs : chain_state) : outcome u64 :=
  let ns := dur_ns (net_block_interval (cs_network cs)) in
  if (ns =? 0)%Z then Panic DivByZero
  else Val (uwrap 64 (Z.to_N (Z.quot (Z.quot (365 * 86400 * 1000000000) 12) ns mod 2 ^ 64))).

(** consensus.rs:486-506 *)
Definition foundation_subsidy (p : profile) (cs : chain_state) : outcome (option siacoin_output) :=
  let fh := hff_height (net_hardfork_foundation (cs_network cs)) in
  obind (child_height p cs) (fun h =>
  if uval h <? uval fh then Val None
  else
  obind (blocks_per_month cs) (fun bpm =>
  obind (u_sub p h fh) (fun d =>
  obind (u_rem d bpm) (fun r =>
  if negb (uval r =? 0) then Val None
  else
  obind (siacoins p (uwrap 64 30000)) (fun subsidy_per_block =>
  obind (if uval h =? uval fh then currency_mul p subsidy_per_block (currency_new 12)
         else Val subsidy_per_block) (fun value =>
  Val (Some (MkSco value (hff_primary_address (net_hardfork_foundation (cs_network cs))))))))))).

(** consensus.rs:508-517 *)
Definition replay_prefix (cs : chain_state) : bytes :=
  let h := uval (ci_height (st_index (cs_state cs))) in
  if uval (hfv2_allow_height (net_hardfork_v2 (cs_network cs))) <=? h then [x02]
  else if uval (hff_height (net_hardfork_foundation (cs_network cs))) <=? h then [x01]
  else if uval (hfa_height (net_hardfork_asic (cs_network cs))) <=? h then [x00]
  else [].

(** consensus.rs:519-524 *)
Definition nonce_factor (p : profile) (cs : chain_state) : outcome u64 :=
  obind (child_height p cs) (fun h =>
  Val (if uval h <? uval (hfa_height (net_hardfork_asic (cs_network cs)))
       then uwrap 64 1 else uwrap 64 1009)).

(** consensus.rs:526-528 *)
Definition max_block_weight : u64 := uwrap 64 2000000.

(** ** Contract tax *)

(** [0.039f64] is the rational 5620492334958379 / 2^57; [Ratio::from_float] is exact and
    reduces it (the numerator is odd). *)
Definition float_039_num : N := 5620492334958379.
Definition float_039_den : N := 2 ^ 57.

(** v1.rs:191-201. [BigInt] arithmetic on non-negative numbers; the reduced quotient
    [numer / denom] is the floor of the product. [to_u128] never fails: the tax is at most
    the payout. *)
Definition v1_tax (p : profile) (fc : v1_file_contract) (cs : chain_state) : outcome currency :=
  obind (child_height p cs) (fun h =>
  let payout := uval (v1fc_payout fc) in
  let tax := if uval h <? uval (hft_height (net_hardfork_tax (cs_network cs)))
             then payout * float_039_num / float_039_den
             else payout * 39 / 1000 in
  let r := tax - tax mod uval siafund_count in
  if r <? 2 ^ 128 then Val (uwrap 128 r) else Panic UnwrapNone).

(** v2.rs:81-84 *)
Definition v2_tax (p : profile) (fc : v2_file_contract) (cs : chain_state) : outcome currency :=
  obind (currency_add p (sco_value (v2fc_renter_output fc)) (sco_value (v2fc_host_output fc)))
    (fun total =>
  obind (currency_div total (currency_new 25)) (fun tax =>
  obind (currency_rem tax (currency_new (uval siafund_count))) (fun r =>
  currency_sub p tax r))).
