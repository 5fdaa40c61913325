(** The layouts of SpecFormat.v. *)

From Verif Require Import Base Io IoProofs Spec SpecWire SpecFormat Codec CodecTac Model_encoding EncodingProofs
  Model_common CommonProofs Model_v1 V1Proofs Model_policy PolicyProofs Model_v2 V2Proofs V2TxnProofs
  Model_consensus ConsensusProofs BasicProofs Samples.
Local Open Scope N_scope.
Local Open Scope dec_scope.

(** ** Accumulators *)

Lemma wbytes_hash_aval : forall n (h : arr n), wbytes (encode_arr h) = aval h.
Proof. intros. unfold encode_arr. apply wbytes_write_all. Qed.

Lemma trees_present : forall n l i, wbytes (encode_trees n (N.of_nat i) l) =
  concat (map aval (map snd (filter (fun x => N.testbit (uval n) (N.of_nat (fst x))) (combine (seq i (length l)) l)))).
Proof.
  intros n; induction l as [|h l IH]; intros i; [reflexivity|]. cbn [encode_trees length seq combine filter fst].
  rewrite wbytes_app_p by (destruct (has_tree_at_height n (N.of_nat i)); [apply prop_arr|constructor]).
  replace (N.of_nat i + 1) with (N.of_nat (S i)) by lia. rewrite IH, has_tree_testbit.
  destruct (N.testbit (uval n) (N.of_nat i)); cbn [map concat snd]; [unfold encode_hash; now rewrite wbytes_hash_aval|reflexivity].
Qed.

Lemma accumulator_layout : forall a, exists count,
  wbytes (encode_element_accumulator a) =
    count ++ concat (map aval (present (uval (ea_num_leaves a)) (flist (ea_trees a)))) /\
  length count = 8%nat /\ le_value count = uval (ea_num_leaves a).
Proof.
  intros a. exists (wbytes (encode_u64 (ea_num_leaves a))).
  unfold encode_element_accumulator. rewrite wbytes_app_p by apply prop_uint.
  split; [f_equal; exact (trees_present _ _ O)|]. now apply uint_layout.
Qed.

Definition masked (n : u64) (i : nat) (l : list hash256) : list hash256 :=
  map (fun x => if N.testbit (uval n) (N.of_nat (fst x)) then snd x else zero_hash) (combine (seq i (length l)) l).

Lemma masked_length : forall n i l, length (masked n i l) = length l.
Proof. intros. unfold masked. rewrite map_length, combine_length, seq_length. lia. Qed.

Lemma masked_encode : forall n l i, encode_trees n (N.of_nat i) (masked n i l) = encode_trees n (N.of_nat i) l.
Proof.
  intros n; induction l as [|h l IH]; intros i; [reflexivity|].
  unfold masked. cbn [length seq combine map fst snd encode_trees]. fold (masked n (S i) l).
  replace (N.of_nat i + 1) with (N.of_nat (S i)) by lia. rewrite IH, has_tree_testbit.
  now destruct (N.testbit (uval n) (N.of_nat i)).
Qed.

Lemma masked_nth : forall n l i j, nth j (masked n i l) zero_hash =
  if N.testbit (uval n) (N.of_nat (i + j)) then nth j l zero_hash else zero_hash.
Proof.
  intros n; induction l as [|h l IH]; intros i j.
  - unfold masked. cbn. destruct j; now destruct (N.testbit _ _).
  - unfold masked. cbn [length seq combine map fst snd]. fold (masked n (S i) l). destruct j as [|j]; cbn [nth].
    + now rewrite Nat.add_0_r.
    + rewrite IH. now replace (S i + j)%nat with (i + S j)%nat by lia.
Qed.

Lemma accumulator_decoded : forall a rest, exists b,
  run decode_element_accumulator (wbytes (encode_element_accumulator a) ++ rest) = ROk b rest /\
  ea_num_leaves b = ea_num_leaves a /\
  forall i, nth i (flist (ea_trees b)) zero_hash =
    if N.testbit (uval (ea_num_leaves a)) (N.of_nat i) then nth i (flist (ea_trees a)) zero_hash else zero_hash.
Proof.
  intros a rest.
  assert (HL : length (masked (ea_num_leaves a) 0 (flist (ea_trees a))) = 64%nat)
    by (rewrite masked_length; apply farr_len).
  destruct (farr_of_ok 64 _ _ HL) as [t Ht]. apply farr_of_some in Ht.
  exists (MkEa (ea_num_leaves a) t).
  assert (Hn : forall i, nth i (flist t) zero_hash =
    if N.testbit (uval (ea_num_leaves a)) (N.of_nat i) then nth i (flist (ea_trees a)) zero_hash else zero_hash).
  { intros i. rewrite Ht. apply (masked_nth _ _ 0%nat). }
  split; [|split; [reflexivity|exact Hn]].
  rewrite <- rt_element_accumulator with (rest := rest).
  - f_equal. f_equal. unfold encode_element_accumulator. cbn [ea_num_leaves ea_trees]. rewrite Ht.
    change 0 with (N.of_nat 0). now rewrite masked_encode.
  - intros i Hi. cbn [ea_num_leaves ea_trees] in *. rewrite Hn, Hi. reflexivity.
Qed.

(** ** Chain states *)

Lemma stamps : forall l, exists bs, wbytes (concat (map encode_odt l)) = concat bs /\ Forall2 StampBytes l bs.
Proof.
  induction l as [|t l (bs & E & H)]; [exists []; split; [reflexivity|constructor]|].
  exists (wbytes (encode_odt t) :: bs). cbn [map concat]. rewrite wbytes_app_p by apply prop_odt. rewrite E.
  split; [reflexivity|]. constructor; [|exact H]. exact (sint_layout 64 (unix_timestamp t) ltac:(lia)).
Qed.

Lemma forall2_length : forall A B (R : A -> B -> Prop) l m, Forall2 R l m -> length l = length m.
Proof. induction 1; cbn; congruence. Qed.

Lemma state_layout : forall p s, uval (ci_height (st_index s)) + 1 < 2 ^ 64 ->
  exists stamps,
    wbytes (encode_state p s) = wbytes (encode_chain_index (st_index s)) ++ concat stamps ++ state_tail s /\
    length stamps = N.to_nat (N.min (uval (ci_height (st_index s)) + 1) 11) /\
    Forall2 StampBytes (firstn (N.to_nat (N.min (uval (ci_height (st_index s)) + 1) 11)) (flist (st_prev_timestamps s))) stamps.
Proof.
  intros p s H. destruct (stamps (firstn (ts_count s) (flist (st_prev_timestamps s)))) as (bs & E & F).
  exists bs. unfold encode_state. rewrite timestamps_count_val by assumption.
  rewrite wbytes_app_p by apply prop_chain_index.
  rewrite wbytes_app by (apply no_wpanic_wunwrap, prop_ts). rewrite wbytes_wunwrap by apply prop_ts. rewrite E.
  assert (Hc : N.to_nat (N.min (uval (ci_height (st_index s)) + 1) 11) = ts_count s) by (unfold ts_count; lia).
  rewrite Hc. split; [|split; [|exact F]].
  - do 2 f_equal. unfold state_tail. repeat rewrite wbytes_app_p by prop_tac.
    unfold encode_hash. now rewrite !wbytes_hash_aval.
  - apply forall2_length in F. etransitivity; [symmetry; exact F|]. rewrite firstn_length, farr_len. pose proof (ts_count_le s). lia.
Qed.

Definition epochs : farr 11 odt := @MkFarr 11 odt (repeat unix_epoch 11) eq_refl.

Lemma state_max_debug : forall s, uval (ci_height (st_index s)) = 2 ^ 64 - 1 ->
  snd (run_writer (encode_state Debug s) []) = WSPanic ArithOverflow.
Proof.
  intros s H. unfold encode_state, timestamps_count, ci_child_height, u_add. rewrite H.
  change (uval (uwrap 64 1)) with 1. change (2 ^ 64 - 1 + 1 <? 2 ^ 64) with false. cbv iota. cbn [obind].
  generalize (prop_chain_index (st_index s)). generalize (encode_chain_index (st_index s)). intros q Hq.
  induction q as [|o q IH]; [reflexivity|]. inversion Hq as [|? ? [b ->] Hq']; subst. cbn [app run_writer].
  specialize (IH Hq'). destruct b as [|c b]; cbn [write_all_to];
    destruct (run_writer _ []) as [y st]; exact IH.
Qed.

Lemma state_max_release : forall s rest, uval (ci_height (st_index s)) = 2 ^ 64 - 1 ->
  (0 <= dur_ns (st_oak_time s) < 2 ^ 63)%Z -> ea_normal (st_elements s) ->
  run (decode_state Release) (wbytes (encode_state Release s) ++ rest) = ROk (with_timestamps s epochs) rest.
Proof.
  intros s rest H Hd He. unfold encode_state, decode_state.
  assert (Hc : timestamps_count Release (st_index s) = Val 0%nat).
  { unfold timestamps_count, ci_child_height, u_add. rewrite H. reflexivity. }
  rewrite Hc. rewrite wbytes_app_p by apply prop_chain_index. rewrite <- app_assoc.
  rewrite run_bind, rt_chain_index, Hc. cbn [firstn map concat wunwrap app].
  rewrite run_bind. cbn [decode_timestamps run].
  change (farr_of 11 (repeat unix_epoch 11)) with (farr_of 11 (flist epochs)). rewrite farr_of_flist.
  split_wbytes. repeat (rt_step; cbv beta). reflexivity.
Qed.

Lemma s_accumulator_normal : ea_normal s_accumulator.
Proof.
  intros i H. destruct i as [|[|[|i]]]; [discriminate H|reflexivity|discriminate H|].
  change (nth i (repeat zero_hash 61) zero_hash = zero_hash). apply nth_repeat.
Qed.

Lemma state_heights_refuted : ~ (forall p s rest,
  (forall i, odt_nanos (nth i (flist (st_prev_timestamps s)) unix_epoch) = 0) ->
  (forall i, (ts_count s <= i)%nat -> nth i (flist (st_prev_timestamps s)) unix_epoch = unix_epoch) ->
  (0 <= dur_ns (st_oak_time s) < 2 ^ 63)%Z -> ea_normal (st_elements s) ->
  run (decode_state p) (wbytes (encode_state p s) ++ rest) = ROk s rest).
Proof.
  intros H. pose (s := s_state (2 ^ 64 - 1) (repeat s_time 11) eq_refl).
  assert (Hd : (0 <= dur_ns (st_oak_time s) < 2 ^ 63)%Z) by (cbn; split; [discriminate|reflexivity]).
  assert (He : ea_normal (st_elements s)) by exact s_accumulator_normal.
  specialize (H Release s []). rewrite state_max_release in H by first [reflexivity|assumption].
  assert (E : ROk (with_timestamps s epochs) [] = ROk s []).
  { apply H; try assumption.
    - intros i. change (flist (st_prev_timestamps s)) with (repeat s_time 11).
      destruct (Nat.ltb_spec i 11).
      + do 11 (destruct i as [|i]; [reflexivity|]). lia.
      + now rewrite nth_overflow by (rewrite repeat_length; lia).
    - intros i Hi. apply nth_overflow. rewrite farr_len. exact Hi. }
  apply (f_equal (fun r => match r with ROk s _ => odt_secs (nth 0 (flist (st_prev_timestamps s)) unix_epoch) | _ => 0%Z end)) in E.
  cbn in E. discriminate.
Qed.

(** ** v2 transactions *)

Definition shown (o : option bytes) : bytes := match o with Some b => b | None => [] end.

Lemma listed_when : forall sz A (e : A -> wprog) (v : vec sz A),
  wbytes (encode_when (negb (is_empty v)) (encode_vec e v)) = shown (listed e v).
Proof. intros. unfold listed, is_empty. destruct (vlist v); reflexivity. Qed.

Lemma listed_some : forall sz A (e : A -> wprog) (v : vec sz A),
  negb (is_empty v) = match listed e v with Some _ => true | None => false end.
Proof. intros. unfold listed, is_empty. now destruct (vlist v). Qed.

Lemma conditions_sections : forall t,
  txn_conditions t = map (fun o => match o with Some _ => true | None => false end) (sections t).
Proof.
  intros t. unfold txn_conditions, sections. cbn [map]. rewrite <- !listed_some.
  unfold is_some, is_zero. destruct (v2t_new_foundation_address t); destruct (uval (v2t_miner_fee t) =? 0); reflexivity.
Qed.

Lemma transaction_body : forall t,
  wbytes (encode_v2_transaction t) =
  [x02] ++ le_bytes 8 (sum_bits 0 (txn_conditions t)) ++ body (sections t).
Proof.
  intros t. unfold encode_v2_transaction.
  repeat (rewrite wbytes_app_p;
    [|first [apply prop_when; prop_tac | prop_tac
            | destruct (v2t_new_foundation_address t); [prop_tac|constructor]]]).
  rewrite !listed_when. unfold sections, body. cbn [map concat].
  change (wbytes (encode_u8 x02)) with [x02]. f_equal.
  unfold encode_u64. rewrite wbytes_uint by lia. rewrite uwrap_small.
  2:{ eapply N.lt_trans; [apply (sum_bits_testbit (negb (is_empty (v2t_siacoin_inputs t))))|reflexivity]. }
  repeat f_equal.
  - unfold encode_hash. destruct (v2t_new_foundation_address t); [apply wbytes_hash_aval|reflexivity].
  - rewrite app_nil_r. unfold is_zero, encode_when. destruct (uval (v2t_miner_fee t) =? 0); reflexivity.
Qed.

Lemma testbit_nth : forall b0 b1 b2 b3 b4 b5 b6 b7 b8 b9 b10 i,
  N.testbit (sum_bits 0 [b0; b1; b2; b3; b4; b5; b6; b7; b8; b9; b10]) (N.of_nat i) =
  nth i [b0; b1; b2; b3; b4; b5; b6; b7; b8; b9; b10] false.
Proof.
  intros. destruct (sum_bits_testbit b0 b1 b2 b3 b4 b5 b6 b7 b8 b9 b10)
    as (Hlt & H0 & H1 & H2 & H3 & H4 & H5 & H6 & H7 & H8 & H9 & H10).
  destruct i as [|i]; [exact H0|]. destruct i as [|i]; [exact H1|]. destruct i as [|i]; [exact H2|]. destruct i as [|i]; [exact H3|]. destruct i as [|i]; [exact H4|]. destruct i as [|i]; [exact H5|]. destruct i as [|i]; [exact H6|]. destruct i as [|i]; [exact H7|]. destruct i as [|i]; [exact H8|]. destruct i as [|i]; [exact H9|]. destruct i as [|i]; [exact H10|]. 
  transitivity false; [|destruct i; reflexivity].
  clear - Hlt. revert Hlt. cbv zeta. generalize (sum_bits 0 [b0; b1; b2; b3; b4; b5; b6; b7; b8; b9; b10]). intros n Hlt.
  destruct (N.eq_0_gt_0_cases n) as [->|Hp]; [apply N.bits_0|].
  apply N.bits_above_log2. eapply N.lt_le_trans; [exact (proj1 (N.log2_lt_pow2 n 11 Hp) Hlt)|]. lia.
Qed.

Lemma transaction_layout : forall t, exists bitmap,
  wbytes (encode_v2_transaction t) = [x02] ++ bitmap ++ body (sections t) /\ length bitmap = 8%nat /\
  forall i, N.testbit (le_value bitmap) (N.of_nat i) = true <-> exists b, nth_error (sections t) i = Some (Some b).
Proof.
  intros t. exists (le_bytes 8 (sum_bits 0 (txn_conditions t))). split; [apply transaction_body|].
  split; [apply le_bytes_length|]. intros i. rewrite le_value_spec, from_le_le_bytes. rewrite N.mod_small.
  2:{ eapply N.lt_trans; [apply (sum_bits_testbit (negb (is_empty (v2t_siacoin_inputs t))))|reflexivity]. }
  unfold txn_conditions at 1. rewrite testbit_nth. fold (txn_conditions t). rewrite conditions_sections.
  generalize (sections t). intros l. revert i. induction l as [|o l IH]; intros i.
  - destruct i; cbn; (split; [discriminate|intros [b Hb]; discriminate]).
  - destruct i as [|i]; cbn [map nth nth_error].
    + destruct o as [b|]; (split; [try (intros _; now exists b); discriminate|intros [c Hc]; congruence]).
    + apply IH.
Qed.

Lemma transaction_empty : wbytes (encode_v2_transaction empty_transaction) = x02 :: repeat x00 8.
Proof. reflexivity. Qed.

Lemma transaction_version : forall stack v bs, v <> x02 ->
  exists e, run (decode_v2_transaction stack) (v :: bs) = RErr e.
Proof.
  intros stack v bs H. unfold decode_v2_transaction. rewrite run_bind.
  change (run decode_u8 (v :: bs)) with (ROk v bs). cbv beta iota.
  destruct v; try (eexists; reflexivity). now destruct H.
Qed.

Lemma decode_u64_bytes : forall m rest, length m = 8%nat ->
  run decode_u64 (m ++ rest) = ROk (uwrap 64 (le_value m)) rest.
Proof.
  intros m rest H. rewrite <- (rt_u64 (uwrap 64 (le_value m))). f_equal. f_equal.
  unfold encode_u64. rewrite wbytes_uint by lia. rewrite uwrap_small by now apply le_value_8.
  now rewrite le_bytes_of_value.
Qed.

Lemma transaction_unknown : forall stack m m' bs, length m = 8%nat -> length m' = 8%nat ->
  (forall i, i < 11 -> N.testbit (le_value m) i = N.testbit (le_value m') i) ->
  run (decode_v2_transaction stack) (x02 :: m ++ bs) = run (decode_v2_transaction stack) (x02 :: m' ++ bs).
Proof.
  intros stack m m' bs Hm Hm' H. unfold decode_v2_transaction. rewrite !(run_bind _ _ decode_u8).
  change (run decode_u8 (x02 :: m ++ bs)) with (ROk x02 (m ++ bs)).
  change (run decode_u8 (x02 :: m' ++ bs)) with (ROk x02 (m' ++ bs)). cbv beta iota.
  rewrite !(run_bind _ _ decode_u64), !decode_u64_bytes by assumption. cbv zeta.
  rewrite !uwrap_small by now apply le_value_8.
  assert (E : forall i A (d : A) q, i < 11 -> decode_when (le_value m) (2 ^ i) d q = decode_when (le_value m') (2 ^ i) d q).
  { intros i A d q Hi. unfold decode_when. now rewrite !land_pow2, H. }
  change 1024 with (2 ^ 10). change 512 with (2 ^ 9). change 256 with (2 ^ 8). change 128 with (2 ^ 7).
  change 64 with (2 ^ 6). change 32 with (2 ^ 5). change 16 with (2 ^ 4). change 8 with (2 ^ 3).
  change 4 with (2 ^ 2). change 2 with (2 ^ 1).
  f_equal.
  rewrite (E 1), (E 2), (E 3), (E 4), (E 5), (E 6), (E 7), (E 8), (E 9), (E 10) by reflexivity.
  change 1 with (2 ^ 0) at 1. change (decode_when (le_value m') 1) with (decode_when (A := vec 224 v2_siacoin_input) (le_value m') (2 ^ 0)).
  now rewrite (E 0) by reflexivity.
Qed.

Lemma when_clear : forall A n i (dflt : A) d bs a rest, N.testbit n i = false ->
  run (decode_when n (2 ^ i) dflt d) bs = ROk a rest -> a = dflt /\ rest = bs.
Proof.
  intros A n i dflt d bs a rest H. unfold decode_when. rewrite land_pow2, H. cbn [negb run].
  intros E. injection E as <- <-. split; reflexivity.
Qed.

Lemma transaction_absent : forall stack m bs t rest i, length m = 8%nat ->
  run (decode_v2_transaction stack) (x02 :: m ++ bs) = ROk t rest ->
  (i < 11)%nat -> N.testbit (le_value m) (N.of_nat i) = false -> nth_error (sections t) i = Some None.
Proof.
  intros stack m bs t rest i Hm H Hi Hb. unfold decode_v2_transaction in H. rewrite run_bind in H.
  change (run decode_u8 (x02 :: m ++ bs)) with (ROk x02 (m ++ bs)) in H. cbv beta iota in H.
  rewrite run_bind, decode_u64_bytes in H by assumption. cbv zeta in H.
  rewrite uwrap_small in H by now apply le_value_8.
  do 11 (apply run_bind_ok in H as (? & ? & ? & H)). apply run_ret_ok in H as [<- _].
  do 11 (destruct i as [|i]; [
    cbn [sections nth_error v2t_siacoin_inputs v2t_siacoin_outputs v2t_siafund_inputs v2t_siafund_outputs
      v2t_file_contracts v2t_file_contract_revisions v2t_file_contract_resolutions v2t_attestations
      v2t_arbitrary_data v2t_new_foundation_address v2t_miner_fee];
    match goal with
    | E : run (decode_when _ ?k _ _) _ = ROk ?a _ |- context [?a] =>
      let j := eval vm_compute in (N.log2 k) in change k with (2 ^ j) in E;
      apply when_clear in E as [-> _]; [reflexivity|exact Hb]
    end|]).
  lia.
Qed.

(** ** Resolutions *)

Lemma resolution_layout : forall r, exists payload,
  wbytes (encode_file_contract_resolution r) =
    wbytes (encode_file_contract_element (fcres_parent r)) ++ [resolution_tag (fcres_resolution r)] ++ payload.
Proof.
  intros r. unfold encode_file_contract_resolution. rewrite wbytes_app_p by apply prop_file_contract_element.
  destruct (fcres_resolution r).
  - eexists. rewrite wbytes_app_p by apply prop_u8. reflexivity.
  - eexists. rewrite wbytes_app_p by apply prop_u8. reflexivity.
  - exists []. reflexivity.
Qed.

Lemma resolution_kind : forall r rest, exists s,
  run decode_file_contract_resolution (wbytes (encode_file_contract_resolution r) ++ rest) = ROk s rest /\ s = r.
Proof. intros r rest. exists r. split; [apply rt_file_contract_resolution|reflexivity]. Qed.

Lemma resolution_tags : forall parent tag bs r rest,
  run decode_file_contract_resolution (wbytes (encode_file_contract_element parent) ++ tag :: bs) = ROk r rest ->
  resolution_tag (fcres_resolution r) = tag /\ fcres_parent r = parent.
Proof.
  intros parent tag bs r rest H. unfold decode_file_contract_resolution in H.
  rewrite run_bind, rt_file_contract_element, run_bind in H.
  change (run decode_u8 (tag :: bs)) with (ROk tag bs) in H. cbv beta iota in H.
  apply run_bind_ok in H as (x & b & H1 & H). apply run_ret_ok in H as [<- _].
  cbn [fcres_parent fcres_resolution]. split; [|reflexivity].
  destruct tag; try discriminate H1.
  - apply run_bind_ok in H1 as (y & c & _ & H1). apply run_ret_ok in H1 as [<- _]. reflexivity.
  - apply run_bind_ok in H1 as (y & c & _ & H1). apply run_ret_ok in H1 as [<- _]. reflexivity.
  - apply run_ret_ok in H1 as [<- _]. reflexivity.
Qed.

Lemma resolution_unknown : forall parent tag bs, tag <> x00 -> tag <> x01 -> tag <> x02 ->
  exists e, run decode_file_contract_resolution (wbytes (encode_file_contract_element parent) ++ tag :: bs) = RErr e.
Proof.
  intros parent tag bs H0 H1 H2. unfold decode_file_contract_resolution.
  rewrite run_bind, rt_file_contract_element, run_bind.
  change (run decode_u8 (tag :: bs)) with (ROk tag bs). cbv beta iota.
  destruct tag; try (eexists; reflexivity); congruence.
Qed.

Lemma transaction_unknown_refuted : ~ (forall stack m bs, length m = 8%nat -> 2 ^ 11 <= le_value m ->
  exists e, run (decode_v2_transaction stack) (x02 :: m ++ bs) = RErr e).
Proof.
  intros H. destruct (H 1%nat [x00; x08; x00; x00; x00; x00; x00; x00] [] eq_refl ltac:(discriminate)) as [e E].
  vm_compute in E. discriminate.
Qed.
