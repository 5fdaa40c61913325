(** Codec laws of [ElementAccumulator] and [State], and the consensus functions. *)

From Verif Require Import Base Io IoProofs Spec SpecWire Codec Model_encoding EncodingProofs CodecTac
  Model_common CommonProofs Model_currency Model_v1 V1Proofs Model_v2 Model_consensus.
Local Open Scope N_scope.
Local Open Scope dec_scope.

Lemma has_tree_testbit : forall n i, has_tree_at_height n i = N.testbit (uval n) i.
Proof.
  intros n i. unfold has_tree_at_height. rewrite N.shiftl_1_l.
  destruct (N.testbit (uval n) i) eqn:E.
  - apply negb_true_iff, N.eqb_neq. intros H. apply (f_equal (fun x => N.testbit x i)) in H.
    rewrite N.land_spec, E, N.pow2_bits_true, N.bits_0 in H. discriminate.
  - apply negb_false_iff, N.eqb_eq. apply N.bits_inj. intros j. rewrite N.bits_0, N.land_spec.
    destruct (N.eq_dec i j) as [->|Hn]; [now rewrite E|].
    rewrite N.pow2_bits_false by assumption. apply andb_false_r.
Qed.

(** ** ElementAccumulator *)

Lemma prop_trees : forall n l i, propagates (encode_trees n i l).
Proof.
  intros n; induction l as [|h l IH]; intros i; cbn [encode_trees]; [constructor|].
  apply propagates_app; [|apply IH].
  destruct (has_tree_at_height n i); [apply prop_arr|constructor].
Qed.

Lemma prop_element_accumulator : Propagates encode_element_accumulator.
Proof. intros a. apply propagates_app; [apply prop_uint|apply prop_trees]. Qed.

Lemma rt_trees : forall n l i rest,
  (forall j, (j < length l)%nat -> N.testbit (uval n) (i + N.of_nat j) = false ->
             nth j l zero_hash = zero_hash) ->
  run (decode_trees n i (length l)) (wbytes (encode_trees n i l) ++ rest) = ROk l rest.
Proof.
  intros n; induction l as [|h l IH]; intros i rest H; cbn [encode_trees decode_trees length].
  - reflexivity.
  - rewrite wbytes_app_p.
    2:{ destruct (has_tree_at_height n i); [apply prop_arr|constructor]. }
    rewrite <- app_assoc, run_bind.
    assert (Htl : forall j, (j < length l)%nat -> N.testbit (uval n) (i + 1 + N.of_nat j) = false ->
                  nth j l zero_hash = zero_hash).
    { intros j Hj E. apply (H (S j)); [cbn [length]; lia|].
      now replace (i + N.of_nat (S j)) with (i + 1 + N.of_nat j) by lia. }
    destruct (has_tree_at_height n i) eqn:E.
    + rewrite rt_hash. rewrite run_bind, IH by assumption. reflexivity.
    + cbn [wbytes app run]. rewrite run_bind, IH by assumption. cbn [run]. f_equal. f_equal.
      symmetry. apply (H O); [cbn [length]; lia|]. rewrite <- has_tree_testbit.
      now replace (i + N.of_nat 0) with i by lia.
Qed.

Lemma rt_element_accumulator :
  RoundTripOn ea_normal encode_element_accumulator decode_element_accumulator.
Proof.
  intros a rest H. unfold encode_element_accumulator, decode_element_accumulator.
  rewrite wbytes_app_p by apply prop_uint. rewrite <- app_assoc.
  rewrite run_bind, rt_u64, run_bind.
  pose proof (farr_len _ _ (ea_trees a)) as HL.
  replace 64%nat with (length (flist (ea_trees a))) at 1.
  rewrite rt_trees.
  - rewrite farr_of_flist. destruct a; reflexivity.
  - intros j _ E. apply H. now replace (0 + N.of_nat j) with (N.of_nat j) in E by lia.
Qed.

Lemma decode_trees_inv : forall n k i bs l rest,
  run (decode_trees n i k) bs = ROk l rest ->
  bs = wbytes (encode_trees n i l) ++ rest /\ length l = k /\
  (forall j, (j < k)%nat -> N.testbit (uval n) (i + N.of_nat j) = false ->
             nth j l zero_hash = zero_hash).
Proof.
  intros n; induction k as [|k IH]; intros i bs l rest H; cbn [decode_trees] in H.
  - apply run_ret_ok in H as [<- <-]. repeat split. lia.
  - apply run_bind_ok in H as (h & r & H1 & H).
    apply run_bind_ok in H as (t & r' & H2 & H). apply run_ret_ok in H as [<- <-].
    apply IH in H2 as (-> & HL & Hz). cbn [encode_trees length].
    rewrite wbytes_app_p.
    2:{ destruct (has_tree_at_height n i); [apply prop_arr|constructor]. }
    rewrite <- app_assoc.
    destruct (has_tree_at_height n i) eqn:E.
    + apply canon_arr in H1. split; [exact H1|]. split; [lia|]. intros [|j] Hj Ht.
      * rewrite has_tree_testbit in E. replace (i + N.of_nat 0) with i in Ht by lia. congruence.
      * cbn [nth]. apply Hz; [lia|]. now replace (i + 1 + N.of_nat j) with (i + N.of_nat (S j)) by lia.
    + apply run_ret_ok in H1 as [<- <-]. split; [reflexivity|]. split; [lia|]. intros [|j] Hj Ht.
      * reflexivity.
      * cbn [nth]. apply Hz; [lia|]. now replace (i + 1 + N.of_nat j) with (i + N.of_nat (S j)) by lia.
Qed.

Lemma decoded_element_accumulator : forall bs a rest,
  run decode_element_accumulator bs = ROk a rest ->
  bs = wbytes (encode_element_accumulator a) ++ rest /\ ea_normal a.
Proof.
  intros bs a rest H. unfold decode_element_accumulator in H.
  apply run_bind_ok in H as (n & r & H1 & H). apply canon_u64 in H1. subst bs.
  apply run_bind_ok in H as (l & r' & H2 & H). apply decode_trees_inv in H2 as (-> & HL & Hz).
  destruct (farr_of 64 l) as [t|] eqn:E; [|discriminate].
  apply run_ret_ok in H as [<- <-]. apply farr_of_some in E.
  unfold encode_element_accumulator; cbn [ea_num_leaves ea_trees]. rewrite E.
  rewrite wbytes_app_p by apply prop_uint. rewrite <- app_assoc. split; [reflexivity|].
  intros i Ht. cbn [ea_num_leaves ea_trees] in *. rewrite E.
  destruct (Nat.ltb_spec i 64).
  - apply Hz; [assumption|]. now replace (0 + N.of_nat i) with (N.of_nat i) by lia.
  - apply nth_overflow. lia.
Qed.

Lemma canon_element_accumulator : Canonical encode_element_accumulator decode_element_accumulator.
Proof. intros bs a rest H. now apply decoded_element_accumulator in H. Qed.

Lemma pan_trees : forall P n k i, PanicsOnly P (decode_trees n i k).
Proof.
  intros P n; induction k as [|k IH]; intros i; cbn [decode_trees]; [apply panics_ret|].
  apply panics_bind; [destruct (has_tree_at_height n i); [apply pan_arr|apply panics_ret]|].
  intros h. apply panics_bind; [apply IH|]. intros; apply panics_ret.
Qed.

Lemma pan_element_accumulator : forall P, PanicsOnly P decode_element_accumulator.
Proof.
  intros P bs p H. unfold decode_element_accumulator in H.
  rewrite run_bind in H. destruct (run decode_u64 bs) as [n r| |] eqn:E1; try discriminate.
  2:{ inversion H; subst. now apply (pan_uint 64 P) in E1. }
  rewrite run_bind in H. destruct (run (decode_trees n 0 64) r) as [l r'| |] eqn:E2; try discriminate.
  2:{ inversion H; subst. now apply pan_trees with (P := P) in E2. }
  apply decode_trees_inv in E2 as (_ & HL & _).
  destruct (farr_of_ok 64 _ l HL) as [t Ht]. rewrite Ht in H. discriminate.
Qed.

#[global] Hint Resolve prop_element_accumulator : prop.
#[global] Hint Resolve rt_element_accumulator : rt.
#[global] Hint Resolve canon_element_accumulator : canon.
#[global] Hint Resolve pan_element_accumulator : pan.

(** ** State *)

Lemma u64_pow : 2 ^ 64 = 18446744073709551616. Proof. reflexivity. Qed.

Lemma child_height_val : forall p (c : chain_index), uval (ci_height c) + 1 < 2 ^ 64 ->
  ci_child_height p c = Val (uwrap 64 (uval (ci_height c) + 1)).
Proof.
  intros p c H. unfold ci_child_height, u_add. change (uval (uwrap 64 1)) with 1.
  destruct p; [|reflexivity]. apply N.ltb_lt in H. now rewrite H.
Qed.

Lemma timestamps_count_val : forall p s, uval (ci_height (st_index s)) + 1 < 2 ^ 64 ->
  timestamps_count p (st_index s) = Val (ts_count s).
Proof.
  intros p s H. unfold timestamps_count. rewrite child_height_val by assumption.
  cbn [obind]. rewrite uwrap_small by assumption. f_equal. unfold ts_count.
  destruct (N.ltb_spec (uval (ci_height (st_index s)) + 1) 11); [f_equal; lia|].
  now rewrite N.min_l by lia.
Qed.

Lemma no_wpanic_wunwrap : forall p, propagates p -> no_wpanic (wunwrap p).
Proof.
  intros p H. unfold no_wpanic, wunwrap. apply Forall_map.
  eapply Forall_impl; [|exact H]. intros o [b ->]; cbn; discriminate.
Qed.

Lemma wbytes_wunwrap : forall p, propagates p -> wbytes (wunwrap p) = wbytes p.
Proof.
  induction p as [|o p IH]; intros H; [reflexivity|].
  inversion H as [|? ? [b ->] Hp]; subst. change (b ++ wbytes (wunwrap p) = b ++ wbytes p). now rewrite IH.
Qed.

Lemma rt_timestamps : forall k c l rest,
  length l = k -> (c <= k)%nat ->
  (forall i, (i < c)%nat -> odt_nanos (nth i l unix_epoch) = 0) ->
  (forall i, (c <= i)%nat -> nth i l unix_epoch = unix_epoch) ->
  run (decode_timestamps c k) (wbytes (concat (map encode_odt (firstn c l))) ++ rest) = ROk l rest.
Proof.
  induction k as [|k IH]; intros c l rest HL Hc Hw Hz.
  - destruct l; [|discriminate]. destruct c; [|lia]. reflexivity.
  - destruct c as [|c].
    + cbn [decode_timestamps firstn map concat wbytes app run]. f_equal.
      apply nth_ext with (d := unix_epoch) (d' := unix_epoch); [now rewrite repeat_length|].
      intros i Hi. rewrite Hz by lia. apply nth_repeat.
    + destruct l as [|t l]; [discriminate|]. cbn [decode_timestamps firstn map concat].
      rewrite wbytes_app_p by apply prop_odt. rewrite <- app_assoc, run_bind.
      rewrite rt_odt by (apply (Hw O); lia). rewrite run_bind, IH.
      * reflexivity.
      * cbn in HL; lia.
      * lia.
      * intros i Hi. apply (Hw (S i)); lia.
      * intros i Hi. apply (Hz (S i)); lia.
Qed.

Lemma decode_timestamps_inv : forall k c bs l rest, (c <= k)%nat ->
  run (decode_timestamps c k) bs = ROk l rest ->
  bs = wbytes (concat (map encode_odt (firstn c l))) ++ rest /\ length l = k /\
  (forall i, (i < c)%nat -> odt_nanos (nth i l unix_epoch) = 0) /\
  (forall i, (c <= i)%nat -> nth i l unix_epoch = unix_epoch).
Proof.
  induction k as [|k IH]; intros c bs l rest Hc H.
  - destruct c; [|lia]. apply run_ret_ok in H as [<- <-]. repeat split; [lia|].
    intros i _. now destruct i.
  - destruct c as [|c]; cbn [decode_timestamps] in H.
    + apply run_ret_ok in H as [<- <-]. cbn [firstn map concat wbytes app].
      repeat split; [now rewrite repeat_length|lia|].
      intros i _. destruct (Nat.ltb_spec i (S k)); [now apply nth_repeat|].
      apply nth_overflow. rewrite repeat_length; lia.
    + apply run_bind_ok in H as (t & r & H1 & H). pose proof (odt_decoded_whole _ _ _ H1) as Ht.
      apply canon_odt in H1. subst bs.
      apply run_bind_ok in H as (l' & r' & H2 & H). apply run_ret_ok in H as [<- <-].
      apply IH in H2 as (-> & HL & Hw & Hz); [|lia]. cbn [firstn map concat length].
      rewrite wbytes_app_p by apply prop_odt. rewrite <- app_assoc.
      repeat split; [lia| |].
      * intros [|i] Hi; cbn [nth]; [assumption|]. apply Hw; lia.
      * intros [|i] Hi; cbn [nth]; [lia|]. apply Hz; lia.
Qed.

Lemma prop_ts : forall l, propagates (concat (map encode_odt l)).
Proof. intros. apply propagates_concat_map, prop_odt. Qed.

Lemma ts_count_le : forall s, (ts_count s <= 11)%nat.
Proof. intros s. unfold ts_count. lia. Qed.

Lemma rt_state : forall p, RoundTripOn state_encodable (encode_state p) (decode_state p).
Proof.
  intros p s rest (Hh & Hw & Hz & Hd & He). unfold encode_state, decode_state.
  rewrite timestamps_count_val by assumption.
  rewrite wbytes_app_p by apply prop_chain_index. rewrite <- app_assoc.
  rewrite run_bind, rt_chain_index. rewrite timestamps_count_val by assumption.
  rewrite wbytes_app by (apply no_wpanic_wunwrap, prop_ts).
  rewrite wbytes_wunwrap by apply prop_ts. rewrite <- app_assoc.
  rewrite run_bind, rt_timestamps;
    [|apply farr_len|apply ts_count_le|assumption|assumption].
  rewrite farr_of_flist. split_wbytes.
  repeat (rt_step; cbv beta). destruct s; reflexivity.
Qed.

Lemma decoded_state : forall p bs s rest,
  run (decode_state p) bs = ROk s rest ->
  uval (ci_height (st_index s)) + 1 < 2 ^ 64 ->
  bs = wbytes (encode_state p s) ++ rest /\ state_encodable s.
Proof.
  intros p bs s rest H Hh. unfold decode_state in H.
  apply run_bind_ok in H as (idx & r & E & H). apply canon_chain_index in E. subst bs.
  destruct (timestamps_count p idx) as [c|q] eqn:Ec; [|discriminate].
  apply run_bind_ok in H as (ts & r1 & E1 & H).
  destruct (farr_of 11 ts) as [pt|] eqn:Ef; [|discriminate].
  assert (Hd : exists d : duration, exists r2 r3, run decode_duration r2 = ROk d r3 /\
     dur_ns d = dur_ns (st_oak_time s)).
  { clear - H. do 3 (apply run_bind_ok in H as (? & ? & _ & H)).
    apply run_bind_ok in H as (d & r3 & E & H). exists d. eexists _, r3. split; [exact E|].
    do 8 (apply run_bind_ok in H as (? & ? & _ & H)). apply run_ret_ok in H as [<- _]. reflexivity. }
  assert (He : exists r2 r3, run decode_element_accumulator r2 = ROk (st_elements s) r3).
  { clear - H. do 10 (apply run_bind_ok in H as (? & ? & _ & H)).
    apply run_bind_ok in H as (d & r3 & E & H).
    do 1 (apply run_bind_ok in H as (? & ? & _ & H)). apply run_ret_ok in H as [<- _].
    eexists _, _. exact E. }
  repeat canon_step H. apply run_ret_ok in H as [<- <-].
  apply farr_of_some in Ef. cbn [st_index st_prev_timestamps] in *.
  pose proof (timestamps_count_val p (MkState idx pt x x0 x1 x2 x3 x4 x5 x6 x7 x8 x9 x10) Hh) as Ev.
  cbn [st_index] in Ev. rewrite Ec in Ev. injection Ev as ->.
  apply decode_timestamps_inv in E1 as (-> & HL & Hw & Hz); [|apply ts_count_le].
  split.
  - unfold encode_state. rewrite wbytes_app_p by apply prop_chain_index. rewrite <- app_assoc.
    rewrite timestamps_count_val by assumption.
    rewrite wbytes_app by (apply no_wpanic_wunwrap, prop_ts).
    rewrite wbytes_wunwrap by apply prop_ts. rewrite <- app_assoc. cbn [st_index st_prev_timestamps].
    rewrite Ef. cbn [st_depth st_child_target st_siafund_pool st_oak_time st_oak_target
      st_foundation_primary_address st_foundation_failsafe_address st_total_work st_difficulty
      st_oak_work st_elements st_attestations].
    split_wbytes. reflexivity.
  - split; [assumption|]. cbn [st_prev_timestamps]. rewrite Ef. split; [exact Hw|]. split; [exact Hz|].
    split.
    + destruct Hd as (d & r2 & r3 & Hd & <-). unfold decode_duration in Hd.
      apply run_bind_ok in Hd as (n & r4 & _ & Hd).
      destruct (N.ltb_spec (2 ^ 63 - 1) (uval n)) as [|Hle]; [discriminate|].
      apply run_ret_ok in Hd as [<- _].
      cbn [nanoseconds dur_ns swrap sval].
      rewrite swrap_Z_id; [|discriminate|]; change (2 ^ 63 - 1) with 9223372036854775807 in Hle;
        change (2 ^ (Z.of_N 64 - 1))%Z with 9223372036854775808%Z;
        change (2 ^ 63)%Z with 9223372036854775808%Z; lia.
    + destruct He as (r2 & r3 & He). now apply decoded_element_accumulator in He.
Qed.
