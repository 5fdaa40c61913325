(** The statements of P_wire.v, from the tables. *)

From Verif Require Import Base Io IoProofs Spec SpecWire SpecCodecs Codec Model_encoding Model_common
  Model_v1 Model_policy Model_v2 Model_consensus EncodingProofs CommonProofs PolicyProofs ConsensusProofs
  TableProofs Samples.
Local Open Scope N_scope.

Lemma v1_wire_roundtrip : forall A P enc dec,
  V1Codec A P enc dec -> RoundTripOn P enc dec.
Proof. intros A P enc d H. now apply v1_codec_laws in H. Qed.

Lemma v1_transaction_roundtrip : forall (t : v1_transaction) rest,
  run decode_v1_transaction (wbytes (encode_v1_transaction t) ++ rest) = ROk t rest.
Proof. intros t rest. apply (v1_wire_roundtrip _ _ _ _ V1_v1_transaction). exact I. Qed.

Lemma wire_roundtrip : forall stack A P enc d,
  V2Wire stack A P enc d \/ V1Codec A P enc d -> RoundTripOn P enc d.
Proof. intros stack A P enc d [H|H]; [eapply v2_wire_roundtrip|eapply v1_wire_roundtrip]; eauto. Qed.

Lemma wire_unambiguous : forall stack A P enc d,
  V2Wire stack A P enc d \/ V1Codec A P enc d ->
  forall (a b : A) x y, P a -> P b -> wbytes (enc a) ++ x = wbytes (enc b) ++ y -> a = b /\ x = y.
Proof. intros stack A P enc d H. eapply roundtrip_on_unambiguous, wire_roundtrip, H. Qed.

Lemma wire_sequences : forall stack A P enc d,
  V2Wire stack A P enc d \/ V1Codec A P enc d ->
  forall (l m : list A), Forall P l -> Forall P m -> length l = length m ->
  concat (map (fun a => wbytes (enc a)) l) = concat (map (fun a => wbytes (enc a)) m) -> l = m.
Proof.
  intros stack A P enc d H. pose proof (wire_unambiguous _ _ _ _ _ H) as HU. clear H.
  induction l as [|a l IH]; intros [|b m] Hl Hm Hn E; try discriminate; [reflexivity|].
  inversion Hl; inversion Hm; subst. cbn [map concat] in E.
  apply HU in E as [-> E]; try assumption. f_equal. apply IH; auto.
Qed.

Lemma wire_truncated : forall stack A P enc d,
  V2Wire stack A P enc d \/ V1Codec A P enc d ->
  forall (a : A) p q, P a -> wbytes (enc a) = p ++ q -> q <> [] -> exists e, run d p = RErr e.
Proof. intros stack A P enc d H. eapply roundtrip_on_truncated, wire_roundtrip, H. Qed.

Lemma reader_same_bytes : forall A (d : dec A) (r r' : reader),
  reliable r -> reliable r' -> rbytes r = rbytes r' ->
  observe_reader (run_reader d r) = observe_reader (run_reader d r').
Proof. intros A d r r' H H' E. now rewrite !run_reader_reliable, E by assumption. Qed.

Lemma reader_failing : forall A (d : dec A) (r : reader),
  match run_reader d r, run d (rbytes (before_fail r)) with
  | CkOk a r', ROk b rest => a = b /\ rest = rbytes (before_fail r')
  | CkErr e, RErr e' => e = e'
  | CkPanic p, RPanic q => p = q
  | _, _ => False
  end.
Proof.
  intros A d r. pose proof (run_reader_failing A d r) as H.
  pose proof (run_reader_reliable A d (before_fail r) (before_fail_reliable r)) as H'.
  destruct (run_reader d r), (run_reader d (before_fail r)), (run d (rbytes (before_fail r)));
    cbn [observe_reader observe_flat] in H'; try contradiction; try discriminate;
    try (destruct H; subst); injection H' as H'; subst; auto.
Qed.

Lemma wire_writer : forall stack A P enc d,
  V2Codec stack A P enc d \/ V1Codec A P enc d ->
  forall (a : A) (w : writer),
  (wreliable w -> run_writer (enc a) w = (wbytes (enc a), WSOk)) /\
  (forall x st, run_writer (enc a) w = (x, st) ->
    exists tl, wbytes (enc a) = x ++ tl /\ (st = WSOk <-> tl = []) /\ (st = WSOk \/ st = WSErr)).
Proof.
  intros stack A P enc d H a w.
  assert (Hp : propagates (enc a)).
  { destruct H as [H|H]; [apply v2_codec_laws in H|apply v1_codec_laws in H]; apply H. }
  pose proof (propagates_no_wpanic _ Hp) as Hn. split.
  - intros Hw. now apply run_writer_reliable.
  - intros x st E. pose proof (run_writer_no_panic _ _ _ _ Hp E) as Hs.
    apply run_writer_prefix in E as (tl & E1 & E2); [|assumption]. eauto.
Qed.

Lemma no_wpanic_app : forall p q, no_wpanic p -> no_wpanic q -> no_wpanic (p ++ q).
Proof. intros p q Hp Hq. apply Forall_app. auto. Qed.

Lemma state_no_wpanic : forall prof s, state_encodable s -> no_wpanic (encode_state prof s).
Proof.
  intros prof s (Hh & _). unfold encode_state. rewrite timestamps_count_val by assumption.
  apply no_wpanic_app; [apply propagates_no_wpanic, prop_chain_index|].
  apply no_wpanic_app; [apply no_wpanic_wunwrap, prop_ts|].
  apply propagates_no_wpanic. CodecTac.prop_tac.
Qed.

Lemma state_writer : forall prof (s : state) (w : writer),
  state_encodable s ->
  (wreliable w -> run_writer (encode_state prof s) w = (wbytes (encode_state prof s), WSOk)) /\
  (forall x st, run_writer (encode_state prof s) w = (x, st) ->
    exists tl, wbytes (encode_state prof s) = x ++ tl /\ (st = WSOk <-> tl = [])).
Proof.
  intros prof s w H. apply (state_no_wpanic prof) in H. split.
  - intros Hw. now apply run_writer_reliable.
  - intros x st E. now apply run_writer_prefix in E.
Qed.

Lemma s_accumulator_ok : ea_normal s_accumulator.
Proof.
  intros i H. destruct i as [|[|[|i]]]; try reflexivity; try discriminate H.
  cbn [s_accumulator ea_trees flist nth].
  destruct (Nat.ltb_spec i 61); [now apply nth_repeat|].
  apply nth_overflow. rewrite repeat_length. lia.
Qed.

Lemma s_state_2_ok : state_encodable s_state_2.
Proof.
  split; [reflexivity|]. change (ts_count s_state_2) with 3%nat. split; [|split; [|split]].
  - intros [|[|[|i]]] Hi; try reflexivity. lia.
  - intros [|[|[|i]]] Hi; try lia. cbn [s_state_2 s_state st_prev_timestamps flist repeat app nth].
    change (nth i (repeat unix_epoch 8) unix_epoch = unix_epoch).
    destruct (Nat.ltb_spec i 8); [now apply nth_repeat|].
    apply nth_overflow. rewrite repeat_length. lia.
  - vm_compute. split; [discriminate|reflexivity].
  - exact s_accumulator_ok.
Qed.

Lemma state_writer_panics : exists (s : state) (w : writer) x,
  state_encodable s /\ forall prof, run_writer (encode_state prof s) w = (x, WSPanic UnwrapNone).
Proof.
  exists s_state_2, (repeat (WAccept 39) 2 ++ [WFail]). eexists. split; [exact s_state_2_ok|].
  intros [|]; vm_compute; reflexivity.
Qed.

Lemma s_policy_fits : policy_fits 4 s_policy.
Proof. vm_compute. repeat split; lia. Qed.

Lemma s_nested_ok :
  V2Codec 4 (vec 24 (option policy)) (VecAll (OptAll (policy_fits 4)))
    (encode_vec (encode_option encode_policy)) (decode_vec 24 (decode_option (decode_policy 4))) /\
  VecAll (OptAll (policy_fits 4)) (@MkVec 24 _ [Some s_policy; None; Some s_policy] eq_refl).
Proof.
  split; [apply V2_vec; [discriminate|]; apply V2_option, V2_policy|].
  repeat constructor; vm_compute; repeat split; lia.
Qed.

Lemma s_v2_transaction_fits : v2_transaction_encodable 4 s_v2_transaction.
Proof. split; repeat constructor; vm_compute; repeat split; lia. Qed.

Lemma s_v2_transaction_ok :
  V2Wire 4 v2_transaction (v2_transaction_encodable 4) encode_v2_transaction (decode_v2_transaction 4) /\
  v2_transaction_encodable 4 s_v2_transaction /\
  length (wbytes (encode_v2_transaction s_v2_transaction)) = N.to_nat 5649.
Proof.
  split; [apply V2Wire_codec, V2_v2_transaction|]. split; [exact s_v2_transaction_fits|].
  vm_compute. reflexivity.
Qed.

Lemma s_cut : exists p q, wbytes (encode_v2_transaction s_v2_transaction) = p ++ q /\
  length p = N.to_nat 4000 /\ q <> [].
Proof.
  exists (firstn (N.to_nat 4000) (wbytes (encode_v2_transaction s_v2_transaction))),
    (skipn (N.to_nat 4000) (wbytes (encode_v2_transaction s_v2_transaction))).
  split; [now rewrite firstn_skipn|]. split; [vm_compute; reflexivity|vm_compute; discriminate].
Qed.

Lemma s_input_decodes :
  StrictCodec 4 v2_siacoin_input encode_v2_siacoin_input (decode_v2_siacoin_input 4) /\
  run (decode_v2_siacoin_input 4) (wbytes (encode_v2_siacoin_input s_v2_siacoin_input)) =
    ROk s_v2_siacoin_input [].
Proof.
  split; [apply S_v2_siacoin_input|].
  rewrite <- (app_nil_r (wbytes _)).
  apply (v2_wire_roundtrip 4 _ _ _ _ (V2Wire_codec 4 _ _ _ _ (V2_v2_siacoin_input 4))).
  vm_compute. repeat split; lia.
Qed.

Lemma reader_example :
  let r := [RIntr; RData x01 [x02; x03]; RIntr; RData x00 []; RData x00 [x00; x00; x00; x09]] in
  reliable r /\ observe_reader (run_reader decode_u64 r) = inl (Some (uwrap 64 197121, [x09])).
Proof.
  split; [unfold reliable; cbn; intuition discriminate|].
  cbn [run_reader]. vm_compute. do 3 f_equal.
Qed.

(** ** Panics *)

Lemma policy_stack : forall stack bs,
  (length bs < 3 * stack)%nat -> run (decode_policy stack) bs <> RPanic StackOverflow.
Proof.
  intros stack bs Hl H. unfold decode_policy in H. rewrite run_bind in H.
  destruct (run decode_u8 bs) as [v r|e|p] eqn:E; try discriminate.
  2:{ now apply (pan_u8 (fun _ => False)) in E. }
  apply run_shrinks in E. destruct v; try discriminate H.
  apply (stack_enough stack r); [lia|exact H].
Qed.

Lemma nested_policy : forall stack,
  run (decode_policy stack) (x01 :: nested_bytes stack) = RPanic StackOverflow.
Proof.
  intros stack. unfold decode_policy. rewrite run_bind.
  change (run decode_u8 (x01 :: nested_bytes stack)) with (ROk x01 (nested_bytes stack)).
  cbv iota. rewrite <- (app_nil_r (nested_bytes stack)). apply nested_overflow.
Qed.

Lemma decode_panics :
  (exists bs, run decode_v1_transaction bs = RPanic CapacityOverflow /\ length bs = 8%nat) /\
  (exists bs, forall stack, run (decode_v2_transaction stack) bs = RPanic CapacityOverflow) /\
  (exists bs, run decode_block bs = RPanic UnwrapNone) /\
  (forall stack, exists bs, run (decode_policy stack) bs = RPanic StackOverflow /\
     length bs = (3 * stack + 1)%nat) /\
  (exists bs, run (decode_state Debug) bs = RPanic ArithOverflow).
Proof.
  split; [|split; [|split; [|split]]].
  - exists (repeat xff 8). split; vm_compute; reflexivity.
  - exists (x02 :: xff :: repeat x00 7 ++ repeat xff 8). intros stack. reflexivity.
  - exists (repeat x00 40 ++ repeat xff 7 ++ [x7f]). vm_compute. reflexivity.
  - intros stack. exists (x01 :: nested_bytes stack). split; [apply nested_policy|].
    cbn [length]. rewrite nested_length. lia.
  - exists (repeat xff 40). vm_compute. reflexivity.
Qed.

Lemma decode_panics_only :
  (forall stack A P enc d, V2Codec stack A P enc d \/ V1Codec A P enc d ->
     forall bs p, run d bs = RPanic p -> wire_panic p) /\
  (forall prof bs p, run (decode_state prof) bs = RPanic p -> p = ArithOverflow \/ p = UnwrapNone) /\
  (forall A d, PanicFreeCodec A d -> forall bs p, run d bs <> RPanic p).
Proof.
  split; [|split].
  - intros stack A P enc d [H|H]; [apply v2_codec_panics in H|apply v1_codec_panics in H]; exact H.
  - intros prof. apply (pan_state (fun p => p = ArithOverflow \/ p = UnwrapNone)); auto.
  - exact panic_free.
Qed.

(** ** Canonicity *)

Lemma not_canonical :
  (exists bs bs' a, bs <> bs' /\ run decode_v1_currency bs = ROk a [] /\ run decode_v1_currency bs' = ROk a []) /\
  (exists bs bs' a, bs <> bs' /\ run decode_v1_siafund_output bs = ROk a [] /\
     run decode_v1_siafund_output bs' = ROk a []) /\
  (exists bs bs' t, bs <> bs' /\ forall stack, run (decode_v2_transaction stack) bs = ROk t [] /\
     run (decode_v2_transaction stack) bs' = ROk t []) /\
  (exists bs bs' a, bs <> bs' /\ run decode_u16 bs = ROk a [] /\ run decode_u16 bs' = ROk a []).
Proof.
  split; [|split; [|split]].
  - exists (x01 :: repeat x00 7 ++ [x05]), (x02 :: repeat x00 7 ++ [x00; x05]), (uwrap 128 5).
    split; [discriminate|]. split; vm_compute; f_equal; now apply uint_eq.
  - exists (x01 :: repeat x00 7 ++ [x05] ++ repeat x00 32 ++ repeat x00 8),
           (x01 :: repeat x00 7 ++ [x05] ++ repeat x00 32 ++ x01 :: repeat x00 7 ++ [x09]),
           (MkSfo (uwrap 64 5) zero_hash).
    split; [discriminate|].
    split; vm_compute; do 2 f_equal; first [now apply uint_eq | now apply arr_eq].
  - exists (x02 :: repeat x00 8), (x02 :: x00 :: x08 :: repeat x00 6), s_v2_empty.
    split; [discriminate|]. intros stack. split; vm_compute; f_equal; unfold s_v2_empty; f_equal;
      first [now apply vec_eq | now apply uint_eq].
  - exists (repeat x00 8), (x00 :: x00 :: x01 :: repeat x00 5), (uwrap 16 0).
    split; [discriminate|]. split; vm_compute; f_equal; now apply uint_eq.
Qed.

Lemma strict_canonical : forall stack A enc d,
  StrictCodec stack A enc d ->
  forall bs (a : A) rest, run d bs = ROk a rest -> bs = wbytes (enc a) ++ rest.
Proof. intros stack A enc d H. apply strict_codec_laws in H. apply H. Qed.

Lemma wire_reencode : forall stack A P enc d,
  V2Codec stack A P enc d \/ V1Codec A P enc d ->
  forall bs (a : A) rest, run d bs = ROk a rest ->
  P a /\ run d (wbytes (enc a) ++ rest) = ROk a rest.
Proof.
  intros stack A P enc d H bs a rest E.
  assert (Ha : P a).
  { destruct H as [H|H]; [apply v2_codec_into in H|apply v1_codec_into in H]; exact (H _ _ _ E). }
  split; [assumption|].
  destruct H as [H|H]; [apply v2_codec_laws in H|apply v1_codec_laws in H]; now apply H.
Qed.

(** ** Values the formats have no room for *)

Lemma half_second_ok : ((ts_min <=? 0)%Z && (0 <=? ts_max)%Z && (500000000 <? 1000000000)) = true.
Proof. reflexivity. Qed.

Lemma unrepresentable :
  (exists t : odt, run decode_odt (wbytes (encode_odt t)) <> ROk t []) /\
  (exists d : duration, (dur_ns d < 0)%Z /\ run decode_duration (wbytes (encode_duration d)) <> ROk d []) /\
  (exists d : duration, (2 ^ 63 <= dur_ns d)%Z /\ run decode_duration (wbytes (encode_duration d)) <> ROk d []).
Proof.
  split; [|split].
  - exists (MkOdt 0 500000000 half_second_ok). vm_compute. discriminate.
  - exists (nanoseconds (swrap 64 w64_nz (-1))). split; [reflexivity|]. vm_compute. discriminate.
  - unshelve eexists (MkDur (2 ^ 63) _); [reflexivity|]. split; [discriminate|]. vm_compute. discriminate.
Qed.
