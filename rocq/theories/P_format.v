(** Properties C44-C46: chain states, v2 transactions and contract resolutions on the wire.
    The layouts are defined in SpecFormat.v. *)

From Verif Require Import Base Io Spec SpecWire SpecFormat Model_encoding Model_common Model_v1 Model_policy
  Model_v2 Model_consensus Samples WireProofs FormatProofs ConsensusProofs EpochProofs V2TxnProofs V2Proofs.
Local Open Scope N_scope.

(** ** C44 *)

(** The full statement, for the states the format can represent at all: fails at the greatest
    height. *)
Theorem C44_height_refuted : ~ (forall p s rest,
  (forall i, odt_nanos (nth i (flist (st_prev_timestamps s)) unix_epoch) = 0) ->
  (forall i, (ts_count s <= i)%nat -> nth i (flist (st_prev_timestamps s)) unix_epoch = unix_epoch) ->
  (0 <= dur_ns (st_oak_time s) < 2 ^ 63)%Z -> ea_normal (st_elements s) ->
  run (decode_state p) (wbytes (encode_state p s) ++ rest) = ROk s rest).
Proof. exact state_heights_refuted. Qed.
Print Assumptions C44_height_refuted.

(** What happens there: a panic, or the timestamps are lost. *)
Theorem C44_max_debug_partial : forall s, uval (ci_height (st_index s)) = 2 ^ 64 - 1 ->
  snd (run_writer (encode_state Debug s) []) = WSPanic ArithOverflow.
Proof. exact state_max_debug. Qed.
Print Assumptions C44_max_debug_partial.

Theorem C44_max_release_partial : forall s rest, uval (ci_height (st_index s)) = 2 ^ 64 - 1 ->
  (0 <= dur_ns (st_oak_time s) < 2 ^ 63)%Z -> ea_normal (st_elements s) ->
  run (decode_state Release) (wbytes (encode_state Release s) ++ rest) = ROk (with_timestamps s epochs) rest.
Proof. exact state_max_release. Qed.
Print Assumptions C44_max_release_partial.

Example C44_max_example : exists s, uval (ci_height (st_index s)) = 2 ^ 64 - 1 /\
  (0 <= dur_ns (st_oak_time s) < 2 ^ 63)%Z /\ ea_normal (st_elements s) /\
  nth 0 (flist (st_prev_timestamps s)) unix_epoch <> unix_epoch.
Proof.
  exists (s_state (2 ^ 64 - 1) (repeat s_time 11) eq_refl). split; [reflexivity|]. split; [|split].
  - cbn. split; [discriminate|reflexivity].
  - exact s_accumulator_normal.
  - intros E. apply (f_equal odt_secs) in E. discriminate.
Qed.

(** Every other height. *)
Theorem C44_layout_partial : forall p s, uval (ci_height (st_index s)) + 1 < 2 ^ 64 ->
  exists stamps,
    wbytes (encode_state p s) = wbytes (encode_chain_index (st_index s)) ++ concat stamps ++ state_tail s /\
    length stamps = N.to_nat (N.min (uval (ci_height (st_index s)) + 1) 11) /\
    Forall2 StampBytes (firstn (N.to_nat (N.min (uval (ci_height (st_index s)) + 1) 11)) (flist (st_prev_timestamps s))) stamps.
Proof. exact state_layout. Qed.
Print Assumptions C44_layout_partial.

Theorem C44_roundtrip_partial : forall p s rest, state_encodable s ->
  run (decode_state p) (wbytes (encode_state p s) ++ rest) = ROk s rest.
Proof. exact rt_state. Qed.
Print Assumptions C44_roundtrip_partial.

(** Whatever is accepted is such an encoding, with the unused timestamps at the epoch. *)
Theorem C44_decoded_partial : forall p bs s rest, run (decode_state p) bs = ROk s rest ->
  uval (ci_height (st_index s)) + 1 < 2 ^ 64 ->
  bs = wbytes (encode_state p s) ++ rest /\ state_encodable s.
Proof. exact decoded_state. Qed.
Print Assumptions C44_decoded_partial.

(** The timestamps that are not sent become midnight of 1 January 1970. *)
Theorem C44_filled_partial : forall p bs s rest i, run (decode_state p) bs = ROk s rest ->
  N.min (uval (ci_height (st_index s)) + 1) 11 <= N.of_nat i < 11 ->
  exists t, nth_error (flist (st_prev_timestamps s)) i = Some t /\ odt_secs t = 0%Z /\ odt_nanos t = 0.
Proof. exact state_filled. Qed.
Print Assumptions C44_filled_partial.

Example C44_example : ts_count s_state_2 = 3%nat /\ state_encodable s_state_2.
Proof. split; [reflexivity|exact s_state_2_ok]. Qed.

Example C44_filled_example : run (decode_state Debug) (wbytes (encode_state Debug s_state_2) ++ []) = ROk s_state_2 [] /\
  N.min (uval (ci_height (st_index s_state_2)) + 1) 11 <= N.of_nat 3 < 11.
Proof. split; [exact (rt_state Debug s_state_2 [] s_state_2_ok)|]. split; [discriminate|reflexivity]. Qed.

(** ** C45 *)

Theorem C45_layout : forall t, exists bitmap,
  wbytes (encode_v2_transaction t) = [x02] ++ bitmap ++ body (sections t) /\ length bitmap = 8%nat /\
  forall i, N.testbit (le_value bitmap) (N.of_nat i) = true <-> exists b, nth_error (sections t) i = Some (Some b).
Proof. exact transaction_layout. Qed.
Print Assumptions C45_layout.

Theorem C45_empty : wbytes (encode_v2_transaction empty_transaction) = x02 :: repeat x00 8.
Proof. exact transaction_empty. Qed.
Print Assumptions C45_empty.

Theorem C45_version : forall stack v bs, v <> x02 ->
  exists e, run (decode_v2_transaction stack) (v :: bs) = RErr e.
Proof. exact transaction_version. Qed.
Print Assumptions C45_version.

(** A section that the bitmap does not announce is empty. *)
Theorem C45_absent : forall stack m bs t rest i, length m = 8%nat ->
  run (decode_v2_transaction stack) (x02 :: m ++ bs) = ROk t rest ->
  (i < 11)%nat -> N.testbit (le_value m) (N.of_nat i) = false -> nth_error (sections t) i = Some None.
Proof. exact transaction_absent. Qed.
Print Assumptions C45_absent.

Theorem C45_roundtrip : forall stack t rest, v2_transaction_encodable stack t ->
  run (decode_v2_transaction stack) (wbytes (encode_v2_transaction t) ++ rest) = ROk t rest.
Proof. exact rt_v2_transaction. Qed.
Print Assumptions C45_roundtrip.

(** Unknown sections are not rejected. *)
Theorem C45_unknown_refuted : ~ (forall stack m bs, length m = 8%nat -> 2 ^ 11 <= le_value m ->
  exists e, run (decode_v2_transaction stack) (x02 :: m ++ bs) = RErr e).
Proof. exact transaction_unknown_refuted. Qed.
Print Assumptions C45_unknown_refuted.

(** They are ignored. *)
Theorem C45_unknown_partial : forall stack m m' bs, length m = 8%nat -> length m' = 8%nat ->
  (forall i, i < 11 -> N.testbit (le_value m) i = N.testbit (le_value m') i) ->
  run (decode_v2_transaction stack) (x02 :: m ++ bs) = run (decode_v2_transaction stack) (x02 :: m' ++ bs).
Proof. exact transaction_unknown. Qed.
Print Assumptions C45_unknown_partial.

Example C45_example : length (filter (fun o => match o with Some _ => true | None => false end) (sections s_v2_transaction)) = 11%nat
  /\ run (decode_v2_transaction 1) [x02; x00; x08; x00; x00; x00; x00; x00; x00] = ROk empty_transaction [].
Proof. split; vm_compute; reflexivity. Qed.

(** ** C46 *)

Theorem C46_roundtrip : forall r rest,
  run decode_file_contract_resolution (wbytes (encode_file_contract_resolution r) ++ rest) = ROk r rest.
Proof. exact rt_file_contract_resolution. Qed.
Print Assumptions C46_roundtrip.

Theorem C46_layout : forall r, exists payload,
  wbytes (encode_file_contract_resolution r) =
    wbytes (encode_file_contract_element (fcres_parent r)) ++ [resolution_tag (fcres_resolution r)] ++ payload.
Proof. exact resolution_layout. Qed.
Print Assumptions C46_layout.

Theorem C46_kind : forall parent tag bs r rest,
  run decode_file_contract_resolution (wbytes (encode_file_contract_element parent) ++ tag :: bs) = ROk r rest ->
  resolution_tag (fcres_resolution r) = tag /\ fcres_parent r = parent.
Proof. exact resolution_tags. Qed.
Print Assumptions C46_kind.

Theorem C46_unknown : forall parent tag bs, tag <> x00 -> tag <> x01 -> tag <> x02 ->
  exists e, run decode_file_contract_resolution (wbytes (encode_file_contract_element parent) ++ tag :: bs) = RErr e.
Proof. exact resolution_unknown. Qed.
Print Assumptions C46_unknown.

Example C46_example :
  (exists r, run decode_file_contract_resolution (wbytes (encode_file_contract_element s_fce) ++ [x02]) = ROk r [] /\
    fcres_resolution r = ResExpiration) /\
  (exists e, run decode_file_contract_resolution (wbytes (encode_file_contract_element s_fce) ++ [x03]) = RErr e).
Proof.
  split.
  - exists (MkFcres s_fce ResExpiration). split; [|reflexivity].
    rewrite <- (rt_file_contract_resolution (MkFcres s_fce ResExpiration) []). f_equal.
  - apply resolution_unknown; discriminate.
Qed.
