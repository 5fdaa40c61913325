(** The laws of every row of the tables of SpecCodecs.v. *)

From Verif Require Import Base Io IoProofs Spec SpecWire SpecCodecs Codec Model_encoding EncodingProofs
  Model_common Model_v1 Model_policy Model_v2 CodecTac CommonProofs V1Proofs PolicyProofs V2Proofs
  V2TxnProofs Model_consensus ConsensusProofs.
Local Open Scope N_scope.

Lemma rt_any : forall A (e : A -> wprog) d, RoundTrip e d -> RoundTripOn Any e d.
Proof. intros A e d H a rest _. apply H. Qed.

Lemma v1_codec_laws : forall A P e d, V1Codec A P e d -> Propagates e /\ RoundTripOn P e d.
Proof.
  induction 1 as [| | | | | | | | | | | | | |sz A P e d Hsz H [IHp IHr]|A P e d H [IHp IHr]| | | | | | | | | | | | | | |];
    split;
    try solve [eauto with prop];
    try solve [apply rt_any; eauto with rt];
    try solve [apply rt_any, rt_uint; lia];
    try solve [apply rt_any, rt_sint; lia].
  - now apply rt_vec_on.
  - now apply rt_option_on.
  - exact rt_block.
Qed.

Lemma v2_codec_laws : forall stack A P e d, V2Codec stack A P e d -> Propagates e /\ RoundTripOn P e d.
Proof.
  intros stack; induction 1;
    repeat match goal with IH : _ /\ _ |- _ => destruct IH end;
    split;
    try solve [eauto with prop];
    try solve [apply rt_any; eauto with rt];
    try solve [apply rt_any, rt_uint; lia];
    try solve [apply rt_any, rt_sint; lia].
  - now apply rt_vec_on.
  - now apply rt_option_on.
  - exact rt_odt.
  - exact rt_duration.
  - exact (rt_policy stack).
  - exact (rt_satisfied_policy stack).
  - exact (rt_v2_siacoin_input stack).
  - exact (rt_v2_siafund_input stack).
  - exact (rt_v2_transaction stack).
  - exact rt_element_accumulator.
Qed.

Lemma v2_wire_roundtrip : forall stack A P e d, V2Wire stack A P e d -> RoundTripOn P e d.
Proof.
  intros stack A P e d [A' P' e' d' H|prof].
  - now apply v2_codec_laws in H.
  - apply rt_state.
Qed.

Lemma v1_codec_panics : forall A P e d, V1Codec A P e d -> PanicsOnly wire_panic d.
Proof.
  assert (HC : wire_panic CapacityOverflow) by (unfold wire_panic; auto).
  assert (HU : wire_panic UnwrapNone) by (unfold wire_panic; auto).
  assert (HS : wire_panic StackOverflow) by (unfold wire_panic; auto).
  induction 1; try solve [eauto with pan].
  - now apply pan_vec.
  - apply pan_v1_work.
Qed.

Lemma v2_codec_panics : forall stack A P e d, V2Codec stack A P e d -> PanicsOnly wire_panic d.
Proof.
  assert (HC : wire_panic CapacityOverflow) by (unfold wire_panic; auto).
  assert (HU : wire_panic UnwrapNone) by (unfold wire_panic; auto).
  assert (HS : wire_panic StackOverflow) by (unfold wire_panic; auto).
  intros stack; induction 1; try solve [eauto with pan].
  - now apply pan_vec.
Qed.

Lemma panic_free : forall A d, PanicFreeCodec A d -> NeverPanics d.
Proof.
  intros A d H. assert (H' : PanicsOnly (fun _ => False) d).
  { induction H; try solve [eauto with pan]. apply pan_v1_work. }
  exact H'.
Qed.

Lemma strict_codec_laws : forall stack A e d, StrictCodec stack A e d -> Propagates e /\ Canonical e d.
Proof.
  intros stack; induction 1;
    repeat match goal with IH : _ /\ _ |- _ => destruct IH end;
    split; try solve [eauto with prop]; try solve [eauto with canon].
  apply canon_v1_work.
Qed.

(** ** What decoders produce *)

Lemma into_any : forall A (d : dec A), DecodesInto Any d.
Proof. intros A d bs a rest _. exact I. Qed.

Lemma into_vec : forall sz A (P : A -> Prop) d,
  DecodesInto P d -> DecodesInto (VecAll P) (decode_vec sz d).
Proof.
  intros sz A P d H bs v rest E. unfold decode_vec in E.
  apply run_bind_ok in E as (len & r & E1 & E2).
  destruct (isize_max <? uval len * sz); [discriminate|].
  apply run_bind_ok in E2 as (l & r' & E2 & E3).
  rewrite dloop_run in E2. apply (loop_all A P d H) in E2; [|constructor].
  destruct (vec_of sz (rev l)) as [v'|] eqn:Ev; [|discriminate].
  apply run_ret_ok in E3 as [<- <-]. apply vec_of_some in Ev.
  unfold VecAll. rewrite Ev. now apply Forall_rev.
Qed.

Lemma into_option : forall A (P : A -> Prop) d, DecodesInto P d -> DecodesInto (OptAll P) (decode_option d).
Proof.
  intros A P d H bs v rest E. unfold decode_option in E.
  apply run_bind_ok in E as (b & r & _ & E). destruct b.
  - apply run_bind_ok in E as (x & r1 & E1 & E). apply run_ret_ok in E as [<- _].
    exact (H _ _ _ E1).
  - apply run_ret_ok in E as [<- _]. exact I.
Qed.

Lemma into_odt : DecodesInto whole_seconds decode_odt.
Proof. intros bs t rest H. exact (odt_decoded_whole _ _ _ H). Qed.

Lemma into_duration : DecodesInto duration_encodable decode_duration.
Proof.
  intros bs d rest Hd. unfold decode_duration in Hd.
  apply run_bind_ok in Hd as (n & r4 & _ & Hd).
  destruct (N.ltb_spec (2 ^ 63 - 1) (uval n)) as [|Hle]; [discriminate|].
  apply run_ret_ok in Hd as [<- _]. unfold duration_encodable.
  cbn [nanoseconds dur_ns swrap sval].
  rewrite swrap_Z_id; [|discriminate|]; change (2 ^ 63 - 1) with 9223372036854775807 in Hle;
    change (2 ^ (Z.of_N 64 - 1))%Z with 9223372036854775808%Z;
    change (2 ^ 63)%Z with 9223372036854775808%Z; lia.
Qed.

Lemma into_satisfied : forall stack, DecodesInto (satisfied_encodable stack) (decode_satisfied_policy stack).
Proof.
  intros stack bs s rest H. unfold decode_satisfied_policy in H.
  apply run_bind_ok in H as (p & r & Hp & H). apply decoded_policy in Hp.
  do 2 apply run_bind_ok in H as (? & ? & _ & H). apply run_ret_ok in H as [<- _]. exact Hp.
Qed.

Lemma into_sci : forall stack, DecodesInto (v2_siacoin_input_encodable stack) (decode_v2_siacoin_input stack).
Proof.
  intros stack bs s rest H. unfold decode_v2_siacoin_input in H.
  apply run_bind_ok in H as (? & ? & _ & H).
  apply run_bind_ok in H as (p & r & Hp & H). apply into_satisfied in Hp.
  apply run_ret_ok in H as [<- _]. exact Hp.
Qed.

Lemma into_sfi : forall stack, DecodesInto (v2_siafund_input_encodable stack) (decode_v2_siafund_input stack).
Proof.
  intros stack bs s rest H. unfold decode_v2_siafund_input in H.
  do 2 apply run_bind_ok in H as (? & ? & _ & H).
  apply run_bind_ok in H as (p & r & Hp & H). apply into_satisfied in Hp.
  apply run_ret_ok in H as [<- _]. exact Hp.
Qed.

Lemma into_when : forall A (P : A -> Prop) f m a d, P a -> DecodesInto P d -> DecodesInto P (decode_when f m a d).
Proof.
  intros A P f m a d Ha H. unfold decode_when. destruct (_ =? 0); [|exact H].
  intros bs x rest E. apply run_ret_ok in E as [<- _]. exact Ha.
Qed.

Lemma into_v2_transaction : forall stack,
  DecodesInto (v2_transaction_encodable stack) (decode_v2_transaction stack).
Proof.
  intros stack bs t rest H. unfold decode_v2_transaction in H.
  apply run_bind_ok in H as (v & r & _ & H). destruct v; try discriminate H.
  apply run_bind_ok in H as (f & r1 & _ & H). cbv zeta in H.
  apply run_bind_ok in H as (i1 & r2 & H1 & H).
  apply (into_when _ (VecAll (v2_siacoin_input_encodable stack))) in H1;
    [|constructor|apply into_vec, into_sci].
  apply run_bind_ok in H as (o1 & r3 & _ & H).
  apply run_bind_ok in H as (i2 & r4 & H2 & H).
  apply (into_when _ (VecAll (v2_siafund_input_encodable stack))) in H2;
    [|constructor|apply into_vec, into_sfi].
  do 8 apply run_bind_ok in H as (? & ? & _ & H). apply run_ret_ok in H as [<- _].
  split; assumption.
Qed.

Lemma v1_codec_into : forall A P e d, V1Codec A P e d -> DecodesInto P d.
Proof.
  induction 1; try apply into_any.
  - now apply into_vec.
  - now apply into_option.
  - intros bs b rest H. unfold decode_block in H. do 2 apply run_bind_ok in H as (? & ? & _ & H).
    apply run_bind_ok in H as (t & ? & Ht & H). apply into_odt in Ht.
    do 2 apply run_bind_ok in H as (? & ? & _ & H). apply run_ret_ok in H as [<- _]. exact Ht.
Qed.

Lemma v2_codec_into : forall stack A P e d, V2Codec stack A P e d -> DecodesInto P d.
Proof.
  intros stack; induction 1; try apply into_any.
  - now apply into_vec.
  - now apply into_option.
  - apply into_odt.
  - apply into_duration.
  - intros bs p rest H. exact (decoded_policy _ _ _ _ H).
  - apply into_satisfied.
  - apply into_sci.
  - apply into_sfi.
  - apply into_v2_transaction.
  - intros bs a rest H. now apply decoded_element_accumulator in H.
Qed.

(** ** Chain state *)

Lemma pan_timestamps : forall (P : panic -> Prop), P UnwrapNone ->
  forall k c, PanicsOnly P (decode_timestamps c k).
Proof.
  intros P HP; induction k as [|k IH]; intros [|c]; cbn [decode_timestamps]; try apply panics_ret.
  apply panics_bind; [now apply pan_odt|]. intros t.
  apply panics_bind; [apply IH|]. intros r. apply panics_ret.
Qed.

Lemma timestamps_count_le : forall p c n, timestamps_count p c = Val n -> (n <= 11)%nat.
Proof.
  intros p c n H. unfold timestamps_count in H. destruct (ci_child_height p c) as [h|]; [|discriminate].
  injection H as <-. destruct (N.ltb_spec (uval h) 11); lia.
Qed.

Lemma pan_state : forall (P : panic -> Prop) p, P ArithOverflow -> P UnwrapNone ->
  PanicsOnly P (decode_state p).
Proof.
  intros P p HA HU bs q H. unfold decode_state in H. rewrite run_bind in H.
  destruct (run decode_chain_index bs) as [idx r|e|q'] eqn:E; try discriminate.
  2:{ injection H as <-. now apply (pan_chain_index P) in E. }
  destruct (timestamps_count p idx) as [c|q'] eqn:Ec.
  2:{ injection H as <-. unfold timestamps_count, ci_child_height, u_add in Ec.
      destruct p; [|discriminate]. destruct (_ <? _); [discriminate|]. now injection Ec as <-. }
  rewrite run_bind in H.
  destruct (run (decode_timestamps c 11) r) as [ts r1|e|q'] eqn:E1; try discriminate.
  2:{ injection H as <-. now apply (pan_timestamps P HU) in E1. }
  apply decode_timestamps_inv in E1 as (_ & HL & _); [|now apply timestamps_count_le in Ec].
  destruct (farr_of_ok 11 _ ts HL) as [t Ht]. rewrite Ht in H.
  revert H. match goal with |- run ?d _ = _ -> _ => assert (HP : PanicsOnly P d) end.
  { repeat (apply panics_bind; [solve [eauto 20 with pan] | intros]). apply panics_ret. }
  apply HP.
Qed.
