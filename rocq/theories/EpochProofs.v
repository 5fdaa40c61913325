(** Proofs: the timestamps a state does not have are the epoch. *)

From Verif Require Import Base Io SpecWire Model_encoding Model_common Model_v1 Model_policy Model_v2 Model_consensus
  Model_json Model_jsontypes WireProofs ConsensusProofs JsonMore.
Local Open Scope N_scope.

Lemma epoch_zero : forall t, t = unix_epoch -> odt_secs t = 0%Z /\ odt_nanos t = 0.
Proof. intros t ->. split; reflexivity. Qed.

Lemma state_filled : forall p bs s rest i, run (decode_state p) bs = ROk s rest ->
  N.min (uval (ci_height (st_index s)) + 1) 11 <= N.of_nat i < 11 ->
  exists t, nth_error (flist (st_prev_timestamps s)) i = Some t /\ odt_secs t = 0%Z /\ odt_nanos t = 0.
Proof.
  intros p bs s rest i H [L U].
  assert (Hh : uval (ci_height (st_index s)) + 1 < 2 ^ 64).
  { destruct (N.min_spec (uval (ci_height (st_index s)) + 1) 11) as [[A E]|[A E]]; [|lia].
    eapply N.lt_trans; [exact A|reflexivity]. }
  destruct (decoded_state p bs s rest H Hh) as (_ & _ & _ & Z & _).
  assert (B : (i < length (flist (st_prev_timestamps s)))%nat) by (rewrite farr_len; lia).
  exists (nth i (flist (st_prev_timestamps s)) unix_epoch).
  split; [now apply nth_error_nth'|]. apply epoch_zero, Z. unfold ts_count. lia.
Qed.

Lemma stamps_filled : forall js a i, c_de j_timestamps (JArr js) = JOk a -> (length js <= i < 11)%nat ->
  exists t, nth_error (flist a) i = Some t /\ odt_secs t = 0%Z /\ odt_nanos t = 0.
Proof.
  intros js a i H [L U]. destruct (stamps_accepted js a H) as (ts & F & K & E). apply forall2_len in F.
  exists unix_epoch. split; [|split; reflexivity]. rewrite E, nth_error_app2 by lia.
  rewrite (nth_error_nth' _ unix_epoch) by (rewrite repeat_length; lia). f_equal. apply nth_repeat.
Qed.
