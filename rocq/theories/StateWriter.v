(** Where a writer must fail for the encoder of the chain state to panic. *)

From Verif Require Import Base Io IoProofs SpecWire Codec Model_encoding Model_common Model_consensus
  EncodingProofs CommonProofs ConsensusProofs WireProofs Samples.
Local Open Scope nat_scope.

Lemma run_writer_app : forall p q w x st, no_wpanic p -> run_writer (p ++ q) w = (x, st) ->
  (exists y w', x = wbytes p ++ y /\ run_writer q w' = (y, st)) \/ (st <> WSOk /\ run_writer p w = (x, st)).
Proof.
  induction p as [|o p IH]; intros q w x st Hp H; [left; now exists x, w|].
  inversion Hp as [|? ? Ho Hp']; subst. cbn [app] in H. destruct o as [b|b|z]; [| |exfalso; exact (Ho z eq_refl)].
  all: cbn [run_writer wbytes] in H |- *; destruct (write_all_to w b) as [[x0 ok] w'] eqn:E.
  all: destruct ok; [|right; injection H as <- <-; split; [discriminate|reflexivity]].
  all: apply write_all_to_prefix in E as [tl [Hb [Ht _]]]; rewrite (Ht eq_refl), app_nil_r in Hb; subst x0.
  all: destruct (run_writer (p ++ q) w') as [y st0] eqn:E2; injection H as <- <-.
  all: destruct (IH q w' y st0 Hp' E2) as [(z & w2 & -> & Hz)|(Hn & Hz)].
  1, 3: left; exists z, w2; rewrite app_assoc; now split.
  all: right; rewrite Hz; now split.
Qed.

Lemma run_writer_unwrap : forall p w x st, propagates p -> run_writer (wunwrap p) w = (x, st) ->
  st = WSOk \/ st = WSPanic UnwrapNone.
Proof.
  induction p as [|o p IH]; intros w x st Hp H; cbn in H; [inversion H; now left|].
  inversion Hp as [|? ? [b ->] Hp']; subst. cbn in H. destruct (write_all_to w b) as [[x0 ok] w'] eqn:E. destruct ok.
  - fold (wunwrap p) in H. destruct (run_writer (wunwrap p) w') as [y st0] eqn:E2. injection H as <- <-. eauto.
  - injection H as <- <-. now right.
Qed.

Lemma run_writer_short : forall p w x st, no_wpanic p -> run_writer p w = (x, st) ->
  length x <= length (wbytes p) /\ (st = WSOk <-> length x = length (wbytes p)).
Proof.
  intros p w x st Hp H. apply run_writer_prefix in H as (tl & -> & Hs); [|assumption]. rewrite app_length.
  split; [lia|]. rewrite Hs. split; [intros ->; cbn; lia|]. intros L. destruct tl; [reflexivity|cbn in L; lia].
Qed.

Lemma ts_bytes : forall l, length (wbytes (concat (map encode_odt l))) = 8 * length l.
Proof.
  induction l as [|t l IH]; [reflexivity|]. cbn [map concat length]. 
  rewrite wbytes_app_p by apply prop_odt. rewrite app_length, IH.
  assert (E : length (wbytes (encode_odt t)) = 8) by reflexivity. lia.
Qed.

Lemma state_writer_status : forall prof (s : state) (w : writer) x st, state_encodable s ->
  run_writer (encode_state prof s) w = (x, st) ->
  (st = WSPanic UnwrapNone <-> 40 <= length x < 40 + 8 * ts_count s) /\
  (st = WSErr <-> length x < 40 \/ 40 + 8 * ts_count s <= length x < length (wbytes (encode_state prof s))) /\
  (st = WSOk <-> length x = length (wbytes (encode_state prof s))).
Proof.
  intros prof s w x st Hs H. pose proof (run_writer_short _ w x st (state_no_wpanic prof s Hs) H) as [LE OK].
  destruct Hs as (Hh & _). unfold encode_state in H, LE, OK |- *. rewrite timestamps_count_val in H, LE, OK |- * by assumption.
  set (a := encode_chain_index _) in *. set (ts := concat _) in *.
  match type of H with run_writer (_ ++ _ ++ ?z) _ = _ => set (c := z) in * end.
  assert (Pa : no_wpanic a) by apply propagates_no_wpanic, prop_chain_index.
  assert (Pt : propagates ts) by apply prop_ts.
  assert (Pb : no_wpanic (wunwrap ts)) by apply no_wpanic_wunwrap, Pt.
  assert (Pc : propagates c) by (unfold c; CodecTac.prop_tac).
  assert (La : length (wbytes a) = 40).
  { unfold a, encode_chain_index. rewrite wbytes_app_p by CodecTac.prop_tac. rewrite app_length.
    assert (E : wbytes (encode_hash (ci_id (st_index s))) = aval (ci_id (st_index s)) ++ []) by reflexivity.
    rewrite E, app_nil_r, arr_len. reflexivity. }
  assert (Lb : length (wbytes (wunwrap ts)) = 8 * ts_count s).
  { rewrite wbytes_wunwrap by exact Pt. unfold ts. rewrite ts_bytes, firstn_length, farr_len. pose proof (ts_count_le s). lia. }
  assert (Ca : propagates a) by apply prop_chain_index.
  clearbody a ts c. 
  assert (Lbc : length (wbytes (wunwrap ts ++ c)) = 8 * ts_count s + length (wbytes c)).
  { rewrite wbytes_app by exact Pb. rewrite app_length. lia. }
  assert (Labc : length (wbytes (a ++ wunwrap ts ++ c)) = 40 + 8 * ts_count s + length (wbytes c)).
  { rewrite wbytes_app_p by exact Ca. rewrite app_length. lia. }
  rewrite Labc in *. clear Labc Lbc.
  destruct (run_writer_app a _ w x st Pa H) as [(y & w2 & -> & H2)|(N & H2)].
  2:{ destruct (run_writer_no_panic a w x st Ca H2) as [->| ->]; [congruence|].
      destruct (run_writer_short a w x WSErr Pa H2) as [L1 L2].
      assert (length x <> 40) by (intros E; rewrite <- La in E; apply L2 in E; discriminate).
      repeat split; intros; try discriminate; try lia. }
  rewrite app_length, La in *.
  destruct (run_writer_app (wunwrap ts) c w2 y st Pb H2) as [(z & w3 & -> & H3)|(N & H3)].
  - rewrite app_length, Lb in *.
    destruct (run_writer_short c w3 z st (propagates_no_wpanic _ Pc) H3) as [L1 L2].
    destruct (run_writer_no_panic c w3 z st Pc H3) as [->| ->].
    + pose proof (proj1 L2 eq_refl). repeat split; intros; try discriminate; try lia.
    + assert (length z <> length (wbytes c)) by (intros E; apply L2 in E; discriminate).
      repeat split; intros; try discriminate; try lia.
  - destruct (run_writer_unwrap ts w2 y st Pt H3) as [->| ->]; [congruence|].
    destruct (run_writer_short (wunwrap ts) w2 y _ Pb H3) as [L1 L2]. rewrite Lb in *.
    assert (length y <> 8 * ts_count s) by (intros E; apply L2 in E; discriminate).
    repeat split; intros; try discriminate; try lia.
Qed.
