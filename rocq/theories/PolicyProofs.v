(** Codec laws of spend policies. *)

From Verif Require Import Base Io IoProofs Spec SpecWire Codec Model_encoding EncodingProofs CodecTac
  Model_common CommonProofs Model_v1 V1Proofs Model_policy.
Local Open Scope N_scope.
Local Open Scope dec_scope.

Lemma prop_policy_body : Propagates encode_policy_body.
Proof.
  intros p; induction p using policy_ind'; cbn [encode_policy_body type_prefix];
    apply propagates_app; try apply propagates_write_all; try prop_tac.
  apply propagates_app; [apply prop_u8|]. apply propagates_app; [apply prop_u8|].
  induction H as [|q l Hq Hl IH]; cbn [map concat]; [constructor|].
  now apply propagates_app.
Qed.

Lemma prop_policy : Propagates encode_policy.
Proof. intros p. apply propagates_app; [apply prop_u8|apply prop_policy_body]. Qed.

#[global] Hint Resolve prop_policy_body prop_policy : prop codec.

Lemma wbytes_concat_map_body : forall l,
  wbytes (concat (map encode_policy_body l)) =
  concat (map (fun q => wbytes (encode_policy_body q)) l).
Proof. intros; apply wbytes_concat_map, prop_policy_body. Qed.

Lemma fits_forall : forall stack of,
  fold_right (fun q acc => encodable q /\ acc) True of ->
  (fold_right (fun q acc => Nat.max (depth q) acc) O of <= stack)%nat ->
  Forall (fun q => encodable q /\ (depth q <= stack)%nat) of.
Proof.
  intros stack of; induction of as [|q l IH]; cbn; intros H1 H2; constructor.
  - split; [tauto|lia].
  - apply IH; [tauto|lia].
Qed.

Lemma run_u8 : forall A (f : u8 -> dec A) b rest,
  run (dbind decode_u8 f) (b :: rest) = run (f b) rest.
Proof. reflexivity. Qed.

Lemma rt_policy_body : forall stack,
  RoundTripOn (fun p => encodable p /\ (depth p <= stack)%nat)
    encode_policy_body (decode_policy_body stack).
Proof.
  induction stack as [|stack IH]; intros p rest [He Hd].
  - exfalso. destruct p; cbn [depth] in Hd; lia.
  - destruct p as [h|t|k|h|n of|a|u]; cbn [encode_policy_body type_prefix decode_policy_body].
    + rewrite wbytes_app_p by apply propagates_write_all. rewrite wbytes_write_all.
      cbn [app]. rewrite run_u8. cbv iota. rt_step. reflexivity.
    + rewrite wbytes_app_p by apply propagates_write_all. rewrite wbytes_write_all.
      cbn [app]. rewrite run_u8. cbv iota. rt_step. cbv beta.
      rewrite swrap_u64 by discriminate.
      rewrite from_unix_timestamp_of by exact He. reflexivity.
    + rewrite wbytes_app_p by apply propagates_write_all. rewrite wbytes_write_all.
      cbn [app]. rewrite run_u8. cbv iota. rt_step. reflexivity.
    + rewrite wbytes_app_p by apply propagates_write_all. rewrite wbytes_write_all.
      cbn [app]. rewrite run_u8. cbv iota. rt_step. reflexivity.
    + rewrite wbytes_app_p by apply propagates_write_all. rewrite wbytes_write_all.
      cbn [app]. rewrite run_u8. cbv iota.
      rewrite !wbytes_app_p by apply prop_u8. rewrite <- !app_assoc.
      rt_step. cbv beta. rt_step. cbv beta.
      cbn [encodable depth] in He, Hd. destruct He as [Hlen He].
      rewrite run_alloc, run_bind, dloop_run.
      rewrite b2n_n2b, N.mod_mod by discriminate. rewrite N.mod_small by lia.
      rewrite Nnat.Nat2N.id.
      rewrite wbytes_concat_map_body.
      rewrite (loop_items _ _ _ _ IH) by (apply fits_forall; [exact He|lia]).
      cbn [run]. now rewrite app_nil_r, rev_involutive.
    + rewrite wbytes_app_p by apply propagates_write_all. rewrite wbytes_write_all.
      cbn [app]. rewrite run_u8. cbv iota. rt_step. reflexivity.
    + rewrite wbytes_app_p by apply propagates_write_all. rewrite wbytes_write_all.
      cbn [app]. rewrite run_u8. cbv iota. rt_step. reflexivity.
Qed.

Lemma rt_policy : forall stack,
  RoundTripOn (fun p => encodable p /\ (depth p <= stack)%nat)
    encode_policy (decode_policy stack).
Proof.
  intros stack p rest H. unfold encode_policy, decode_policy.
  rewrite wbytes_app_p by apply prop_u8. rewrite <- app_assoc. rt_step. cbv iota beta.
  now apply rt_policy_body.
Qed.

Lemma canon_policy_body : forall stack, Canonical encode_policy_body (decode_policy_body stack).
Proof.
  induction stack as [|stack IH]; intros bs p rest H; [discriminate|].
  cbn [decode_policy_body] in H. apply run_bind_ok in H as (ty & r & H1 & H2).
  apply canon_u8 in H1; subst bs.
  destruct ty; try discriminate H2.
  - canon_step H2. apply run_ret_ok in H2 as [<- <-].
    cbn [encode_policy_body type_prefix]. split_wbytes. reflexivity.
  - apply run_bind_ok in H2 as (s & r2 & H1 & H2). apply canon_u64 in H1; subst r.
    apply run_bind_ok in H2 as (t & r3 & H1 & H2). apply run_ret_ok in H2 as [<- <-].
    unfold dret_opt in H1. destruct (from_unix_timestamp _) as [t'|] eqn:E; [|discriminate].
    apply run_ret_ok in H1 as [<- <-].
    cbn [encode_policy_body type_prefix]. split_wbytes. rewrite wbytes_write_all.
    assert (Hu : unix_timestamp t' = swrap 64 w64_nz (Z.of_N (uval s))).
    { apply sint_eq. apply from_unix_timestamp_some in E as [E _]. exact E. }
    rewrite Hu, s_as_u64_swrap. reflexivity.
  - canon_step H2. apply run_ret_ok in H2 as [<- <-].
    cbn [encode_policy_body type_prefix]. split_wbytes. reflexivity.
  - canon_step H2. apply run_ret_ok in H2 as [<- <-].
    cbn [encode_policy_body type_prefix]. split_wbytes. reflexivity.
  - apply run_bind_ok in H2 as (of & r2 & H1 & H2). apply canon_u8 in H1; subst r.
    apply run_bind_ok in H2 as (n & r3 & H1 & H2). apply canon_u8 in H1; subst r2.
    rewrite run_alloc in H2. apply run_bind_ok in H2 as (l & r4 & H1 & H2). apply run_ret_ok in H2 as [<- <-].
    rewrite dloop_run in H1.
    apply (loop_items_inv _ _ _ IH) in H1 as (l' & -> & Hl & ->).
    rewrite app_nil_r, rev_involutive.
    cbn [encode_policy_body type_prefix].
    rewrite !wbytes_app_p by (first [apply propagates_write_all | apply prop_u8]).
    rewrite <- !app_assoc. rewrite wbytes_concat_map_body, Hl, Nnat.N2Nat.id.
    rewrite N.mod_small by apply b2n_lt. now rewrite n2b_b2n.
  - canon_step H2. apply run_ret_ok in H2 as [<- <-].
    cbn [encode_policy_body type_prefix]. split_wbytes. reflexivity.
  - canon_step H2. apply run_ret_ok in H2 as [<- <-].
    cbn [encode_policy_body type_prefix]. split_wbytes. reflexivity.
Qed.

Lemma canon_policy : forall stack, Canonical encode_policy (decode_policy stack).
Proof.
  intros stack bs p rest H. unfold decode_policy in H.
  apply run_bind_ok in H as (v & r & H1 & H2). apply canon_u8 in H1; subst bs.
  destruct v; try discriminate H2. apply canon_policy_body in H2; subst r.
  unfold encode_policy. split_wbytes. reflexivity.
Qed.

Lemma pan_policy_body : forall (P : panic -> Prop) stack,
  P CapacityOverflow -> P StackOverflow -> PanicsOnly P (decode_policy_body stack).
Proof.
  intros P stack HC HS; induction stack as [|stack IH]; cbn [decode_policy_body].
  - now apply panics_panic.
  - apply panics_bind; [apply pan_u8|]. intros ty.
    assert (HE : PanicsOnly P (@DErr policy (ECustom "invalid policy type"))) by apply panics_err.
    destruct ty; try exact HE; clear HE.
    + apply panics_bind; [apply pan_uint|intros; apply panics_ret].
    + apply panics_bind; [apply pan_uint|]. intros.
      apply panics_bind; [apply panics_dret_opt|intros; apply panics_ret].
    + apply panics_bind; [apply pan_hash|intros; apply panics_ret].
    + apply panics_bind; [apply pan_hash|intros; apply panics_ret].
    + apply panics_bind; [apply pan_u8|]. intros.
      apply panics_bind; [apply pan_u8|]. intros.
      apply panics_bind; [|intros; apply panics_ret].
      apply panics_loop. intros acc. apply panics_bind; [apply IH|intros; apply panics_ret].
    + apply panics_bind; [apply pan_hash|intros; apply panics_ret].
    + apply panics_bind; [now apply pan_unlock_conditions|intros; apply panics_ret].
Qed.

Lemma pan_policy : forall (P : panic -> Prop) stack,
  P CapacityOverflow -> P StackOverflow -> PanicsOnly P (decode_policy stack).
Proof.
  intros P stack HC HS. apply panics_bind; [apply pan_u8|]. intros v.
  assert (HE : PanicsOnly P (@DErr policy (ECustom "invalid policy version"))) by apply panics_err.
  destruct v; try exact HE. now apply pan_policy_body.
Qed.

#[global] Hint Resolve rt_policy : rt.
#[global] Hint Resolve canon_policy : canon.
#[global] Hint Resolve pan_policy : pan.

(** What decoding produces is always encodable and fits the stack. *)
Lemma decoded_policy_body : forall stack bs p rest,
  run (decode_policy_body stack) bs = ROk p rest -> encodable p /\ (depth p <= stack)%nat.
Proof.
  induction stack as [|stack IH]; intros bs p rest H; [discriminate|].
  cbn [decode_policy_body] in H. apply run_bind_ok in H as (ty & r & H1 & H2).
  destruct ty; try discriminate H2.
  - apply run_bind_ok in H2 as (x & r2 & _ & H2). apply run_ret_ok in H2 as [<- _].
    cbn; split; [trivial|lia].
  - apply run_bind_ok in H2 as (s & r2 & _ & H2).
    apply run_bind_ok in H2 as (t & r3 & H3 & H2). apply run_ret_ok in H2 as [<- <-].
    unfold dret_opt in H3. destruct (from_unix_timestamp _) as [t'|] eqn:E; [|discriminate].
    apply run_ret_ok in H3 as [<- <-]. apply from_unix_timestamp_some in E as [_ E].
    cbn; split; [exact E|lia].
  - apply run_bind_ok in H2 as (x & r2 & _ & H2). apply run_ret_ok in H2 as [<- _].
    cbn; split; [trivial|lia].
  - apply run_bind_ok in H2 as (x & r2 & _ & H2). apply run_ret_ok in H2 as [<- _].
    cbn; split; [trivial|lia].
  - apply run_bind_ok in H2 as (of & r2 & _ & H2).
    apply run_bind_ok in H2 as (n & r3 & _ & H2).
    apply run_bind_ok in H2 as (l & r4 & H3 & H2). apply run_ret_ok in H2 as [<- <-].
    rewrite dloop_run in H3.
    pose proof (loop_all _ (fun q => encodable q /\ (depth q <= stack)%nat) _ IH
                  _ _ _ _ _ (Forall_nil _) H3) as Hall.
    apply (loop_items_inv _ _ _ (canon_policy_body stack)) in H3 as (l' & Hl' & Hn & _).
    rewrite app_nil_r in Hl'; subst l. rewrite rev_involutive.
    apply Forall_rev in Hall. rewrite rev_involutive in Hall.
    cbn [encodable depth]. split; [split|].
    + rewrite Hn. pose proof (b2n_lt n). lia.
    + clear Hn. induction Hall as [|q l2 Hq Hl2 IH2]; cbn; tauto.
    + clear Hn. enough (fold_right (fun q acc => Nat.max (depth q) acc) O l' <= stack)%nat by lia.
      induction Hall as [|q l2 Hq Hl2 IH2]; cbn; lia.
  - apply run_bind_ok in H2 as (x & r2 & _ & H2). apply run_ret_ok in H2 as [<- _].
    cbn; split; [trivial|lia].
  - apply run_bind_ok in H2 as (x & r2 & _ & H2). apply run_ret_ok in H2 as [<- _].
    cbn; split; [trivial|lia].
Qed.

Lemma decoded_policy : forall stack bs p rest,
  run (decode_policy stack) bs = ROk p rest -> encodable p /\ (depth p <= stack)%nat.
Proof.
  intros stack bs p rest H. unfold decode_policy in H.
  apply run_bind_ok in H as (v & r & H1 & H2).
  destruct v; try discriminate H2. eapply decoded_policy_body; eauto.
Qed.

(** ** Stack use *)

(** Nested one-child thresholds exhaust any stack with three bytes per level. *)
Fixpoint nested_bytes (k : nat) : bytes :=
  match k with O => [] | S k' => x05 :: x01 :: x01 :: nested_bytes k' end.

Lemma nested_overflow : forall stack rest,
  run (decode_policy_body stack) (nested_bytes stack ++ rest) = RPanic StackOverflow.
Proof.
  induction stack as [|stack IH]; intros rest; [reflexivity|].
  cbn [nested_bytes app decode_policy_body]. rewrite run_u8. cbv iota.
  rewrite run_u8. rewrite run_u8. rewrite run_alloc, run_bind, dloop_run.
  change (N.to_nat (b2n x01)) with 1%nat. cbn [dloop_nat].
  rewrite run_bind. rewrite run_bind. rewrite IH. reflexivity.
Qed.

Lemma nested_length : forall k, length (nested_bytes k) = (3 * k)%nat.
Proof. induction k; cbn [nested_bytes length]; lia. Qed.

Lemma run_shrinks : forall A (d : dec A) bs a rest,
  run d bs = ROk a rest -> (length rest <= length bs)%nat.
Proof.
  intros A d bs a rest H. apply run_consumes in H as (used & -> & _).
  rewrite app_length. lia.
Qed.

Lemma no_overflow : forall A (d : dec A) bs,
  PanicsOnly (fun p => p = CapacityOverflow) d -> run d bs <> RPanic StackOverflow.
Proof. intros A d bs H E. apply H in E. discriminate. Qed.

(** A stack of one frame per three bytes of input, plus one, is enough. *)
Lemma stack_enough : forall stack bs,
  (length bs < 3 * stack)%nat -> run (decode_policy_body stack) bs <> RPanic StackOverflow.
Proof.
  induction stack as [|stack IH]; intros bs Hl; [lia|].
  cbn [decode_policy_body]. rewrite run_bind.
  destruct (run decode_u8 bs) as [ty r|e|q] eqn:E1; [|discriminate|].
  2:{ intros [= ->]. now apply (pan_u8 (fun _ => False)) in E1. }
  assert (Hr : (S (length r) = length bs)%nat).
  { apply canon_u8 in E1; subst bs. reflexivity. }
  assert (HE : run (@DErr policy (ECustom "invalid policy type")) r <> RPanic StackOverflow)
    by discriminate.
  destruct ty; try exact HE; clear HE; intros H.
  - revert H. apply no_overflow, panics_bind; [apply pan_uint|intros; apply panics_ret].
  - revert H. apply no_overflow, panics_bind; [apply pan_uint|].
    intros; apply panics_bind; [apply panics_dret_opt|intros; apply panics_ret].
  - revert H. apply no_overflow, panics_bind; [apply pan_hash|intros; apply panics_ret].
  - revert H. apply no_overflow, panics_bind; [apply pan_hash|intros; apply panics_ret].
  - rewrite run_bind in H.
    destruct (run decode_u8 r) as [of r2|e|q] eqn:E2; [|discriminate|].
    2:{ now apply (pan_u8 (fun _ => False)) in E2. }
    rewrite run_bind in H.
    destruct (run decode_u8 r2) as [n r3|e|q] eqn:E3; [|discriminate|].
    2:{ now apply (pan_u8 (fun _ => False)) in E3. }
    apply canon_u8 in E2, E3; subst r r2. cbn [length wbytes encode_u8 write_all app] in Hr.
    rewrite run_alloc, run_bind, dloop_run in H.
    assert (Hloop : forall k acc bs', (length bs' < 3 * stack)%nat ->
      run (dloop_nat k (fun acc => x <- decode_policy_body stack ;; DRet (x :: acc)) acc) bs'
        <> RPanic StackOverflow).
    { induction k as [|k IHk]; intros acc bs' Hb; cbn [dloop_nat]; [discriminate|].
      rewrite run_bind, run_bind.
      destruct (run (decode_policy_body stack) bs') as [x r'|e|q] eqn:E4.
      - cbn [run]. apply IHk. apply run_shrinks in E4. lia.
      - discriminate.
      - intros [= ->]. eapply IH; eauto. }
    destruct (run (dloop_nat _ _ _) r3) as [l r4|e|q] eqn:E5; try discriminate H.
    injection H as ->. eapply Hloop; [|exact E5]. lia.
  - revert H. apply no_overflow, panics_bind; [apply pan_hash|intros; apply panics_ret].
  - revert H. apply no_overflow, panics_bind;
      [now apply pan_unlock_conditions|intros; apply panics_ret].
Qed.

(** ** SatisfiedPolicy *)

Lemma prop_satisfied_policy : Propagates encode_satisfied_policy.
Proof. prop_struct encode_satisfied_policy. Qed.
Lemma rt_satisfied_policy : forall stack,
  RoundTripOn (satisfied_encodable stack) encode_satisfied_policy (decode_satisfied_policy stack).
Proof.
  intros stack a rest Ha. unfold satisfied_encodable in Ha.
  unfold encode_satisfied_policy, decode_satisfied_policy. split_wbytes.
  repeat (rt_step; cbv beta). destruct a; reflexivity.
Qed.
Lemma canon_satisfied_policy : forall stack,
  Canonical encode_satisfied_policy (decode_satisfied_policy stack).
Proof. intros stack; canon_struct encode_satisfied_policy decode_satisfied_policy. Qed.
Lemma pan_satisfied_policy : forall (P : panic -> Prop) stack,
  P CapacityOverflow -> P StackOverflow -> PanicsOnly P (decode_satisfied_policy stack).
Proof. pan_struct decode_satisfied_policy. Qed.

#[global] Hint Resolve prop_satisfied_policy : prop codec.
#[global] Hint Resolve rt_satisfied_policy : rt.
#[global] Hint Resolve canon_satisfied_policy : canon.
#[global] Hint Resolve pan_satisfied_policy : pan.
