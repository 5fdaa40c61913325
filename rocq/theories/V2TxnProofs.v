(** Codec laws of the v2 transaction. *)

From Verif Require Import Base Io IoProofs Spec SpecWire Codec Model_encoding EncodingProofs CodecTac
  Model_common CommonProofs Model_v1 V1Proofs Model_policy PolicyProofs Model_v2 V2Proofs.
Local Open Scope N_scope.
Local Open Scope dec_scope.

(** ** Transactions *)

Lemma prop_when : forall b p, propagates p -> propagates (encode_when b p).
Proof. intros [|] p H; [exact H|constructor]. Qed.

Lemma prop_v2_transaction : Propagates encode_v2_transaction.
Proof.
  intros t. unfold encode_v2_transaction.
  repeat match goal with |- propagates (_ ++ _) => apply propagates_app end;
    try (apply prop_when; prop_tac); try prop_tac.
  destruct (v2t_new_foundation_address t); [prop_tac|constructor].
Qed.

(** A list of conditions as bits. *)
Lemma land_pow2 : forall n i, (N.land n (2 ^ i) =? 0) = negb (N.testbit n i).
Proof.
  intros n i. destruct (N.testbit n i) eqn:E; cbn [negb].
  - apply N.eqb_neq. intros H. apply (f_equal (fun x => N.testbit x i)) in H.
    rewrite N.land_spec, E, N.pow2_bits_true, N.bits_0 in H. discriminate.
  - apply N.eqb_eq. apply N.bits_inj. intros j. rewrite N.bits_0, N.land_spec.
    destruct (N.eq_dec i j) as [->|Hn]; [now rewrite E|].
    rewrite N.pow2_bits_false by assumption. apply andb_false_r.
Qed.

(** Checked by computing with all the 2^11 combinations of conditions. *)
Lemma sum_bits_testbit : forall b0 b1 b2 b3 b4 b5 b6 b7 b8 b9 b10,
  let n := sum_bits 0 [b0; b1; b2; b3; b4; b5; b6; b7; b8; b9; b10] in
  n < 2048 /\
  N.testbit n 0 = b0 /\ N.testbit n 1 = b1 /\ N.testbit n 2 = b2 /\ N.testbit n 3 = b3 /\
  N.testbit n 4 = b4 /\ N.testbit n 5 = b5 /\ N.testbit n 6 = b6 /\ N.testbit n 7 = b7 /\
  N.testbit n 8 = b8 /\ N.testbit n 9 = b9 /\ N.testbit n 10 = b10.
Proof.
  intros [|] [|] [|] [|] [|] [|] [|] [|] [|] [|] [|]; vm_compute; repeat split.
Qed.

(** An optional field behind bit [i] of the bitmap. *)
Lemma run_when_rt : forall A B (P : A -> Prop) (e : A -> wprog) d (f : A -> dec B) b i n
    (dflt a : A) rest,
  RoundTripOn P e d -> P a -> N.testbit n i = b -> (b = false -> a = dflt) ->
  run (dbind (decode_when n (2 ^ i) dflt d) f) (wbytes (encode_when b (e a)) ++ rest) =
  run (f a) rest.
Proof.
  intros A B P e d f b i n dflt a rest H HP Hb Hd.
  unfold decode_when. rewrite land_pow2, Hb. destruct b; cbn [negb encode_when].
  - now apply run_bind_rt_on with (P := P).
  - cbn. now rewrite Hd.
Qed.

Lemma is_empty_false : forall sz A (v : vec sz A), negb (is_empty v) = false -> v = vec_nil.
Proof.
  intros sz A v H. apply vec_eq. unfold is_empty in H. cbn.
  destruct (vlist v); [reflexivity|discriminate].
Qed.

Lemma is_zero_false : forall n, negb (is_zero n) = false -> n = uwrap 128 0.
Proof.
  intros n H. apply uint_eq. unfold is_zero in H. apply negb_false_iff, N.eqb_eq in H.
  rewrite H. reflexivity.
Qed.

Lemma on_true : forall A (e : A -> wprog) d, RoundTrip e d -> RoundTripOn (fun _ => True) e d.
Proof. intros A e d H a rest _; apply H. Qed.

Ltac when_step i :=
  let go m := change m with (2 ^ i);
    etransitivity; [eapply run_when_rt;
      [ first [ apply rt_vec_on; solve [eauto 20 with rt prop] | apply on_true; solve [eauto 20 with rt prop] ]
      | try exact I; try assumption
      | assumption
      | first [apply is_empty_false|apply is_zero_false] ]|] in
  match goal with |- context [decode_when _ ?m _ _] => go m end.

Lemma rt_v2_transaction : forall stack,
  RoundTripOn (v2_transaction_encodable stack) encode_v2_transaction (decode_v2_transaction stack).
Proof.
  intros stack t rest [Hi Hf]. unfold encode_v2_transaction, decode_v2_transaction.
  destruct (sum_bits_testbit
    (negb (is_empty (v2t_siacoin_inputs t))) (negb (is_empty (v2t_siacoin_outputs t)))
    (negb (is_empty (v2t_siafund_inputs t))) (negb (is_empty (v2t_siafund_outputs t)))
    (negb (is_empty (v2t_file_contracts t))) (negb (is_empty (v2t_file_contract_revisions t)))
    (negb (is_empty (v2t_file_contract_resolutions t))) (negb (is_empty (v2t_attestations t)))
    (negb (is_empty (v2t_arbitrary_data t))) (is_some (v2t_new_foundation_address t))
    (negb (is_zero (v2t_miner_fee t))))
    as (Hlt & H0 & H1 & H2 & H3 & H4 & H5 & H6 & H7 & H8 & H9 & H10).
  fold (txn_conditions t) in *.
  assert (Hu : uval (uwrap 64 (sum_bits 0 (txn_conditions t))) = sum_bits 0 (txn_conditions t))
    by (apply uwrap_small; eapply N.lt_trans; [exact Hlt|reflexivity]).
  remember (uwrap 64 (sum_bits 0 (txn_conditions t))) as u eqn:Eu; clear Eu.
  remember (sum_bits 0 (txn_conditions t)) as n eqn:En; clear En.
  repeat (rewrite wbytes_app_p;
    [|first [apply prop_when; prop_tac | prop_tac
            | destruct (v2t_new_foundation_address t); [prop_tac|constructor]]]).
  repeat rewrite <- app_assoc.
  rt_step; cbv beta iota. rt_step; cbv beta zeta.
  rewrite Hu.
  when_step 0; cbv beta.
  when_step 1; cbv beta.
  when_step 2; cbv beta.
  when_step 3; cbv beta.
  when_step 4; cbv beta.
  when_step 5; cbv beta.
  when_step 6; cbv beta.
  when_step 7; cbv beta.
  when_step 8; cbv beta.
  etransitivity; [|etransitivity].
  - rewrite run_bind. change 512 with (2 ^ 9). unfold decode_when at 1. rewrite land_pow2, H9.
    instantiate (1 := run (miner_fee <- decode_when n 1024 (uwrap 128 0) decode_currency ;;
      DRet (MkV2Txn (v2t_siacoin_inputs t) (v2t_siacoin_outputs t) (v2t_siafund_inputs t)
        (v2t_siafund_outputs t) (v2t_file_contracts t) (v2t_file_contract_revisions t)
        (v2t_file_contract_resolutions t) (v2t_attestations t) (v2t_arbitrary_data t)
        (v2t_new_foundation_address t) miner_fee))
      (wbytes (encode_when (negb (is_zero (v2t_miner_fee t))) (encode_currency (v2t_miner_fee t))) ++ rest)).
    destruct (v2t_new_foundation_address t) as [a|]; cbn [is_some negb].
    + rewrite run_bind, rt_hash. reflexivity.
    + reflexivity.
  - when_step 10. reflexivity.
  - destruct t; reflexivity.
Qed.

Lemma pan_v2_transaction : forall (P : panic -> Prop) stack,
  P CapacityOverflow -> P StackOverflow -> PanicsOnly P (decode_v2_transaction stack).
Proof.
  intros P stack HC HS. unfold decode_v2_transaction.
  apply panics_bind; [apply pan_u8|]. intros v.
  assert (HE : PanicsOnly P (@DErr v2_transaction (ECustom "unsupported transaction version")))
    by apply panics_err.
  destruct v; try exact HE. clear HE.
  apply panics_bind; [apply pan_uint|]. intros n. cbv zeta.
  repeat (apply panics_bind;
    [unfold decode_when; destruct (_ =? 0);
       [apply panics_ret
       |first [solve [eauto 20 with pan]
              |apply panics_bind; [solve [eauto with pan]|intros; apply panics_ret]]]
    |intros]).
  apply panics_ret.
Qed.

#[global] Hint Resolve prop_v2_transaction : prop codec.
#[global] Hint Resolve rt_v2_transaction : rt.
#[global] Hint Resolve pan_v2_transaction : pan.
