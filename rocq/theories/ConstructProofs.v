(** The standard unlock conditions of a key, and the threshold constructor (C60). *)

From Verif Require Import Base Io Blake2b Spec SpecUtf8 SpecText Codec Model_encoding Model_common Model_currency Model_v1
  Model_policy Model_text Model_consensus Model_merkle Model_ids SpecMerkle SpecTrace SpecLayout SpecConstruct
  PolicyProofs CurrencyProofs TextProofs TextMore AddressProofs AddressMore LayoutProofs LayoutTxn.
Local Open Scope N_scope.

Lemma standard_fields : forall pk,
  uval (uc_timelock (standard_unlock_conditions pk)) = 0 /\
  uval (uc_signatures_required (standard_unlock_conditions pk)) = 1 /\
  exists k, vlist (uc_public_keys (standard_unlock_conditions pk)) = [k] /\
    aval (uk_algorithm k) = ascii "ed25519" ++ repeat x00 9 /\ vlist (uk_key k) = aval pk.
Proof. intros pk. repeat split. eexists. repeat split. Qed.

Lemma standard_laid : forall pk, key_address (standard_unlock_conditions pk) = Some (standard_address (aval pk)).
Proof.
  intros pk. unfold key_address, standard_unlock_conditions, standard_address.
  cbn [uc_timelock uc_signatures_required uc_public_keys vlist].
  assert (E : lay_unlock_key (unlock_key_of_public_key pk) =
    ascii "ed25519" ++ repeat x00 9 ++ (x20 :: repeat x00 7) ++ aval pk).
  { unfold lay_unlock_key, unlock_key_of_public_key. cbn [uk_algorithm uk_key concat]. rewrite app_nil_r.
    unfold blob, many. cbn [vlist]. rewrite arr_len.
    replace (concat (map one (aval pk))) with (aval pk)
      by (clear; induction (aval pk) as [|c l IH]; [reflexivity|cbn; congruence]).
    reflexivity. }
  rewrite E. reflexivity.
Qed.

Lemma standard_address_ok : forall p pk, exists a,
  unlock_conditions_address p (standard_unlock_conditions pk) = Val a /\ aval a = standard_address (aval pk).
Proof.
  intros p pk. destruct (uc_total p (standard_unlock_conditions pk)) as [a Ha]. exists a. split; [exact Ha|].
  exact (key_address_laid p _ a _ Ha (standard_laid pk)).
Qed.

Lemma standard_binds : forall p k k' a,
  unlock_conditions_address p (standard_unlock_conditions k) = Val a ->
  unlock_conditions_address p (standard_unlock_conditions k') = Val a ->
  k = k' \/ Collision (uc_inputs p (standard_unlock_conditions k)) (uc_inputs p (standard_unlock_conditions k')).
Proof.
  intros p k k' a H H'. destruct (uc_binding_small p (standard_unlock_conditions k) (standard_unlock_conditions k') a (le_n 1) (le_n 1) H H') as [E|C]; [left|now right].
  apply arr_eq. apply (f_equal uc_public_keys) in E. apply (f_equal vlist) in E.
  cbn [standard_unlock_conditions uc_public_keys vlist] in E. injection E as E. exact E.
Qed.

Lemma key_text_same : forall k, unlock_key_text (unlock_key_of_public_key k) = Val (public_key_text k).
Proof. intros k. reflexivity. Qed.

Lemma threshold_constructor : forall n of,
  (Forall (fun q => forall u, q <> PUnlockConditions u) of -> policy_threshold n of = Val (PThreshold n of)) /\
  (Exists (fun q => exists u, q = PUnlockConditions u) of -> policy_threshold n of = Panic AssertFailed).
Proof.
  intros n of. unfold policy_threshold. set (f := fun q => match q with PUnlockConditions _ => true | _ => false end).
  split; intros H.
  - assert (E : existsb f of = false).
    { induction H as [|q l Hq _ IH]; [reflexivity|]. cbn [existsb]. rewrite IH, orb_false_r.
      destruct q; try reflexivity. now destruct (Hq uc). }
    now rewrite E.
  - assert (E : existsb f of = true).
    { apply existsb_exists. apply Exists_exists in H. destruct H as (q & I & u & ->). now exists (PUnlockConditions u). }
    now rewrite E.
Qed.

(** The restriction of the constructor does not hold of decoded policies. *)
Definition nested_conditions : policy :=
  PThreshold x01 [PUnlockConditions (standard_unlock_conditions zero_hash)].

Lemma nested_decoded : ~ (forall stack bs n of rest,
  run (decode_policy stack) bs = ROk (PThreshold n of) rest -> policy_threshold n of = Val (PThreshold n of)).
Proof.
  intros H.
  assert (E : run (decode_policy 2) (wbytes (encode_policy nested_conditions) ++ []) = ROk nested_conditions [])
    by (apply rt_policy; split; [|cbn; lia]; cbn; repeat split; lia).
  specialize (H _ _ _ _ _ E). discriminate H.
Qed.

Lemma construct_examples :
  Forall (fun q => forall u, q <> PUnlockConditions u) [PAbove (uwrap 64 7); PPublicKey zero_hash] /\
  Exists (fun q => exists u, q = PUnlockConditions u)
    [PAbove (uwrap 64 7); PUnlockConditions (standard_unlock_conditions zero_hash)].
Proof.
  split; [repeat constructor; discriminate|]. right. left. eexists. reflexivity.
Qed.
