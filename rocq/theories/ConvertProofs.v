(** Lemmas for C61. *)

From Verif Require Import Base Io IoProofs Spec SpecText SpecWire SpecLayout Codec Model_encoding EncodingProofs Blake2b Model_common Model_v1
  Model_policy Model_currency Model_text Model_consensus Model_seed Model_json Model_jsontypes Model_convert CurrencyProofs TextProofs CommonProofs LayoutProofs.
Local Open Scope N_scope.

Lemma digits_split : forall d d' r r', Forall digit d -> Forall digit d' ->
  d ++ ":"%byte :: r = d' ++ ":"%byte :: r' -> d = d' /\ r = r'.
Proof.
  assert (N : ~ digit ":"%byte) by (intros [_ H]; vm_compute in H; now apply H).
  induction d as [|c d IH]; intros [|c' d'] r r' F F' E; cbn [app] in E.
  - split; congruence.
  - exfalso. apply N. inversion F'; subst. congruence.
  - exfalso. apply N. inversion F; subst. congruence.
  - inversion F; inversion F'; subst. destruct (IH d' r r') as [-> ->]; try assumption; [congruence|].
    split; congruence.
Qed.

Lemma chain_index_text_form : forall c, exists d h, chain_index_text c = d ++ ascii ":" ++ h /\
  digits d /\ dec_value d = uval (ci_height c) /\ HexText h (aval (ci_id c)).
Proof.
  intros c. exists (dec_text (uval (ci_height c))), (hex_encode (aval (ci_id c))). split; [reflexivity|].
  destruct (dec_text_spec (uval (ci_height c))) as (H1 & H2 & _). repeat split; try assumption; try apply H1.
  apply hex_encode_text.
Qed.

Lemma chain_index_text_inj : forall c d, chain_index_text c = chain_index_text d -> c = d.
Proof.
  intros [h i] [h' i'] E. unfold chain_index_text in E. cbn [ci_height ci_id] in E.
  destruct (dec_text_spec (uval h)) as ([_ F] & V & _). destruct (dec_text_spec (uval h')) as ([_ F'] & V' & _).
  cbn [ascii app] in E. apply digits_split in E; try assumption. destruct E as [E1 E2].
  assert (h = h') by (apply uint_eq; congruence). apply hex_encode_inj in E2. apply arr_eq in E2. now subst.
Qed.

Lemma address_slice : forall l,
  (length l = 32%nat -> exists a, address_from_slice l = Val a /\ aval a = l) /\
  (length l <> 32%nat -> exists r, address_from_slice l = Panic r).
Proof.
  intros l. unfold address_from_slice. split; intros H.
  - rewrite H. cbn [Nat.eqb]. eexists. split; [reflexivity|]. now apply arr_of_aval.
  - apply Nat.eqb_neq in H. rewrite H. now eexists.
Qed.

Lemma currency_u64 : forall c n, currency_try_into_u64 c = Some n <-> uval c = uval n.
Proof.
  intros c n. unfold currency_try_into_u64. destruct (N.ltb_spec (uval c) (2 ^ 64)) as [L|L]; split; intros H.
  - injection H as <-. symmetry. apply N.mod_small. exact L.
  - f_equal. apply uint_eq. rewrite <- H. apply N.mod_small. exact L.
  - discriminate H.
  - exfalso. pose proof (uint_lt 64 n). lia.
Qed.

Lemma currency_order : forall c d,
  (currency_cmp c d = Lt <-> uval c < uval d) /\ (currency_cmp c d = Eq <-> c = d) /\ (currency_cmp c d = Gt <-> uval d < uval c).
Proof.
  intros c d. unfold currency_cmp. split; [|split].
  - apply N.compare_lt_iff.
  - rewrite N.compare_eq_iff. split; [apply uint_eq|congruence].
  - apply N.compare_gt_iff.
Qed.

Lemma work_bytes_value : forall l : arr 32, uval (work_of_bytes l) = be_value (aval l).
Proof.
  intros l. unfold work_of_bytes. rewrite be_value_spec. change (from_be (aval l) mod 2 ^ 256 = from_be (aval l)).
  apply N.mod_small. pose proof (from_le_lt (rev (aval l))) as H. rewrite rev_length, arr_len in H. exact H.
Qed.

Lemma work_bytes_encoded : forall l : arr 32, wbytes (encode_work (work_of_bytes l)) = aval l.
Proof.
  intros l. unfold encode_work, encode_arr. rewrite work_bytes_value, be_value_spec.
  pose proof (be_bytes_from_be (aval l)) as H. rewrite arr_len in H. rewrite H.
  rewrite arr_of_id. apply wbytes_write_all.
Qed.

Lemma defaults : uval currency_default = 0 /\ aval hash_default = repeat x00 32 /\ aval signature_default = repeat x00 64.
Proof. split; [reflexivity|]. split; apply arr_of_aval; reflexivity. Qed.

Lemma constants : uval siafund_count = 10000 /\ uval ancestor_depth = 1000 /\ uval max_block_weight = 2000000.
Proof. repeat split. Qed.

Lemma whole_transaction_forms :
  wbytes (encode_covered_fields covered_whole_transaction) = x01 :: repeat x00 80 /\
  c_ser j_covered_fields covered_whole_transaction = JOk (JObj [(ascii "wholeTransaction", JBool true)]).
Proof. split; vm_compute; reflexivity. Qed.

Lemma constructor_bytes :
  (forall n, wbytes (encode_policy (policy_above n)) = [x01; x01] ++ word n) /\
  (forall t, wbytes (encode_policy (policy_after t)) = [x01; x02] ++ timestamp t) /\
  (forall k, wbytes (encode_policy (policy_public_key k)) = [x01; x03] ++ aval k) /\
  (forall h, wbytes (encode_policy (policy_hash h)) = [x01; x04] ++ aval h) /\
  (forall u, wbytes (encode_policy (policy_unlock_conditions u)) = [x01; x07] ++ lay_unlock_conditions u).
Proof. repeat split; intros; rewrite (proj2 (lays_policy _)); reflexivity. Qed.
