(** Identifiers and signature hashes: what the hashed bytes determine. *)

From Verif Require Import Base Io IoProofs Spec SpecWire Codec CodecTac Model_encoding EncodingProofs
  Model_common Blake2b Model_currency Model_v1 Model_policy Model_v2 Model_consensus Model_merkle
  Model_ids CommonProofs V1Proofs PolicyProofs V2Proofs V2TxnProofs ConsensusProofs
  SpecMerkle SpecIds AddressProofs.
Local Open Scope N_scope.

(** ** Splitting concatenations *)

(** [Splits Q R e]: two encodings of values related by [Q], followed by anything, are equal
    only if the values are related by [R], and then what follows is equal too. *)
Definition Splits {A} (Q R : A -> A -> Prop) (e : A -> bytes) : Prop :=
  forall a b x y, Q a b -> e a ++ x = e b ++ y -> R a b /\ x = y.

Definition always {A} (_ _ : A) : Prop := True.

Lemma rt_splits : forall A (e : A -> wprog) d, RoundTrip e d -> Splits always eq (fun a => wbytes (e a)).
Proof. intros A e d H a b x y _ E. exact (roundtrip_unambiguous A e d H a b x y E). Qed.

Lemma app_len_inj : forall (p q x y : bytes), length p = length q -> p ++ x = q ++ y -> p = q /\ x = y.
Proof.
  induction p as [|c p IH]; intros [|c' q] x y Hl E; cbn in *; try discriminate.
  - split; [reflexivity|exact E].
  - injection E as -> E. destruct (IH q x y ltac:(congruence) E) as [-> ->]. split; reflexivity.
Qed.

Lemma fixed_splits : forall A (f : A -> bytes) (Q R : A -> A -> Prop),
  (forall a b, Q a b -> length (f a) = length (f b)) -> (forall a b, Q a b -> f a = f b -> R a b) -> Splits Q R f.
Proof.
  intros A f Q R Hl Hi a b x y HQ E. apply app_len_inj in E; [|now apply Hl].
  destruct E as [E ->]. split; [now apply Hi|reflexivity].
Qed.

Lemma concat_splits : forall A (Q R : A -> A -> Prop) (f : A -> bytes), Splits Q R f ->
  forall l l' x y, Forall2 Q l l' ->
  concat (map f l) ++ x = concat (map f l') ++ y -> Forall2 R l l' /\ x = y.
Proof.
  intros A Q R f H l l' x y HQ. revert x y. induction HQ as [|a b l l' Hab HQ IH]; intros x y E; cbn in E.
  - split; [constructor|exact E].
  - rewrite <- !app_assoc in E. apply H in E as [Hr E]; [|exact Hab].
    apply IH in E as [Hf ->]. split; [now constructor|reflexivity].
Qed.

Lemma forall2_always : forall A (l l' : list A), length l = length l' -> Forall2 always l l'.
Proof.
  induction l as [|a l IH]; intros [|b l'] H; cbn in H; try discriminate; constructor; [exact I|].
  apply IH. congruence.
Qed.

Lemma le8_splits : forall n m x y, n < 2 ^ 64 -> m < 2 ^ 64 ->
  le_bytes 8 n ++ x = le_bytes 8 m ++ y -> n = m /\ x = y.
Proof.
  intros n m x y Hn Hm E. apply app_len_inj in E; [|now rewrite !le_bytes_length].
  destruct E as [E ->]. split; [|reflexivity].
  apply (f_equal from_le) in E. rewrite !from_le_le_bytes in E. change (256 ^ N.of_nat 8) with (2 ^ 64) in E.
  now rewrite !N.mod_small in E by assumption.
Qed.

Lemma u64_splits : forall (a b : u64) x y, le_bytes 8 (uval a) ++ x = le_bytes 8 (uval b) ++ y -> a = b /\ x = y.
Proof.
  intros a b x y E. apply le8_splits in E; [|apply uint_lt|apply uint_lt].
  destruct E as [E ->]. split; [now apply uint_eq|reflexivity].
Qed.

Lemma hash_splits : forall (n : nat) (a b : arr n) x y, aval a ++ x = aval b ++ y -> a = b /\ x = y.
Proof.
  intros n a b x y E. apply app_len_inj in E; [|now rewrite !arr_len].
  destruct E as [E ->]. split; [now apply arr_eq|reflexivity].
Qed.

Lemma vec_len_lt : forall sz A (v : vec sz A), N.of_nat (length (vlist v)) < 2 ^ 64.
Proof.
  intros sz A v. pose proof (vec_bounds sz A v) as H. eapply N.le_lt_trans; [apply H|]. reflexivity.
Qed.

(** ** Identifiers: the hashed bytes of the fixed-size derivations *)

Lemma wbytes_hash : forall h, wbytes (encode_hash h) = aval h.
Proof. intros h. unfold encode_hash, encode_arr. apply wbytes_write_all. Qed.
Lemma wbytes_u64 : forall v, wbytes (encode_u64 v) = le_bytes 8 (uval v).
Proof. intros v. now apply wbytes_uint. Qed.

Lemma concat_same : forall A (e : A -> wprog), Propagates e -> forall l,
  wbytes (concat (map e l)) = concat (map (fun a => wbytes (e a)) l).
Proof.
  intros A e He l. induction l as [|a l IH]; cbn; [reflexivity|].
  rewrite wbytes_app_p by apply He. now rewrite IH.
Qed.

(** ** v1 transactions *)

(** One field of a v1 transaction. *)
Ltac split_field H rt :=
  let E := fresh "E" in
  apply (rt_splits _ _ _ rt) in H; [|exact I]; destruct H as [E H].

Lemma rt_sci : RoundTrip (@encode_vec 72 _ encode_v1_siacoin_input) (decode_vec 72 decode_v1_siacoin_input).
Proof. eauto with rt prop. Qed.
Lemma rt_sco : RoundTrip (@encode_vec 48 _ encode_v1_siacoin_output) (decode_vec 48 decode_v1_siacoin_output).
Proof. eauto with rt prop. Qed.
Lemma rt_fc : RoundTrip (@encode_vec 160 _ encode_v1_file_contract) (decode_vec 160 decode_v1_file_contract).
Proof. eauto with rt prop. Qed.
Lemma rt_fcr : RoundTrip (@encode_vec 216 _ encode_v1_file_contract_revision)
  (decode_vec 216 decode_v1_file_contract_revision).
Proof. eauto with rt prop. Qed.
Lemma rt_sp : RoundTrip (@encode_vec 120 _ encode_v1_storage_proof) (decode_vec 120 decode_v1_storage_proof).
Proof. eauto with rt prop. Qed.
Lemma rt_sfi : RoundTrip (@encode_vec 104 _ encode_v1_siafund_input) (decode_vec 104 decode_v1_siafund_input).
Proof. eauto with rt prop. Qed.
Lemma rt_sfo : RoundTrip (@encode_vec 40 _ encode_v1_siafund_output) (decode_vec 40 decode_v1_siafund_output).
Proof. eauto with rt prop. Qed.
Lemma rt_fees : RoundTrip (@encode_vec 16 _ encode_v1_currency) (decode_vec 16 decode_v1_currency).
Proof. eauto with rt prop. Qed.
Lemma rt_arb : RoundTrip (@encode_vec 24 _ (@encode_vec 1 u8 encode_u8)) (decode_vec 24 (decode_vec 1 decode_u8)).
Proof. eauto with rt prop. Qed.

Lemma wbytes_no_sigs : forall t, wbytes (encode_no_sigs t) =
  wbytes (encode_vec encode_v1_siacoin_input (v1t_siacoin_inputs t)) ++
  wbytes (encode_vec encode_v1_siacoin_output (v1t_siacoin_outputs t)) ++
  wbytes (encode_vec encode_v1_file_contract (v1t_file_contracts t)) ++
  wbytes (encode_vec encode_v1_file_contract_revision (v1t_file_contract_revisions t)) ++
  wbytes (encode_vec encode_v1_storage_proof (v1t_storage_proofs t)) ++
  wbytes (encode_vec encode_v1_siafund_input (v1t_siafund_inputs t)) ++
  wbytes (encode_vec encode_v1_siafund_output (v1t_siafund_outputs t)) ++
  wbytes (encode_vec encode_v1_currency (v1t_miner_fees t)) ++
  wbytes (encode_vec (encode_vec encode_u8) (v1t_arbitrary_data t)).
Proof. intros t. unfold encode_no_sigs. split_wbytes. reflexivity. Qed.

Lemma same_unsigned : forall t u,
  v1t_siacoin_inputs t = v1t_siacoin_inputs u -> v1t_siacoin_outputs t = v1t_siacoin_outputs u ->
  v1t_file_contracts t = v1t_file_contracts u ->
  v1t_file_contract_revisions t = v1t_file_contract_revisions u ->
  v1t_storage_proofs t = v1t_storage_proofs u -> v1t_siafund_inputs t = v1t_siafund_inputs u ->
  v1t_siafund_outputs t = v1t_siafund_outputs u -> v1t_miner_fees t = v1t_miner_fees u ->
  v1t_arbitrary_data t = v1t_arbitrary_data u -> SameUnsigned t u.
Proof. intros t u H1 H2 H3 H4 H5 H6 H7 H8 H9. exists (v1t_signatures u). destruct t, u; cbn in *; subst; reflexivity. Qed.

Lemma no_sigs_splits : Splits always SameUnsigned (fun t => wbytes (encode_no_sigs t)).
Proof.
  intros t u x y _ E. rewrite !wbytes_no_sigs, <- !app_assoc in E.
  split_field E rt_sci. split_field E rt_sco. split_field E rt_fc. split_field E rt_fcr.
  split_field E rt_sp. split_field E rt_sfi. split_field E rt_sfo. split_field E rt_fees.
  split_field E rt_arb. split; [now apply same_unsigned|exact E].
Qed.

Lemma no_sigs_with : forall t s, encode_no_sigs (with_signatures t s) = encode_no_sigs t.
Proof. reflexivity. Qed.

Lemma no_sigs_same : forall t u, SameUnsigned t u -> encode_no_sigs u = encode_no_sigs t.
Proof. intros t u [s ->]. apply no_sigs_with. Qed.

Lemma slice_min_length : forall A (e : A -> wprog), Propagates e -> forall sz (v : vec sz A),
  (8 <= length (wbytes (encode_vec e v)))%nat.
Proof.
  intros A e He sz v. unfold encode_vec. rewrite wbytes_slice by exact He.
  rewrite app_length. unfold encode_usize. rewrite wbytes_uint by discriminate. rewrite le_bytes_length. lia.
Qed.

Lemma no_sigs_length : forall t, (72 <= length (wbytes (encode_no_sigs t)))%nat.
Proof.
  intros t. rewrite wbytes_no_sigs, !app_length.
  repeat match goal with |- context [length (wbytes (@encode_vec ?sz ?A ?e ?v))] =>
    let H := fresh in
    assert (H : (8 <= length (wbytes (@encode_vec sz A e v)))%nat) by (apply slice_min_length; eauto with prop);
    revert H; generalize (length (wbytes (@encode_vec sz A e v))); intros end.
  lia.
Qed.

(** The first eight bytes of what is hashed for a transaction id: the number of siacoin inputs. *)
Lemma no_sigs_start : forall t, exists r, wbytes (encode_no_sigs t) =
  le_bytes 8 (N.of_nat (length (vlist (v1t_siacoin_inputs t)))) ++ r.
Proof.
  intros t. rewrite wbytes_no_sigs. unfold encode_vec at 1. rewrite wbytes_slice by eauto with prop.
  unfold encode_usize. rewrite wbytes_uint by discriminate. rewrite uwrap_small by apply vec_len_lt.
  rewrite <- app_assoc. eexists; reflexivity.
Qed.

Lemma sci_count : forall t, N.of_nat (length (vlist (v1t_siacoin_inputs t))) <= isize_max / 72.
Proof.
  intros t. pose proof (vec_bounds _ _ (v1t_siacoin_inputs t)) as [H _].
  apply N.div_le_lower_bound; [discriminate|]. lia.
Qed.

(** A transaction id hashes something else than a child id: read as a number of siacoin
    inputs, the specifier is far too large. *)
Lemma txid_not_child : forall t (s : specifier) r,
  isize_max / 72 < from_le (firstn 8 (aval s)) ->
  wbytes (encode_no_sigs t) <> aval s ++ r.
Proof.
  intros t s r Hs E. destruct (no_sigs_start t) as [r' Hr]. rewrite Hr in E.
  assert (Hl : length (aval s) = 16%nat) by apply arr_len.
  rewrite <- (firstn_skipn 8 (aval s)), <- app_assoc in E.
  apply app_len_inj in E.
  2:{ rewrite le_bytes_length, firstn_length, Hl. reflexivity. }
  destruct E as [E _]. apply (f_equal from_le) in E. rewrite from_le_le_bytes in E.
  change (256 ^ N.of_nat 8) with (2 ^ 64) in E. rewrite N.mod_small in E by apply vec_len_lt.
  pose proof (sci_count t). lia.
Qed.

Lemma child_splits : forall s t u i j,
  aval (specifier_of_text s) ++ wbytes (encode_no_sigs t) ++ index_bytes i =
  aval (specifier_of_text s) ++ wbytes (encode_no_sigs u) ++ index_bytes j ->
  SameUnsigned t u /\ i = j.
Proof.
  intros s t u i j E. apply app_inv_head in E. apply no_sigs_splits in E; [|exact I].
  destruct E as [H E]. split; [exact H|]. now apply u64_inj.
Qed.

(** ** All derivations *)

Lemma index_length : forall i, length (index_bytes i) = 8%nat.
Proof. intros i. apply le_bytes_length. Qed.

Ltac by_length H :=
  exfalso; apply (f_equal (@length byte)) in H;
  cbn [hashed] in H;
  unfold v1_child_preimage, v2_siacoin_output_preimage, v2_siafund_output_preimage,
    v2_file_contract_preimage, v2_attestation_preimage, v2_child_preimage, claim_output_preimage,
    v2_claim_output_preimage, proof_output_preimage, v2_proof_output_preimage, v2_renewal_preimage,
    foundation_output_preimage, miner_output_preimage in H;
  rewrite ?app_length, ?arr_len, ?index_length in H;
  repeat match type of H with context [length (wbytes (encode_no_sigs ?t))] =>
    let L := fresh in
    pose proof (no_sigs_length t) as L; revert H L;
    generalize (length (wbytes (encode_no_sigs t))); intros ? H L end;
  repeat match type of H with context [length (ascii ?s)] =>
    let n := eval vm_compute in (length (ascii s)) in change (length (ascii s)) with n in H end;
  cbn [length Nat.add] in H; lia.

Lemma ascii_differs : forall s t n x y, (n <= length (ascii s))%nat -> (n <= length (ascii t))%nat ->
  firstn n (ascii s) <> firstn n (ascii t) -> ascii s ++ x <> ascii t ++ y.
Proof.
  intros s t n x y Hs Ht Hne E. apply (f_equal (firstn n)) in E.
  rewrite !firstn_app in E.
  replace (n - length (ascii s))%nat with 0%nat in E by lia.
  replace (n - length (ascii t))%nat with 0%nat in E by lia.
  cbn [firstn] in E. rewrite !app_nil_r in E. contradiction.
Qed.

(** Two different specifiers in front. *)
Lemma specifier_differs : forall s t x y,
  aval (specifier_of_text s) <> aval (specifier_of_text t) ->
  aval (specifier_of_text s) ++ x <> aval (specifier_of_text t) ++ y.
Proof. intros s t x y Hne E. apply app_len_inj in E; [now destruct E|]. now rewrite !arr_len. Qed.

Lemma spec_siacoin : isize_max / 72 < from_le (firstn 8 (aval (specifier_of_text "siacoin output"))).
Proof. vm_compute. reflexivity. Qed.
Lemma spec_siafund : isize_max / 72 < from_le (firstn 8 (aval (specifier_of_text "siafund output"))).
Proof. vm_compute. reflexivity. Qed.
Lemma spec_contract : isize_max / 72 < from_le (firstn 8 (aval (specifier_of_text "file contract"))).
Proof. vm_compute. reflexivity. Qed.

Lemma derivation_binding : forall d d', hashed d = hashed d' -> SameDerivation d d'.
Proof.
  intros d d' H.
  destruct d; destruct d'; try (by_length H); cbn [hashed] in H.
  all: unfold v1_child_preimage, v2_siacoin_output_preimage, v2_siafund_output_preimage,
    v2_file_contract_preimage, v2_attestation_preimage, v2_child_preimage, claim_output_preimage,
    v2_claim_output_preimage, proof_output_preimage, v2_proof_output_preimage, v2_renewal_preimage,
    foundation_output_preimage, miner_output_preimage in H.
  (* a transaction id and a child id *)
  all: try (exfalso; first
    [ exact (txid_not_child _ _ _ spec_siacoin H) | exact (txid_not_child _ _ _ spec_siafund H)
    | exact (txid_not_child _ _ _ spec_contract H)
    | exact (txid_not_child _ _ _ spec_siacoin (eq_sym H)) | exact (txid_not_child _ _ _ spec_siafund (eq_sym H))
    | exact (txid_not_child _ _ _ spec_contract (eq_sym H)) ]).
  (* different specifiers *)
  all: try (exfalso; refine (specifier_differs _ _ _ _ _ H); vm_compute; discriminate).
  (* different prefixes *)
  all: try (exfalso; refine (ascii_differs _ _ 10 _ _ _ _ _ H); vm_compute; first [discriminate | lia]).
  (* the same derivation *)
  all: try (apply child_splits in H as [H ->]; constructor; exact H).
  all: try (apply app_inv_head in H; apply hash_splits in H as [-> H]; apply u64_inj in H as ->; constructor).
  all: try (apply app_inv_head in H; apply arr_eq in H as ->; constructor).
  - apply (f_equal (fun l => l ++ [])) in H. apply no_sigs_splits in H as [H _]; [|exact I]. now constructor.
  - apply arr_eq in H as ->. constructor.
  - apply app_inv_head in H. apply hash_splits in H as [-> H]. cbn [app] in H. apply cons_tail in H. apply u64_inj in H as ->. constructor.
  - apply app_inv_head in H. apply hash_splits in H as [-> H]. discriminate.
  - apply app_inv_head in H. apply hash_splits in H as [-> H]. discriminate.
  - apply app_inv_head in H. apply hash_splits in H as [-> H]. cbn [app] in H. apply cons_tail in H. apply u64_inj in H as ->. constructor.
  - apply app_inv_head in H. apply hash_splits in H as [-> _]. constructor.
  - apply app_inv_head in H. apply hash_splits in H as [_ H]. apply u64_inj in H. discriminate.
  - apply app_inv_head in H. apply hash_splits in H as [_ H]. apply u64_inj in H. discriminate.
  - apply app_inv_head in H. apply hash_splits in H as [-> _]. constructor.
  - apply hash_splits in H as [-> _]. constructor.
  - apply hash_splits in H as [-> H]. apply u64_inj in H as ->. constructor.
Qed.

Lemma derive_hashed : forall d, derive d = hash (hashed d).
Proof. destruct d; reflexivity. Qed.

(** From the hash to the hashed bytes. *)
Lemma hash_or_collision : forall x y, hash x = hash y -> x = y \/ Collision [x] [y].
Proof.
  intros x y H. destruct (list_eq_dec Byte.byte_eq_dec x y) as [E|E]; [now left|]. right.
  exists x, y. repeat split; [now left|now left|exact E|].
  apply (f_equal aval) in H. unfold hash in H. rewrite !arr_of_aval in H by apply blake2b_256_length. exact H.
Qed.

Lemma derive_binding : forall d d', derive d = derive d' -> SameDerivation d d' \/ Collision [hashed d] [hashed d'].
Proof.
  intros d d' H. rewrite !derive_hashed in H. apply hash_or_collision in H as [H|H]; [|now right].
  left. now apply derivation_binding.
Qed.

Lemma same_derivation : forall d d', SameDerivation d d' -> derive d = derive d'.
Proof.
  intros d d' H. rewrite !derive_hashed. f_equal.
  destruct H as [d|t u H|t u i H|t u i H|t u i H]; [reflexivity| | | |]; cbn [hashed];
    unfold v1_child_preimage; now rewrite (no_sigs_same t u H).
Qed.
