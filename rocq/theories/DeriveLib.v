(** The encoders and decoders of the model are what the derive macros generate. *)

From Verif Require Import Base Io Spec IoProofs Codec Model_encoding Model_common Model_v1 Model_policy
  Model_v2 Model_derive Model_derivetypes SpecDerive DeriveProofs.
Local Open Scope dec_scope.

Lemma distinct_nodup : forall l, distinct l = true -> NoDup l.
Proof.
  induction l as [|n l IH]; intros H; [constructor|]. cbn in H. apply andb_true_iff in H. destruct H as [H1 H2].
  constructor; [|apply IH; exact H2]. intros I. apply negb_true_iff in H1.
  assert (X : existsb (String.eqb n) l = true); [|congruence].
  apply existsb_exists. exists n. split; [exact I|apply String.eqb_refl].
Qed.

Lemma v1_distinct : forall A f mk e d, DerivedV1 A f mk e d -> DistinctNames f.
Proof. intros A f mk e d H. destruct H; try exact I; apply distinct_nodup; reflexivity. Qed.
Lemma v2_distinct : forall stack A f mk e d, DerivedV2 stack A f mk e d -> DistinctNames f.
Proof. intros stack A f mk e d H. destruct H; try exact I; apply distinct_nodup; reflexivity. Qed.

Lemma v2_public : forall stack A f mk e d, DerivedV2 stack A f mk e d -> AllPublic f.
Proof. intros stack A f mk e d H. destruct H; try exact I; repeat constructor. Qed.

Ltac open_tuple v :=
  repeat match type of v with (_ * _)%type => destruct v as [? v] end; destruct v.

Lemma v1_layout_lib : forall A f mk e d, DerivedV1 A f mk e d -> forall v,
  write_fields values v1_encoder [] (field_types f) v = Some (e (mk v)).
Proof.
  intros A f mk e d H. destruct H; intros v; cbn in v; open_tuple v;
    cbn -[encode_vec encode_arr encode_u64 encode_bool encode_u8 encode_usize encode_string];
    rewrite ?app_nil_r; reflexivity.
Qed.

Lemma v2_layout_lib : forall stack A f mk e d, DerivedV2 stack A f mk e d -> forall v,
  write_fields values v2_encoder [] (field_types f) v = Some (e (mk v)).
Proof.
  intros stack A f mk e d H. destruct H; intros v; cbn in v; open_tuple v;
    cbn -[encode_vec encode_arr encode_u64 encode_bool encode_u8 encode_usize encode_string];
    rewrite ?app_nil_r; reflexivity.
Qed.

Lemma cons_fields : forall A B C (d : dec A) (k : A -> dec B) (R : dec C) (mk : A * C -> B),
  (forall x bs, run (k x) bs = run (y <- R ;; DRet (mk (x, y))) bs) ->
  forall bs, run (dbind d k) bs = run (v <- (x <- d ;; y <- R ;; DRet (x, y)) ;; DRet (mk v)) bs.
Proof.
  intros A B C d k R mk H bs. rewrite !run_bind. destruct (run d bs); try reflexivity.
  rewrite H, !run_bind. destruct (run R rest); reflexivity.
Qed.

Lemma nil_fields : forall B (mk : unit -> B) bs, run (DRet (mk tt)) bs = run (v <- DRet tt ;; DRet (mk v)) bs.
Proof. reflexivity. Qed.

Lemma one_field : forall A (d : dec A) bs,
  run d bs = run (v <- (x <- d ;; y <- DRet tt ;; DRet (x, y)) ;; DRet (fst v)) bs.
Proof. intros A d bs. rewrite !run_bind. destruct (run d bs); reflexivity. Qed.

Ltac same_fields := first [exact (one_field _ _) |
  repeat (refine (cons_fields _ _ _ _ _ _ _ _); intros ?); exact (nil_fields _ _)].

Lemma v1_read_lib : forall A f mk e d, DerivedV1 A f mk e d -> exists R,
  read_fields values v1_decoder (field_types f) = Some R /\
  forall bs, run d bs = run (v <- R ;; DRet (mk v)) bs.
Proof. intros A f mk e d H. destruct H; (eexists; split; [reflexivity|]); same_fields. Qed.

Lemma v2_read_lib : forall stack A f mk e d, DerivedV2 stack A f mk e d -> exists R,
  read_fields values (v2_decoder stack) (field_types f) = Some R /\
  forall bs, run d bs = run (v <- R ;; DRet (mk v)) bs.
Proof. intros stack A f mk e d H. destruct H; (eexists; split; [reflexivity|]); same_fields. Qed.


Lemma v1_bijective : forall A f mk e d, DerivedV1 A f mk e d ->
  exists fields_of, (forall a, mk (fields_of a) = a) /\ (forall v, fields_of (mk v) = v).
Proof.
  intros A f mk e d H. destruct H.
  - exists (fun a => (a, tt)). split; [intros []; reflexivity|intros v; cbn in v; open_tuple v; reflexivity].
  - exists (fun a => (sco_value a, (sco_address a, tt))). split; [intros []; reflexivity|intros v; cbn in v; open_tuple v; reflexivity].
  - exists (fun a => (a, tt)). split; [intros []; reflexivity|intros v; cbn in v; open_tuple v; reflexivity].
  - exists (fun a => (uk_algorithm a, (uk_key a, tt))). split; [intros []; reflexivity|intros v; cbn in v; open_tuple v; reflexivity].
  - exists (fun a => (uc_timelock a, (uc_public_keys a, (uc_signatures_required a, tt)))). split; [intros []; reflexivity|intros v; cbn in v; open_tuple v; reflexivity].
  - exists (fun a => (v1sci_parent_id a, (v1sci_unlock_conditions a, tt))). split; [intros []; reflexivity|intros v; cbn in v; open_tuple v; reflexivity].
  - exists (fun a => (v1sfi_parent_id a, (v1sfi_unlock_conditions a, (v1sfi_claim_address a, tt)))). split; [intros []; reflexivity|intros v; cbn in v; open_tuple v; reflexivity].
  - exists (fun a => (v1fc_file_size a, (v1fc_file_merkle_root a, (v1fc_window_start a, (v1fc_window_end a, (v1fc_payout a, (v1fc_valid_proof_outputs a, (v1fc_missed_proof_outputs a, (v1fc_unlock_hash a, (v1fc_revision_number a, tt)))))))))). split; [intros []; reflexivity|intros v; cbn in v; open_tuple v; reflexivity].
  - exists (fun a => (v1fcr_parent_id a, (v1fcr_unlock_conditions a, (v1fcr_revision_number a, (v1fcr_file_size a, (v1fcr_file_merkle_root a, (v1fcr_window_start a, (v1fcr_window_end a, (v1fcr_valid_proof_outputs a, (v1fcr_missed_proof_outputs a, (v1fcr_unlock_hash a, tt))))))))))). split; [intros []; reflexivity|intros v; cbn in v; open_tuple v; reflexivity].
  - exists (fun a => (v1sp_parent_id a, (v1sp_leaf a, (v1sp_proof a, tt)))). split; [intros []; reflexivity|intros v; cbn in v; open_tuple v; reflexivity].
  - exists (fun a => (cf_whole_transaction a, (cf_siacoin_inputs a, (cf_siacoin_outputs a, (cf_file_contracts a, (cf_file_contract_revisions a, (cf_storage_proofs a, (cf_siafund_inputs a, (cf_siafund_outputs a, (cf_miner_fees a, (cf_arbitrary_data a, (cf_signatures a, tt)))))))))))). split; [intros []; reflexivity|intros v; cbn in v; open_tuple v; reflexivity].
  - exists (fun a => (ts_parent_id a, (ts_public_key_index a, (ts_timelock a, (ts_covered_fields a, (ts_signature a, tt)))))). split; [intros []; reflexivity|intros v; cbn in v; open_tuple v; reflexivity].
  - exists (fun a => (v1t_siacoin_inputs a, (v1t_siacoin_outputs a, (v1t_file_contracts a, (v1t_file_contract_revisions a, (v1t_storage_proofs a, (v1t_siafund_inputs a, (v1t_siafund_outputs a, (v1t_miner_fees a, (v1t_arbitrary_data a, (v1t_signatures a, tt))))))))))). split; [intros []; reflexivity|intros v; cbn in v; open_tuple v; reflexivity].
  - exists (fun a => (a, tt)). split; [intros []; reflexivity|intros v; cbn in v; open_tuple v; reflexivity].
  - exists (fun a => (a, tt)). split; [intros []; reflexivity|intros v; cbn in v; open_tuple v; reflexivity].
Qed.

Lemma v2_bijective : forall stack A f mk e d, DerivedV2 stack A f mk e d ->
  exists fields_of, (forall a, mk (fields_of a) = a) /\ (forall v, fields_of (mk v) = v).
Proof.
  intros stack A f mk e d H. destruct H.
  - exists (fun a => (ci_height a, (ci_id a, tt))). split; [intros []; reflexivity|intros v; cbn in v; open_tuple v; reflexivity].
  - exists (fun a => (a, tt)). split; [intros []; reflexivity|intros v; cbn in v; open_tuple v; reflexivity].
  - exists (fun a => (sco_value a, (sco_address a, tt))). split; [intros []; reflexivity|intros v; cbn in v; open_tuple v; reflexivity].
  - exists (fun a => (sfo_value a, (sfo_address a, tt))). split; [intros []; reflexivity|intros v; cbn in v; open_tuple v; reflexivity].
  - exists (fun a => (a, tt)). split; [intros []; reflexivity|intros v; cbn in v; open_tuple v; reflexivity].
  - exists (fun a => (se_leaf_index a, (se_merkle_proof a, tt))). split; [intros []; reflexivity|intros v; cbn in v; open_tuple v; reflexivity].
  - exists (fun a => (uk_algorithm a, (uk_key a, tt))). split; [intros []; reflexivity|intros v; cbn in v; open_tuple v; reflexivity].
  - exists (fun a => (uc_timelock a, (uc_public_keys a, (uc_signatures_required a, tt)))). split; [intros []; reflexivity|intros v; cbn in v; open_tuple v; reflexivity].
  - exists (fun a => (att_public_key a, (att_key a, (att_value a, (att_signature a, tt))))). split; [intros []; reflexivity|intros v; cbn in v; open_tuple v; reflexivity].
  - exists (fun a => (v2fc_capacity a, (v2fc_filesize a, (v2fc_file_merkle_root a, (v2fc_proof_height a, (v2fc_expiration_height a, (v2fc_renter_output a, (v2fc_host_output a, (v2fc_missed_host_value a, (v2fc_total_collateral a, (v2fc_renter_public_key a, (v2fc_host_public_key a, (v2fc_revision_number a, (v2fc_renter_signature a, (v2fc_host_signature a, tt))))))))))))))). split; [intros []; reflexivity|intros v; cbn in v; open_tuple v; reflexivity].
  - exists (fun a => (sce_state_element a, (sce_id a, (sce_siacoin_output a, (sce_maturity_height a, tt))))). split; [intros []; reflexivity|intros v; cbn in v; open_tuple v; reflexivity].
  - exists (fun a => (sfe_state_element a, (sfe_id a, (sfe_siafund_output a, (sfe_claim_start a, tt))))). split; [intros []; reflexivity|intros v; cbn in v; open_tuple v; reflexivity].
  - exists (fun a => (fce_state_element a, (fce_id a, (fce_v2_file_contract a, tt)))). split; [intros []; reflexivity|intros v; cbn in v; open_tuple v; reflexivity].
  - exists (fun a => (cie_state_element a, (cie_id a, (cie_chain_index a, tt)))). split; [intros []; reflexivity|intros v; cbn in v; open_tuple v; reflexivity].
  - exists (fun a => (v2sci_parent a, (v2sci_satisfied_policy a, tt))). split; [intros []; reflexivity|intros v; cbn in v; open_tuple v; reflexivity].
  - exists (fun a => (v2sfi_parent a, (v2sfi_claim_address a, (v2sfi_satisfied_policy a, tt)))). split; [intros []; reflexivity|intros v; cbn in v; open_tuple v; reflexivity].
  - exists (fun a => (v2fcr_parent a, (v2fcr_revision a, tt))). split; [intros []; reflexivity|intros v; cbn in v; open_tuple v; reflexivity].
  - exists (fun a => (ren_final_revision a, (ren_new_contract a, (ren_renter_rollover a, (ren_host_rollover a, (ren_renter_signature a, (ren_host_signature a, tt))))))). split; [intros []; reflexivity|intros v; cbn in v; open_tuple v; reflexivity].
  - exists (fun a => (v2sp_proof_index a, (v2sp_leaf a, (v2sp_proof a, tt)))). split; [intros []; reflexivity|intros v; cbn in v; open_tuple v; reflexivity].
  - exists (fun a => (sp_policy a, (sp_signatures a, (sp_preimages a, tt)))). split; [intros []; reflexivity|intros v; cbn in v; open_tuple v; reflexivity].
  - exists (fun a => (a, tt)). split; [intros []; reflexivity|intros v; cbn in v; open_tuple v; reflexivity].
  - exists (fun a => (a, tt)). split; [intros []; reflexivity|intros v; cbn in v; open_tuple v; reflexivity].
  - exists (fun a => (a, tt)). split; [intros []; reflexivity|intros v; cbn in v; open_tuple v; reflexivity].
  - exists (fun a => (a, tt)). split; [intros []; reflexivity|intros v; cbn in v; open_tuple v; reflexivity].
Qed.

Theorem v1_library : forall A f mk e d, DerivedV1 A f mk e d ->
  exists b c D, derive_v1_sia_encode (DataStruct f) = Some b /\
    derive_v1_sia_decode (DataStruct f) = Some c /\
    compile_decode rust_type_eq_dec values v1_decoder f c = Some D /\
    (forall v, run_encode values v1_encoder f b v = Some (e (mk v))) /\
    (forall bs, run d bs = run (v <- D ;; DRet (mk v)) bs).
Proof.
  intros A f mk e d H. pose proof (v1_distinct _ _ _ _ _ H) as N.
  destruct (v1_read_lib _ _ _ _ _ H) as (R & ER & XR).
  assert (HE : exists b, derive_v1_sia_encode (DataStruct f) = Some b) by (destruct f; cbn; eauto).
  destruct HE as [b Hb].
  destruct (proj2 (v1_compiles rust_type_eq_dec values v1_decoder f N)) as (c & D & Hc & HD).
  { apply (read_fields_some values v1_decoder). eauto. }
  exists b, c, D. split; [exact Hb|]. split; [exact Hc|]. split; [exact HD|]. split.
  - intros v. rewrite (v1_layout values v1_encoder f b v N Hb). apply (v1_layout_lib _ _ _ _ _ H).
  - intros bs. rewrite XR. destruct (v1_decode_order rust_type_eq_dec values v1_decoder f c D N Hc HD) as (R' & ER' & XD).
    assert (R' = R) by congruence. subst R'. rewrite !run_bind, XD. reflexivity.
Qed.

Theorem v2_library : forall stack A f mk e d, DerivedV2 stack A f mk e d ->
  exists b c D, derive_sia_encode (DataStruct f) = Some b /\
    derive_sia_decode (DataStruct f) = Some c /\
    compile_decode rust_type_eq_dec values (v2_decoder stack) f c = Some D /\
    (forall v, run_encode values v2_encoder f b v = Some (e (mk v))) /\
    (forall bs, run d bs = run (v <- D ;; DRet (mk v)) bs).
Proof.
  intros stack A f mk e d H. pose proof (v2_distinct _ _ _ _ _ _ H) as N.
  pose proof (v2_public _ _ _ _ _ _ H) as PU.
  destruct (v2_read_lib _ _ _ _ _ _ H) as (R & ER & XR).
  assert (HE : exists b, derive_sia_encode (DataStruct f) = Some b) by (destruct f; cbn; eauto).
  destruct HE as [b Hb].
  destruct (proj2 (v2_compiles rust_type_eq_dec values (v2_decoder stack) f N)) as (c & D & Hc & HD).
  { split; [exact PU|]. apply (read_fields_some values (v2_decoder stack)). eauto. }
  exists b, c, D. split; [exact Hb|]. split; [exact Hc|]. split; [exact HD|]. split.
  - intros v. rewrite (v2_layout values v2_encoder f b v N Hb), (write_visible values v2_encoder f v PU).
    apply (v2_layout_lib _ _ _ _ _ _ H).
  - intros bs. rewrite XR.
    destruct (v2_decode_order rust_type_eq_dec values (v2_decoder stack) f c D N Hc HD) as (_ & R' & ER' & XD).
    assert (R' = R) by congruence. subst R'. rewrite !run_bind, XD. reflexivity.
Qed.

(** ** A private field *)

Definition with_private : fields rust_type :=
  FNamed [("shown"%string, VisPublic, R_u64); ("hidden"%string, VisInherited, R_u64)].

Lemma private_lost : exists b (v v' : tuple values (field_types with_private)) p,
  derive_sia_encode (DataStruct with_private) = Some b /\
  run_encode values v2_encoder with_private b v = Some p /\
  run_encode values v2_encoder with_private b v' = Some p /\ v <> v'.
Proof.
  exists [ByName "shown"], (uwrap 64 7, (uwrap 64 1, tt)), (uwrap 64 7, (uwrap 64 2, tt)).
  eexists. split; [reflexivity|]. split; [reflexivity|]. split; [reflexivity|].
  intros E. apply (f_equal (fun v : tuple values (field_types with_private) => uval (fst (snd v)))) in E.
  vm_compute in E. discriminate.
Qed.

Lemma v1_determines : forall {T} (T_eq_dec : forall a b : T, {a = b} + {a <> b}) (den : T -> Type) enc decoder P f b v v' p p',
  DistinctNames f -> Lawful den enc decoder P (field_types f) ->
  derive_v1_sia_encode (DataStruct f) = Some b ->
  AllFields den P (field_types f) v -> AllFields den P (field_types f) v' ->
  run_encode den enc f b v = Some p -> run_encode den enc f b v' = Some p' -> wbytes p = wbytes p' -> v = v'.
Proof.
  intros T T_eq_dec den enc decoder P f b v v' p p' N L Hb Hv Hv' E E' X.
  destruct (proj2 (v1_compiles T_eq_dec den decoder f N)) as (c & D & Hc & HD).
  { intros t I. destruct (L t I) as (e & d & _ & Ed & _). congruence. }
  destruct (v1_roundtrip T_eq_dec den enc decoder P f b c D N L Hb Hc HD v) as (q & Q1 & _ & Q2).
  destruct (v1_roundtrip T_eq_dec den enc decoder P f b c D N L Hb Hc HD v') as (q' & Q1' & _ & Q2').
  specialize (Q2 Hv []). specialize (Q2' Hv' []). congruence.
Qed.

Lemma v2_determines : forall {T} (T_eq_dec : forall a b : T, {a = b} + {a <> b}) (den : T -> Type) enc decoder P f b v v' p p',
  DistinctNames f -> AllPublic f -> Lawful den enc decoder P (field_types f) ->
  derive_sia_encode (DataStruct f) = Some b ->
  AllFields den P (field_types f) v -> AllFields den P (field_types f) v' ->
  run_encode den enc f b v = Some p -> run_encode den enc f b v' = Some p' -> wbytes p = wbytes p' -> v = v'.
Proof.
  intros T T_eq_dec den enc decoder P f b v v' p p' N PU L Hb Hv Hv' E E' X.
  destruct (proj2 (v2_compiles T_eq_dec den decoder f N)) as (c & D & Hc & HD).
  { split; [exact PU|]. intros t I. destruct (L t I) as (e & d & _ & Ed & _). congruence. }
  destruct (v2_roundtrip T_eq_dec den enc decoder P f b c D N L Hb Hc HD v) as (q & Q1 & _ & Q2).
  destruct (v2_roundtrip T_eq_dec den enc decoder P f b c D N L Hb Hc HD v') as (q' & Q1' & _ & Q2').
  specialize (Q2 Hv []). specialize (Q2' Hv' []). congruence.
Qed.
