(** Counterexamples and corollaries for the accumulator, addresses and spend policies. *)

From Verif Require Import Base Io IoProofs Spec SpecWire Codec Model_encoding EncodingProofs Blake2b Model_common
  Model_v1 Model_policy CodecTac CommonProofs V1Proofs PolicyProofs Model_consensus Model_merkle
  Model_ids SpecMerkle SpecSector SpecTrace SpecPolicy MerkleProofs SectorProofs AddressProofs.
Local Open Scope N_scope.

(** ** The accumulator *)

Lemma root_total : forall p l, N.of_nat (length l) < 2 ^ 64 -> exists r, root_of p l = Val r.
Proof.
  intros p l H. destruct l as [|a l]; [eexists; apply root_of_nil|].
  destruct (root_of_spec p (a :: l)) as (r & E & _); [discriminate|assumption|]. eauto.
Qed.

Lemma root_profile : forall p p' l, N.of_nat (length l) < 2 ^ 64 -> root_of p l = root_of p' l.
Proof.
  intros p p' l H. destruct l as [|a l]; [now rewrite !root_of_nil|].
  destruct (root_of_spec p (a :: l)) as (r & -> & R); [discriminate|assumption|].
  destruct (root_of_spec p' (a :: l)) as (r' & -> & R'); [discriminate|assumption|].
  f_equal. eapply CodeRoot_fun; eassumption.
Qed.

Lemma root_of_small_binding : forall p p' l l' r i i', (length l <= 3)%nat -> length l = length l' ->
  root_of p l = Val r -> root_of p' l' = Val r -> MerkleRoot l r i -> MerkleRoot l' r i' -> l = l' \/ Collision i i'.
Proof. intros p p' l l' r i i' _ L _ _ M M'. exact (MerkleRoot_binding l r i M l' i' M' L). Qed.

Definition four_leaves : list hash256 := map (fun b => arr_of 32 (repeat b 32)) [x01; x02; x03; x04].

Lemma four_leaves_wrong : ~ (forall p l r, l <> [] -> N.of_nat (length l) < 2 ^ 64 -> root_of p l = Val r ->
  exists i, MerkleRoot l r i).
Proof.
  intros H. destruct (root_of_spec Debug four_leaves) as (r & E & R); [discriminate|reflexivity|].
  destruct (H Debug four_leaves r ltac:(discriminate) eq_refl E) as (i & M).
  unfold four_leaves in *. cbn [map] in *.
  remember (arr_of 32 (repeat x01 32)) as a eqn:Ea. remember (arr_of 32 (repeat x02 32)) as b eqn:Eb.
  remember (arr_of 32 (repeat x03 32)) as c eqn:Ec. remember (arr_of 32 (repeat x04 32)) as d eqn:Ed.
  assert (M' : exists i', MerkleRoot [a; b; c; d] (node_hash (node_hash a b) (node_hash c d)) i').
  { eexists. apply (MR_node 1 [a; b] [c; d]); [reflexivity|cbn; lia| |];
      apply (MR_node 0 [_] [_]); try reflexivity; try (cbn; lia); constructor. }
  destruct M' as (i' & M'). destruct (MerkleRoot_fun _ _ _ M _ _ M') as [E1 _].
  assert (R' : CodeRoot (fun _ => True) [a; b; c; d] (node_hash (node_hash a b) d)).
  { apply (CR_tree _ 2). apply (CT_node _ 1 [a; b] [c] d); [|reflexivity|exact I].
    apply (CT_node _ 0 [a] [] b); [constructor|reflexivity|exact I]. }
  pose proof (CodeRoot_fun _ _ _ R _ _ R') as E2. rewrite E1 in E2.
  apply (f_equal aval) in E2. subst a b c d. vm_compute in E2. discriminate E2.
Qed.

(** ** Unlock conditions *)

Definition sample_key (b : u8) : unlock_key := unlock_key_of_public_key (arr_of 32 (repeat b 32)).
Definition one_key_uc : unlock_conditions :=
  MkUc (uwrap 64 0) (@MkVec 40 _ [sample_key x01] eq_refl) (uwrap 64 1).
Definition two_key_uc : unlock_conditions :=
  MkUc (uwrap 64 0) (@MkVec 40 _ [sample_key x01; sample_key x02] eq_refl) (uwrap 64 1).

Lemma key_counts_same_address : forall p, unlock_conditions_address p two_key_uc = unlock_conditions_address p one_key_uc.
Proof. intros p. eapply two_keys_one_key; reflexivity. Qed.

Lemma one_two_free : collision_free (uc_inputs Debug two_key_uc) (uc_inputs Debug one_key_uc) = true.
Proof. vm_compute. reflexivity. Qed.

Lemma uc_binding_fails : ~ (forall p u v a, unlock_conditions_address p u = Val a -> unlock_conditions_address p v = Val a ->
  u = v \/ Collision (uc_inputs p u) (uc_inputs p v)).
Proof.
  intros H. destruct (unlock_conditions_root Debug two_key_uc) as (a & E & _).
  pose proof E as E'. rewrite key_counts_same_address in E'.
  destruct (H Debug two_key_uc one_key_uc a E E') as [D|C].
  - apply (f_equal (fun u => length (vlist (uc_public_keys u)))) in D. discriminate D.
  - exact (collision_free_spec _ _ one_two_free C).
Qed.

Lemma uc_binding_small : forall p u v a, (length (vlist (uc_public_keys u)) <= 1)%nat ->
  (length (vlist (uc_public_keys v)) <= 1)%nat ->
  unlock_conditions_address p u = Val a -> unlock_conditions_address p v = Val a ->
  u = v \/ Collision (uc_inputs p u) (uc_inputs p v).
Proof.
  intros p u v a Lu Lv Hu Hv. destruct (unlock_conditions_binding_eq p p u v a a Hu Hv eq_refl) as [C|C]; [|now right].
  left. now apply same_committed_eq.
Qed.

Lemma uc_total : forall p u, exists a, unlock_conditions_address p u = Val a.
Proof. intros p u. destruct (unlock_conditions_root p u) as (a & E & _). eauto. Qed.

(** ** Sectors *)

Lemma in_order_valid : valid_schedule sector_leaves (in_order sector_leaves).
Proof.
  split; [apply Permutation.Permutation_refl|]. intros k. unfold in_order.
  destruct (Nat.eqb_spec (4 * 2 ^ k) 0) as [E|_]; [pose proof (Nat.pow_nonzero 2 k); lia|].
  apply Permutation.Permutation_refl.
Qed.

Lemma last_one_differs : last_root 16 zero_leaf one_leaf <> Nat.iter 16 double zero_leaf.
Proof. intros E. apply (f_equal aval) in E. vm_compute in E. discriminate E. Qed.

Lemma sector_root_wrong : ~ (forall s sector r, valid_schedule sector_leaves s -> sector_root s sector = Val r ->
  exists i, MerkleRoot (segment_leaves sector_leaves sector) r i).
Proof.
  intros H. pose proof (last_one_root _ in_order_valid) as E. rewrite (zero_sector_root _ in_order_valid) in E.
  destruct (H _ _ _ in_order_valid E) as (i & M). apply last_one_true_root in M.
  symmetry in M. now apply last_one_differs in M.
Qed.

Lemma sectors_differ : last_one_sector <> zero_sector.
Proof.
  intros E. apply (f_equal (fun l => last l x00)) in E. unfold last_one_sector, zero_sector in E.
  rewrite last_app in E by discriminate. cbn [last] in E.
  rewrite sector_leaves_val in E.
  assert (L : forall n, last (repeat x00 n) x00 = x00).
  { induction n as [|n IH]; [reflexivity|]. cbn [repeat last]. now destruct (repeat x00 n). }
  rewrite L in E. discriminate E.
Qed.

(** ** Policies *)

Lemma policy_binding_plain : forall p q r a, plain q -> plain r -> policy_address p q = Val a -> policy_address p r = Val a ->
  UpToOpaque p q r \/ Collision (policy_inputs p q) (policy_inputs p r).
Proof.
  intros p q r a Pq Pr Hq Hr. destruct (policy_binding_eq p q r a a Hq Hr eq_refl) as [C|C]; [|now right].
  left. now apply Alike_plain.
Qed.

Lemma policy_binding_revealed : forall p q r a, plain q -> plain r -> revealed q -> revealed r ->
  policy_address p q = Val a -> policy_address p r = Val a ->
  q = r \/ Collision (policy_inputs p q) (policy_inputs p r).
Proof.
  intros p q r a Pq Pr Rq Rr Hq Hr. destruct (policy_binding_plain p q r a Pq Pr Hq Hr) as [C|C]; [|now right].
  left. eapply UpToOpaque_revealed; eassumption.
Qed.

Lemma policy_binding : forall p q r a, policy_address p q = Val a -> policy_address p r = Val a ->
  Alike p q r \/ Collision (policy_inputs p q) (policy_inputs p r).
Proof. intros p q r a Hq Hr. exact (policy_binding_eq p q r a a Hq Hr eq_refl). Qed.

Lemma policy_binding_fails : ~ (forall p q r a, policy_address p q = Val a -> policy_address p r = Val a ->
  UpToOpaque p q r \/ Collision (policy_inputs p q) (policy_inputs p r)).
Proof.
  intros H. destruct (unlock_conditions_root Debug two_key_uc) as (a & E & _).
  pose proof E as E'. rewrite key_counts_same_address in E'.
  destruct (H Debug (PUnlockConditions two_key_uc) (PUnlockConditions one_key_uc) a E E') as [D|C].
  - inversion D as [q Eq Er| | |].
  - exact (collision_free_spec _ _ one_two_free C).
Qed.

Definition half_second : odt := MkOdt 0 500000000 eq_refl.
Definition zero_second : odt := MkOdt 0 0 eq_refl.

Lemma policy_time_fails : ~ (forall p t u a, policy_address p (PAfter t) = Val a -> policy_address p (PAfter u) = Val a ->
  UpToOpaque p (PAfter t) (PAfter u) \/ Collision (policy_inputs p (PAfter t)) (policy_inputs p (PAfter u))).
Proof.
  intros H. destruct (H Debug half_second zero_second _ eq_refl eq_refl) as [D|C].
  - inversion D.
  - revert C. apply collision_free_spec. vm_compute. reflexivity.
Qed.

(** *** The wire format *)

Definition wide_policy : policy := PThreshold x01 (repeat (PAbove (uwrap 64 7)) 256).

Lemma wide_policy_built : policy_threshold x01 (repeat (PAbove (uwrap 64 7)) 256) = Val wide_policy.
Proof. vm_compute. reflexivity. Qed.

Lemma wide_policy_read : run (decode_policy 3) (wbytes (encode_policy wide_policy)) =
  ROk (PThreshold x01 []) (concat (repeat (wbytes (encode_policy_body (PAbove (uwrap 64 7)))) 256)).
Proof. vm_compute. reflexivity. Qed.

Lemma policy_roundtrip_fails : ~ (forall n of q stack rest, policy_threshold n of = Val q -> (depth q <= stack)%nat ->
  run (decode_policy stack) (wbytes (encode_policy q) ++ rest) = ROk q rest).
Proof.
  intros H. specialize (H x01 _ wide_policy 3%nat [] wide_policy_built). rewrite app_nil_r, wide_policy_read in H.
  assert (L : (depth wide_policy <= 3)%nat) by (apply Nat.leb_le; vm_compute; reflexivity).
  specialize (H L). discriminate H.
Qed.

Lemma policy_time_roundtrip_fails : ~ (forall t stack rest, (1 <= stack)%nat ->
  run (decode_policy stack) (wbytes (encode_policy (PAfter t)) ++ rest) = ROk (PAfter t) rest).
Proof.
  intros H. specialize (H half_second 1%nat [] (le_n 1)). vm_compute in H. discriminate H.
Qed.

Lemma policy_bad_version : forall stack v rest, v <> x01 -> exists e, run (decode_policy stack) (v :: rest) = RErr e.
Proof.
  intros stack v rest H. unfold decode_policy. rewrite run_u8.
  destruct v; try (eexists; reflexivity). contradiction.
Qed.

Lemma policy_bad_type : forall stack t rest, Byte.to_N t = 0 \/ 7 < Byte.to_N t ->
  exists e, run (decode_policy (S stack)) (x01 :: t :: rest) = RErr e.
Proof.
  intros stack t rest H. unfold decode_policy. rewrite run_u8. cbv iota. cbn [decode_policy_body]. rewrite run_u8.
  destruct t; try (eexists; reflexivity); exfalso; vm_compute in H; destruct H; discriminate.
Qed.

Lemma policy_nesting : ~ (exists stack, forall bs, run (decode_policy stack) bs <> RPanic StackOverflow).
Proof.
  intros (stack & H). apply (H (x01 :: nested_bytes stack)). unfold decode_policy. rewrite run_u8. cbv iota.
  rewrite <- (app_nil_r (nested_bytes stack)). apply nested_overflow.
Qed.

Lemma policy_stack_enough : forall stack bs, (length bs <= 3 * stack)%nat ->
  run (decode_policy stack) bs <> RPanic StackOverflow.
Proof.
  intros stack bs L. destruct bs as [|v bs]; [discriminate|]. unfold decode_policy. rewrite run_u8. cbn [length] in L.
  assert (L' : (length bs < 3 * stack)%nat) by lia. pose proof (stack_enough stack bs L') as S.
  destruct v; try discriminate. exact S.
Qed.

Lemma policy_stack_exact : forall stack, exists bs, length bs = (3 * stack + 1)%nat /\
  run (decode_policy stack) bs = RPanic StackOverflow.
Proof.
  intros stack. exists (x01 :: nested_bytes stack). split; [cbn [length]; rewrite nested_length; lia|].
  unfold decode_policy. rewrite run_u8. cbv iota. rewrite <- (app_nil_r (nested_bytes stack)). apply nested_overflow.
Qed.

(** ** Statements in the form used by P_address.v *)

Lemma merkle_root_spec : forall l, l <> [] ->
  (exists r i, MerkleRoot l r i) /\
  (forall r i r' i', MerkleRoot l r i -> MerkleRoot l r' i' -> r = r' /\ i = i') /\
  (forall l' r i i', length l = length l' -> MerkleRoot l r i -> MerkleRoot l' r i' -> l = l' \/ Collision i i').
Proof.
  intros l H. split; [exact (MerkleRoot_exists (length l) l (le_n _) H)|]. split.
  - intros r i r' i' M M'. exact (MerkleRoot_fun l r i M r' i' M').
  - intros l' r i i' L M M'. exact (MerkleRoot_binding l r i M l' i' M' L).
Qed.

Lemma four_leaves_committed : four_leaves <> [] /\ (length (firstn 3 four_leaves) = 3)%nat /\
  exists c, Committed four_leaves c /\ length c = 3%nat.
Proof.
  split; [discriminate|]. split; [reflexivity|]. exists (power_positions 2 four_leaves).
  split; [now constructor|reflexivity].
Qed.

Lemma uc_committed : forall p u v a,
  unlock_conditions_address p u = Val a -> unlock_conditions_address p v = Val a ->
  same_committed u v \/ Collision (uc_inputs p u) (uc_inputs p v).
Proof. intros p u v a Hu Hv. exact (unlock_conditions_binding_eq p p u v a a Hu Hv eq_refl). Qed.

Lemma sector_root_merkle : forall sched sector, valid_schedule sector_leaves sched ->
  N.of_nat (length sector) = sector_size ->
  exists r inputs, sector_root sched sector = Val r /\ MerkleRoot (code_leaves sector_leaves sector) r inputs.
Proof. intros sched sector H L. destruct (sector_root_spec sched sector H L) as (i & E & M). eauto. Qed.

Definition redaction_sample : policy :=
  PThreshold x02 [PAbove (uwrap 64 100); PAfter zero_second;
    PThreshold x01 [PPublicKey (arr_of 32 (repeat x07 32)); PHash (arr_of 32 (repeat x08 32))];
    PUnlockConditions one_key_uc].

Lemma redaction_sample_ok : exists r, Redacted Debug redaction_sample r /\ r <> redaction_sample.
Proof.
  destruct (policy_address_total Debug (PHash (arr_of 32 (repeat x08 32)))) as (a & E).
  exists (PThreshold x02 [PAbove (uwrap 64 100); PAfter zero_second;
    PThreshold x01 [PPublicKey (arr_of 32 (repeat x07 32)); POpaque a]; PUnlockConditions one_key_uc]).
  split; [|discriminate]. unfold redaction_sample. constructor.
  repeat (constructor; [try apply Red_same|]); try constructor.
  constructor; [apply Red_same|]. constructor; [|constructor]. now apply Red_opaque.
Qed.

Lemma redaction_sample_plain : plain redaction_sample /\ revealed redaction_sample /\ depth redaction_sample = 3%nat.
Proof. cbn. repeat split; auto. Qed.

Lemma redaction_sample_encodable : encodable redaction_sample /\ depth redaction_sample = 3%nat.
Proof. cbn. repeat split; auto; lia. Qed.
