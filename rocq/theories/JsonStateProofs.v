(** The JSON forms of accumulators, networks and states. *)

From Coq Require Import Permutation.
From Verif Require Import Base Io SpecUtf8 SpecText SpecWire SpecFormat Model_encoding Model_common Model_v1 Model_currency
  Model_policy Model_v2 Model_consensus Model_text CurrencyProofs TextProofs TextMore EncodingProofs BasicProofs
  PolicyProofs ConsensusProofs FormatProofs
  Model_json Model_jsontypes SpecJson JsonProofs Base64Proofs TimeProofs JsonLeafProofs JsonTypeProofs.
Local Open Scope N_scope.
Local Open Scope jres_scope.

(** ** Accumulators *)

Lemma present_trees_spec : forall n l i, present_trees n (N.of_nat i) l =
  map snd (filter (fun x => N.testbit (uval n) (N.of_nat (fst x))) (combine (seq i (length l)) l)).
Proof.
  intros n. induction l as [|h l IH]; intros i; [reflexivity|]. cbn [present_trees length seq combine filter fst].
  replace (N.of_nat i + 1) with (N.of_nat (S i)) by lia. rewrite IH, has_tree_testbit.
  destruct (N.testbit (uval n) (N.of_nat i)); reflexivity.
Qed.

Lemma bits_map : forall n i k, length (filter (fun i => N.testbit n (N.of_nat i)) (seq (S i) k)) =
  length (filter (fun i => N.testbit (N.div2 n) (N.of_nat i)) (seq i k)).
Proof.
  intros n i k. revert i. induction k as [|k IH]; intros i; [reflexivity|]. cbn [seq filter].
  replace (N.testbit n (N.of_nat (S i))) with (N.testbit (N.div2 n) (N.of_nat i)).
  - destruct (N.testbit (N.div2 n) (N.of_nat i)); cbn [length]; now rewrite IH.
  - rewrite Nat2N.inj_succ. symmetry. rewrite N.div2_spec, N.shiftr_spec by lia. f_equal. lia.
Qed.

Lemma ones_spec : forall k x, Npos x < 2 ^ N.of_nat k ->
  ones x = N.of_nat (length (filter (fun i => N.testbit (Npos x) (N.of_nat i)) (seq 0 k))).
Proof.
  induction k as [|k IH]; intros x H; [cbn in H; lia|].
  rewrite Nat2N.inj_succ, N.pow_succ_r in H by lia. cbn [seq filter].
  destruct x as [x|x|].
  - change (N.testbit (N.pos x~1) (N.of_nat 0)) with true. cbn [ones length]. rewrite bits_map.
    cbn [N.div2]. rewrite (IH x) by lia. lia.
  - change (N.testbit (N.pos x~0) (N.of_nat 0)) with false. cbn [ones]. rewrite bits_map.
    cbn [N.div2]. rewrite (IH x) by lia. reflexivity.
  - change (N.testbit 1 (N.of_nat 0)) with true. cbn [ones length]. rewrite bits_map. cbn [N.div2].
    assert (E : forall i, filter (fun i => N.testbit 0 (N.of_nat i)) (seq i k) = []).
    { clear. induction k as [|k IH]; intros i; [reflexivity|]. cbn [seq filter].
      rewrite N.bits_0. apply IH. }
    rewrite E. reflexivity.
Qed.

Lemma count_ones_spec : forall n : u64, count_ones n = N.of_nat (set_bits (uval n)).
Proof.
  intros n. unfold count_ones, set_bits. pose proof (uint_lt 64 n) as H. destruct (uval n) as [|x].
  - reflexivity.
  - now apply ones_spec.
Qed.

Lemma present_length : forall n (l : list hash256) i,
  length (present_trees n (N.of_nat i) l) = length (filter (fun i => N.testbit (uval n) (N.of_nat i)) (seq i (length l))).
Proof.
  intros n. induction l as [|h l IH]; intros i; [reflexivity|]. cbn [present_trees length seq filter].
  replace (N.of_nat i + 1) with (N.of_nat (S i)) by lia. rewrite app_length, IH, has_tree_testbit.
  destruct (N.testbit (uval n) (N.of_nat i)); reflexivity.
Qed.

Lemma place_present : forall n l i, place_trees n (length l) (N.of_nat i) (present_trees n (N.of_nat i) l) = Some (masked n i l).
Proof.
  intros n. induction l as [|h l IH]; intros i; [reflexivity|]. cbn [length place_trees present_trees].
  unfold masked. cbn [length seq combine map fst snd]. fold (masked n (S i) l).
  replace (N.of_nat i + 1) with (N.of_nat (S i)) by lia. rewrite has_tree_testbit.
  destruct (N.testbit (uval n) (N.of_nat i)); cbn [app]; now rewrite IH.
Qed.

(** What reading the JSON form of an accumulator gives: the slots without a tree are empty. *)
Lemma masked_len : forall a : element_accumulator, length (masked (ea_num_leaves a) 0 (flist (ea_trees a))) = 64%nat.
Proof. intros a. rewrite masked_length. apply farr_len. Qed.

Lemma mask_exists : forall a : element_accumulator, exists b, ea_num_leaves b = ea_num_leaves a /\
  farr_of 64 (masked (ea_num_leaves a) 0 (flist (ea_trees a))) = Some (ea_trees b) /\
  (forall i, nth i (flist (ea_trees b)) zero_hash =
    if N.testbit (uval (ea_num_leaves a)) (N.of_nat i) then nth i (flist (ea_trees a)) zero_hash else zero_hash).
Proof.
  intros a. destruct (farr_of_ok 64 _ _ (masked_len a)) as [t Ht]. exists (MkEa (ea_num_leaves a) t).
  cbn [ea_num_leaves ea_trees]. split; [reflexivity|]. split; [exact Ht|]. apply farr_of_some in Ht.
  intros i. rewrite Ht. apply (masked_nth _ _ 0%nat).
Qed.

Lemma filter_le : forall A (f : A -> bool) l, (length (filter f l) <= length l)%nat.
Proof. intros A f. induction l as [|x l IH]; [reflexivity|]. cbn. destruct (f x); cbn; lia. Qed.

Lemma trees_vec : forall a : element_accumulator, exists v : vec 32 hash256,
  vlist v = present_trees (ea_num_leaves a) 0 (flist (ea_trees a)).
Proof.
  intros a. set (l := present_trees (ea_num_leaves a) 0 (flist (ea_trees a))).
  assert (L : (length l <= 64)%nat).
  { unfold l. change 0 with (N.of_nat 0). rewrite present_length, farr_len.
    etransitivity; [apply filter_le|]. rewrite seq_length. lia. }
  destruct (vec_of_ok 32 _ l) as (v & _ & E).
  - unfold isize_max. change (2 ^ 63 - 1) with 9223372036854775807. lia.
  - unfold isize_max. change (2 ^ 63 - 1) with 9223372036854775807. lia.
  - eauto.
Qed.

Lemma jmap_hashes : forall l : list hash256, jmap (c_ser j_hash) l = JOk (map (fun h => JStr (hash_text h)) l).
Proof. induction l as [|h l IH]; [reflexivity|]. cbn [jmap map]. rewrite IH. reflexivity. Qed.

Lemma accumulator_reads : forall a, exists b,
  reads j_element_accumulator (1 + 1) a b /\
  ea_num_leaves b = ea_num_leaves a /\
  (forall i, nth i (flist (ea_trees b)) zero_hash =
    if N.testbit (uval (ea_num_leaves a)) (N.of_nat i) then nth i (flist (ea_trees a)) zero_hash else zero_hash).
Proof.
  intros a. destruct (mask_exists a) as (b & E1 & E2 & E3). exists b. split; [|split; assumption].
  destruct (trees_vec a) as [v Ev].
  destruct (de_struct_ok _ inter_fields 1 (ea_num_leaves a, (v, tt))) as (j & S & D & L & R); [reflexivity| |].
  { cbn [inter_fields fields_ok fst snd]. repeat split.
    - apply plain_ok. eapply ok_weaken; [apply ok_u64|lia].
    - apply plain_ok. eapply ok_weaken; [apply vec_plain; apply ok_hash|lia]. }
  exists j. split; [|split; [exact D|split; [exact L|]]].
  - rewrite <- S. unfold ser_struct, inter_fields.
    cbn [ser_fields plain f_skip f_ser f_name fst snd c_ser j_vec j_u64 ser_u64 jbind].
    unfold ser_vec, ser_list. rewrite Ev, jmap_hashes. cbn [jbind].
    cbn [j_element_accumulator c_ser]. unfold ser_element_accumulator.
    cbn [j_list c_ser j_u64 ser_u64 jbind]. unfold ser_list. rewrite jmap_hashes. reflexivity.
  - intros j' Rj. cbn [j_element_accumulator c_de]. unfold de_element_accumulator. rewrite (R _ Rj).
    cbn [jbind fst snd]. rewrite Ev.
    assert (C : N.of_nat (length (present_trees (ea_num_leaves a) 0 (flist (ea_trees a)))) = count_ones (ea_num_leaves a)).
    { rewrite count_ones_spec. unfold set_bits. change 0 with (N.of_nat 0). rewrite present_length, farr_len. reflexivity. }
    rewrite C, N.eqb_refl. cbn [negb].
    pose proof (place_present (ea_num_leaves a) (flist (ea_trees a)) 0) as P. rewrite farr_len in P.
    change (N.of_nat 0) with 0 in P. rewrite P. cbn [jopt jbind]. rewrite E2. cbn [jopt jbind].
    rewrite <- E1. now destruct b.
Qed.

Lemma ok_element_accumulator : forall a, ea_normal a -> ok j_element_accumulator (1 + 1) a.
Proof.
  intros a H. destruct (accumulator_reads a) as (b & R & E1 & E2).
  assert (E : b = a).
  { destruct a as [n t], b as [n' t']. cbn [ea_num_leaves ea_trees] in *. subst n'. f_equal.
    apply farr_eq. apply nth_ext with (d := zero_hash) (d' := zero_hash); [now rewrite !farr_len|].
    intros i _. rewrite E2. destruct (N.testbit (uval n) (N.of_nat i)) eqn:T; [reflexivity|].
    symmetry. now apply H. }
  now subst b.
Qed.
#[global] Hint Resolve ok_element_accumulator : jok.

(** The document of an accumulator, and what is accepted. *)
Lemma accumulator_json : forall a, c_ser j_element_accumulator a = JOk (JObj
  [(ascii "numLeaves", JUint (ea_num_leaves a));
   (ascii "trees", JArr (map (fun h => JStr (hash_text h)) (present (uval (ea_num_leaves a)) (flist (ea_trees a)))))]).
Proof.
  intros a. cbn [j_element_accumulator c_ser]. unfold ser_element_accumulator.
  cbn [j_list c_ser j_u64 ser_u64 jbind]. unfold ser_list. rewrite jmap_hashes. cbn [jbind].
  change 0 with (N.of_nat 0). rewrite present_trees_spec. reflexivity.
Qed.

Lemma jmap_length : forall A B (f : A -> jres B) l l', jmap f l = JOk l' -> length l' = length l.
Proof.
  intros A B f. induction l as [|a l IH]; intros l' H; cbn [jmap] in H.
  - now inversion H.
  - destruct (f a); cbn [jbind] in H; try discriminate. fold (jmap f) in H.
    destruct (jmap f l) as [m| |] eqn:E; cbn [jbind] in H; try discriminate. inversion H; subst. cbn. f_equal. auto.
Qed.

Lemma place_normal : forall n k i l t, place_trees n k (N.of_nat i) l = Some t ->
  forall m, N.testbit (uval n) (N.of_nat (i + m)) = false -> nth m t zero_hash = zero_hash.
Proof.
  intros n. induction k as [|k IH]; intros i l t H m B; cbn [place_trees] in H.
  - inversion H; subst. now destruct m.
  - rewrite has_tree_testbit in H. replace (N.of_nat i + 1) with (N.of_nat (S i)) in H by lia.
    destruct (N.testbit (uval n) (N.of_nat i)) eqn:T.
    + destruct l as [|root r]; [discriminate|]. destruct (place_trees n k (N.of_nat (S i)) r) as [t'|] eqn:E; [|discriminate].
      inversion H; subst. destruct m as [|m]; [rewrite Nat.add_0_r in B; congruence|].
      cbn [nth]. apply (IH _ _ _ E). now replace (S i + m)%nat with (i + S m)%nat by lia.
    + destruct (place_trees n k (N.of_nat (S i)) l) as [t'|] eqn:E; [|discriminate].
      inversion H; subst. destruct m as [|m]; [reflexivity|].
      cbn [nth]. apply (IH _ _ _ E). now replace (S i + m)%nat with (i + S m)%nat by lia.
Qed.

Lemma place_normal_at : forall n k z i l t, z = N.of_nat i -> place_trees n k z l = Some t ->
  forall m, N.testbit (uval n) (N.of_nat (i + m)) = false -> nth m t zero_hash = zero_hash.
Proof. intros n k z i l t -> H. now apply (place_normal n k i l). Qed.

#[local] Opaque place_trees.
Lemma accumulator_shape : forall j a, de_element_accumulator j = JOk a -> exists x,
  de_struct inter_fields j = JOk x /\ ea_num_leaves a = fst x /\
  length (vlist (fst (snd x))) = set_bits (uval (fst x)) /\ ea_normal a.
Proof.
  intros j a H. unfold de_element_accumulator in H.
  destruct (de_struct inter_fields j) as [x| |]; cbn [jbind] in H; try discriminate.
  exists x. split; [reflexivity|]. destruct x as [n [v u]]. cbn [fst snd] in *.
  destruct (N.eqb_spec (N.of_nat (length (vlist v))) (count_ones n)) as [C|C]; cbn [negb] in H; [|discriminate].
  rewrite count_ones_spec in C. apply Nat2N.inj in C.
  destruct (place_trees n 64 0 (vlist v)) as [t|] eqn:Et; cbn [jopt jbind] in H; [|discriminate].
  destruct (farr_of 64 t) as [f|] eqn:Ef; cbn [jopt jbind] in H; [|discriminate].
  assert (E : a = MkEa n f) by congruence. clear H. subst a.
  split; [reflexivity|]. split; [exact C|]. intros i B. cbn [ea_num_leaves ea_trees] in *.
  apply farr_of_some in Ef. rewrite Ef. exact (place_normal_at n 64 0 0%nat _ _ eq_refl Et i B).
Qed.

Lemma find_first : forall k v l, find_entry k ((k, v) :: l) = Some v.
Proof. intros k v l. cbn [find_entry]. now rewrite bytes_eqb_refl. Qed.

Lemma find_later : forall k k' v l, bytes_eqb k' k = false -> find_entry k ((k', v) :: l) = find_entry k l.
Proof. intros k k' v l H. cbn [find_entry]. now rewrite H. Qed.

Lemma trees_accepted : forall l (v : vec 32 hash256), c_de (j_vec 32 j_hash) (JArr l) = JOk v ->
  length (vlist v) = length l.
Proof.
  intros l v H. cbn [j_vec c_de] in H. unfold de_vec in H. cbn [de_list] in H.
  destruct (jmap (c_de j_hash) l) as [hs| |] eqn:Eh; cbn [jbind] in H; try discriminate.
  destruct (vec_of 32 hs) as [v'|] eqn:Ev; cbn [jopt jbind] in H; try discriminate.
  assert (v = v') by congruence. subst v'. apply vec_of_some in Ev. apply jmap_length in Eh. congruence.
Qed.

Lemma inter_accepted : forall n l x,
  de_struct inter_fields (JObj [(ascii "numLeaves", JUint n); (ascii "trees", JArr l)]) = JOk x ->
  fst x = n /\ length (vlist (fst (snd x))) = length l.
Proof.
  intros n l x H. unfold de_struct in H.
  destruct (check_entries _ _ _) as [u| |]; cbn [jbind] in H; try discriminate.
  unfold inter_fields in H. cbn [collect_fields] in H.
  change (f_name (plain "numLeaves" j_u64)) with (ascii "numLeaves") in H.
  change (f_name (plain "trees" (j_vec 32 j_hash))) with (ascii "trees") in H.
  rewrite find_first, find_later, find_first in H by (vm_compute; reflexivity).
  change (f_de (plain "numLeaves" j_u64) (JUint n)) with (@JOk u64 n) in H.
  change (f_de (plain "trees" (j_vec 32 j_hash)) (JArr l)) with (c_de (j_vec 32 j_hash) (JArr l)) in H.
  destruct (c_de (j_vec 32 j_hash) (JArr l)) as [v| |] eqn:E; cbn [jbind] in H; try discriminate.
  assert (X : x = (n, (v, tt))) by congruence. subst x. cbn [fst snd].
  split; [reflexivity|]. now apply trees_accepted.
Qed.

Lemma accumulator_accepts : forall n l a,
  c_de j_element_accumulator (JObj [(ascii "numLeaves", JUint n); (ascii "trees", JArr l)]) = JOk a ->
  length l = set_bits (uval n) /\ ea_num_leaves a = n /\ ea_normal a.
Proof.
  intros n l a H. destruct (accumulator_shape _ _ H) as (x & E & N1 & N2 & N3).
  destruct (inter_accepted _ _ _ E) as [F1 F2]. rewrite F1, ?F2 in *. auto.
Qed.

Lemma ok_hardfork_dev_addr : forall a, ok (j_hardfork_dev_addr) (1 + 0) a.
Proof.
  intros a. unfold j_hardfork_dev_addr.
  jstruct hardfork_dev_addr_fields hardfork_dev_addr_tuple.
Qed.
#[global] Hint Resolve ok_hardfork_dev_addr : jok.

Lemma ok_hardfork_tax : forall a, ok (j_hardfork_tax) (1 + 0) a.
Proof.
  intros a. unfold j_hardfork_tax.
  jstruct hardfork_tax_fields hardfork_tax_tuple.
Qed.
#[global] Hint Resolve ok_hardfork_tax : jok.

Lemma ok_hardfork_storage_proof : forall a, ok (j_hardfork_storage_proof) (1 + 0) a.
Proof.
  intros a. unfold j_hardfork_storage_proof.
  jstruct hardfork_storage_proof_fields hardfork_storage_proof_tuple.
Qed.
#[global] Hint Resolve ok_hardfork_storage_proof : jok.

Lemma ok_hardfork_foundation : forall a, ok (j_hardfork_foundation) (1 + 0) a.
Proof.
  intros a. unfold j_hardfork_foundation.
  jstruct hardfork_foundation_fields hardfork_foundation_tuple.
Qed.
#[global] Hint Resolve ok_hardfork_foundation : jok.

Lemma ok_hardfork_v2 : forall a, ok (j_hardfork_v2) (1 + 0) a.
Proof.
  intros a. unfold j_hardfork_v2.
  jstruct hardfork_v2_fields hardfork_v2_tuple.
Qed.
#[global] Hint Resolve ok_hardfork_v2 : jok.

Lemma ok_hardfork_oak : forall a, json_time (hfo_genesis_timestamp a) -> ok j_hardfork_oak (1 + 0) a.
Proof. intros a H. unfold j_hardfork_oak. jstruct hardfork_oak_fields hardfork_oak_tuple. Qed.
Lemma ok_hardfork_asic : forall a, json_duration (hfa_oak_time a) -> ok j_hardfork_asic (1 + 0) a.
Proof. intros a H. unfold j_hardfork_asic. jstruct hardfork_asic_fields hardfork_asic_tuple. Qed.
#[global] Hint Resolve ok_hardfork_oak ok_hardfork_asic : jok.

Lemma ok_network : forall (p : profile) a, json_network a -> ok (j_network p) (1 + 1) a.
Proof.
  intros p a H. unfold json_network in H. jhyps. unfold j_network.
  jstruct network_fields network_tuple.
Qed.
#[global] Hint Resolve ok_network : jok.

Lemma ok_state : forall (p : profile) a, json_state a -> ok (j_state p) (1 + 2) a.
Proof.
  intros p a H. unfold json_state in H. jhyps. unfold j_state.
  jstruct state_fields state_tuple.
Qed.
#[global] Hint Resolve ok_state : jok.

Lemma ok_chain_state : forall (p : profile) a, json_chain_state a -> ok (j_chain_state p) (1 + 3) a.
Proof.
  intros p a H. unfold json_chain_state in H. jhyps. unfold j_chain_state.
  jstruct chain_state_fields chain_state_tuple.
Qed.
#[global] Hint Resolve ok_chain_state : jok.
