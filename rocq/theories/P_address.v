(** C23-C29: the Merkle accumulator, sector roots, addresses and spend policies. Only
    statements here; SpecMerkle.v, SpecSector.v, SpecPolicy.v and SpecTree.v hold the specifications, SpecRound.v
    what rounding does to a policy and SpecTrace.v the byte strings that a computation hashes. *)

From Verif Require Import Base Io Spec SpecWire Model_encoding Model_common Blake2b Model_v1 Model_policy
  Model_consensus Model_merkle Model_ids SpecMerkle SpecSector SpecTrace SpecPolicy SpecTree SpecRound
  PolicyProofs MerkleProofs SectorProofs AddressProofs AddressMore CommitProofs CommitKeys TreeProofs RangeProofs RoundProofs Samples.
Local Open Scope N_scope.

(** ** C23. [root_of p l] adds the leaves [l] to a new accumulator and takes its root. *)

(** Full statement: the root is the Merkle root of the leaves. It fails from four leaves on. *)
Theorem C23_merkle_root_refuted : ~ (forall p l r, l <> [] -> N.of_nat (length l) < 2 ^ 64 ->
  root_of p l = Val r -> exists inputs, MerkleRoot l r inputs).
Proof. exact four_leaves_wrong. Qed.
Print Assumptions C23_merkle_root_refuted.

(** The root of four or more leaves does not depend on the third one. *)
Theorem C23_third_leaf_refuted : forall p a b c c' d rest, N.of_nat (length rest) + 4 < 2 ^ 64 ->
  root_of p (a :: b :: c :: d :: rest) = root_of p (a :: b :: c' :: d :: rest).
Proof. exact root_of_third. Qed.
Print Assumptions C23_third_leaf_refuted.

(** Missing: four leaves or more. *)
Theorem C23_merkle_root_partial : forall p l, l <> [] -> (length l <= 3)%nat ->
  exists r inputs, root_of p l = Val r /\ MerkleRoot l r inputs.
Proof. exact root_of_small. Qed.
Print Assumptions C23_merkle_root_partial.

(** For any number of leaves: exactly the leaves at certain positions determine the root. *)
Theorem C23_sensitive_partial : forall p l l' r r', l <> [] -> length l = length l' ->
  N.of_nat (length l) < 2 ^ 64 -> root_of p l = Val r -> root_of p l' = Val r' ->
  exists c c', Committed l c /\ Committed l' c' /\ (c = c' -> r = r') /\
    (r = r' -> c = c' \/ Collision (tree_inputs p l) (tree_inputs p l')).
Proof. exact root_of_committed. Qed.
Print Assumptions C23_sensitive_partial.

(** The computation succeeds and is the same in both build profiles. *)
Theorem C23_total_partial : forall p p' l, N.of_nat (length l) < 2 ^ 64 ->
  (exists r, root_of p l = Val r) /\ root_of p l = root_of p' l.
Proof. intros p p' l H. exact (conj (root_total p l H) (root_profile p p' l H)). Qed.
Print Assumptions C23_total_partial.

(** The Merkle root of the specification exists, is unique and binds its leaves. *)
Theorem C23_specification : forall l, l <> [] ->
  (exists r i, MerkleRoot l r i) /\
  (forall r i r' i', MerkleRoot l r i -> MerkleRoot l r' i' -> r = r' /\ i = i') /\
  (forall l' r i i', length l = length l' -> MerkleRoot l r i -> MerkleRoot l' r i' -> l = l' \/ Collision i i').
Proof. exact merkle_root_spec. Qed.
Print Assumptions C23_specification.

(** The root starts from the tree of the lowest bit set in the number of leaves. There is one, among
    the 64, unless there are no leaves. *)
Theorem C23_index_partial : forall n : u64,
  (uval n = 0 -> trailing_zeros n = 64%nat) /\
  (uval n <> 0 -> (trailing_zeros n < 64)%nat /\ N.testbit (uval n) (N.of_nat (trailing_zeros n)) = true /\
     forall j, (j < trailing_zeros n)%nat -> N.testbit (uval n) (N.of_nat j) = false).
Proof. exact root_index. Qed.
Print Assumptions C23_index_partial.

Example C23_example : four_leaves <> [] /\ (length (firstn 3 four_leaves) = 3)%nat /\
  exists c, Committed four_leaves c /\ length c = 3%nat.
Proof. exact four_leaves_committed. Qed.

(** ** C24 *)

(** Full statement. It fails: the second of two keys is not committed to. *)
Theorem C24_binding_refuted : ~ (forall p u v a,
  unlock_conditions_address p u = Val a -> unlock_conditions_address p v = Val a ->
  u = v \/ Collision (uc_inputs p u) (uc_inputs p v)).
Proof. exact uc_binding_fails. Qed.
Print Assumptions C24_binding_refuted.

(** Whatever the keys are: conditions with two keys have the address of the conditions with
    only the first one. *)
Theorem C24_second_key_refuted : forall p u v k1 k2,
  vlist (uc_public_keys u) = [k1; k2] -> vlist (uc_public_keys v) = [k1] ->
  uc_timelock u = uc_timelock v -> uc_signatures_required u = uc_signatures_required v ->
  unlock_conditions_address p u = unlock_conditions_address p v.
Proof. exact two_keys_one_key. Qed.
Print Assumptions C24_second_key_refuted.

(** Missing: conditions with two keys or more. *)
Theorem C24_binding_partial : forall p u v a,
  (length (vlist (uc_public_keys u)) <= 1)%nat -> (length (vlist (uc_public_keys v)) <= 1)%nat ->
  unlock_conditions_address p u = Val a -> unlock_conditions_address p v = Val a ->
  u = v \/ Collision (uc_inputs p u) (uc_inputs p v).
Proof. exact uc_binding_small. Qed.
Print Assumptions C24_binding_partial.

(** For any number of keys on either side: the timelock, the number of signatures and the
    first key are committed to. *)
Theorem C24_committed_partial : forall p u v a,
  unlock_conditions_address p u = Val a -> unlock_conditions_address p v = Val a ->
  same_committed u v \/ Collision (uc_inputs p u) (uc_inputs p v).
Proof. exact uc_committed. Qed.
Print Assumptions C24_committed_partial.

(** For any number of keys, the same on both sides: the address depends on exactly the
    timelock, the number of signatures and the keys at certain positions. *)
Theorem C24_keys_partial : forall p u v a b,
  length (vlist (uc_public_keys u)) = length (vlist (uc_public_keys v)) ->
  unlock_conditions_address p u = Val a -> unlock_conditions_address p v = Val b ->
  (same_committed_keys u v -> a = b) /\
  (a = b -> same_committed_keys u v \/ Collision (uc_inputs p u) (uc_inputs p v)).
Proof. exact uc_keys. Qed.
Print Assumptions C24_keys_partial.

(** For any numbers of keys: the address is that of a tree with some of the leaves, and two
    conditions share an address exactly when they have the same tree. *)
Theorem C24_tree_partial : forall p u v,
  (same_tree u v -> unlock_conditions_address p u = unlock_conditions_address p v) /\
  (unlock_conditions_address p u = unlock_conditions_address p v ->
   same_tree u v \/ Collision (uc_inputs p u) (uc_inputs p v)).
Proof. exact conditions_exact. Qed.
Print Assumptions C24_tree_partial.

(** Each list of leaves has one tree. *)
Theorem C24_one_tree : forall u, exists t, CommitTree (condition_leaves u) t /\
  forall s, CommitTree (condition_leaves u) s -> s = t.
Proof. exact conditions_one_tree. Qed.
Print Assumptions C24_one_tree.

(** Conditions with different numbers of keys and the same tree, and ones with different trees. *)
Example C24_tree_example : same_tree two_key_uc one_key_uc /\ ~ same_tree two_key_uc other_key_uc.
Proof. exact (conj (proj1 tree_examples) (proj1 (proj2 tree_examples))). Qed.

(** The address of any conditions is computed without a panic, and is the same in both build
    profiles. *)
Theorem C24_total : forall p p' u,
  (exists a, unlock_conditions_address p u = Val a) /\
  unlock_conditions_address p u = unlock_conditions_address p' u.
Proof. intros p p' u. exact (conj (uc_total p u) (unlock_conditions_profile p p' u)). Qed.
Print Assumptions C24_total.

Example C24_example :
  length (vlist (uc_public_keys one_key_uc)) = 1%nat /\ length (vlist (uc_public_keys two_key_uc)) = 2%nat /\
  unlock_conditions_address Debug two_key_uc = unlock_conditions_address Debug one_key_uc.
Proof. exact (conj eq_refl (conj eq_refl (key_counts_same_address Debug))). Qed.

(** Of four keys, all but the second determine the address. *)
Example C24_keys_example :
  CommittedAt 6 1 /\ ~ CommittedAt 6 2 /\ CommittedAt 6 3 /\ CommittedAt 6 4 /\ CommittedAt 6 5.
Proof. exact committed_example. Qed.

(** ** C25. [sched] is the order in which the tasks of the parallel loops run. *)

(** Full statement. It fails: most of the sector is never read. *)
Theorem C25_merkle_root_refuted : ~ (forall sched sector r, valid_schedule sector_leaves sched ->
  sector_root sched sector = Val r -> exists i, MerkleRoot (segment_leaves sector_leaves sector) r i).
Proof. exact sector_root_wrong. Qed.
Print Assumptions C25_merkle_root_refuted.

Theorem C25_tail_refuted : forall sched a b, length a = length b ->
  firstn covered_bytes a = firstn covered_bytes b ->
  valid_schedule sector_leaves sched -> sector_root sched a = sector_root sched b.
Proof. exact sector_root_tail. Qed.
Print Assumptions C25_tail_refuted.

(** The result does not depend on the schedule, for any input. *)
Theorem C25_schedule_partial : forall s1 s2 sector,
  valid_schedule sector_leaves s1 -> valid_schedule sector_leaves s2 ->
  sector_root s1 sector = sector_root s2 sector.
Proof. exact sector_root_schedule. Qed.
Print Assumptions C25_schedule_partial.

(** What is computed: the Merkle root, over the leaves that the code reads. *)
Theorem C25_code_root_partial : forall sched sector, valid_schedule sector_leaves sched ->
  N.of_nat (length sector) = sector_size ->
  exists r inputs, sector_root sched sector = Val r /\ MerkleRoot (code_leaves sector_leaves sector) r inputs.
Proof. exact sector_root_merkle. Qed.
Print Assumptions C25_code_root_partial.

(** The bytes that are read are committed to. *)
Theorem C25_binding_partial : forall s s' a b r ra rb ia ib,
  valid_schedule sector_leaves s -> valid_schedule sector_leaves s' ->
  sector_root s a = Val r -> sector_root s' b = Val r ->
  MerkleRoot (code_leaves sector_leaves a) ra ia -> MerkleRoot (code_leaves sector_leaves b) rb ib ->
  firstn covered_bytes a = firstn covered_bytes b \/
    Collision (leaf_inputs sector_leaves a ++ ia) (leaf_inputs sector_leaves b ++ ib).
Proof. exact sector_root_binding. Qed.
Print Assumptions C25_binding_partial.

(** An input of any other length is refused. *)
Theorem C25_length_partial : forall sched sector, N.of_nat (length sector) <> sector_size ->
  sector_root sched sector = Panic AssertFailed.
Proof. exact sector_root_length. Qed.
Print Assumptions C25_length_partial.

(** Two different sectors with the same root, and a schedule. *)
Example C25_example : valid_schedule sector_leaves (in_order sector_leaves) /\
  N.of_nat (length zero_sector) = sector_size /\ last_one_sector <> zero_sector /\
  firstn covered_bytes last_one_sector = firstn covered_bytes zero_sector /\
  sector_root (in_order sector_leaves) last_one_sector = sector_root (in_order sector_leaves) zero_sector.
Proof.
  exact (conj in_order_valid (conj zero_sector_length (conj sectors_differ (conj last_one_covered
    (last_one_root _ in_order_valid))))).
Qed.

(** ** C26 *)

Theorem C26_redaction : forall p q r, Redacted p q r -> policy_address p r = policy_address p q.
Proof. exact Redacted_address. Qed.
Print Assumptions C26_redaction.

(** Every policy has an address, the same in both build profiles. *)
Theorem C26_total : forall p p' q, (exists a, policy_address p q = Val a) /\ policy_address p q = policy_address p' q.
Proof. intros p p' q. exact (conj (policy_address_total p q) (policy_address_profile p p' q)). Qed.
Print Assumptions C26_total.

(** A redaction below two thresholds. *)
Example C26_example : exists r, Redacted Debug redaction_sample r /\ r <> redaction_sample.
Proof. exact redaction_sample_ok. Qed.

(** ** C27 *)

(** Full statement. It fails for unlock conditions with two keys... *)
Theorem C27_binding_refuted : ~ (forall p q r a,
  policy_address p q = Val a -> policy_address p r = Val a ->
  UpToOpaque p q r \/ Collision (policy_inputs p q) (policy_inputs p r)).
Proof. exact policy_binding_fails. Qed.
Print Assumptions C27_binding_refuted.

(** ... and for times that differ in a fraction of a second. *)
Theorem C27_time_refuted : ~ (forall p t u a,
  policy_address p (PAfter t) = Val a -> policy_address p (PAfter u) = Val a ->
  UpToOpaque p (PAfter t) (PAfter u) \/ Collision (policy_inputs p (PAfter t)) (policy_inputs p (PAfter u))).
Proof. exact policy_time_fails. Qed.
Print Assumptions C27_time_refuted.

(** Missing: unlock conditions with two keys or more and fractions of a second. Any depth and
    any number of children. *)
Theorem C27_binding_partial : forall p q r a, plain q -> plain r ->
  policy_address p q = Val a -> policy_address p r = Val a ->
  UpToOpaque p q r \/ Collision (policy_inputs p q) (policy_inputs p r).
Proof. exact policy_binding_plain. Qed.
Print Assumptions C27_binding_partial.

(** Without opaque policies the address determines the policy. *)
Theorem C27_revealed_partial : forall p q r a, plain q -> plain r -> revealed q -> revealed r ->
  policy_address p q = Val a -> policy_address p r = Val a ->
  q = r \/ Collision (policy_inputs p q) (policy_inputs p r).
Proof. exact policy_binding_revealed. Qed.
Print Assumptions C27_revealed_partial.

(** For all policies: the same up to what the two refutations above exhibit. *)
Theorem C27_alike_partial : forall p q r a,
  policy_address p q = Val a -> policy_address p r = Val a ->
  Alike p q r \/ Collision (policy_inputs p q) (policy_inputs p r).
Proof. exact policy_binding. Qed.
Print Assumptions C27_alike_partial.

(** Exactly, for all policies: sharing an address is the relation [SameAddress] of SpecTree.v. *)
Theorem C27_exact_partial : forall p q r,
  (SameAddress p q r -> policy_address p q = policy_address p r) /\
  (policy_address p q = policy_address p r ->
   SameAddress p q r \/ Collision (policy_inputs p q) (policy_inputs p r)).
Proof. exact policy_exact. Qed.
Print Assumptions C27_exact_partial.

Example C27_exact_example : forall p, SameAddress p (PThreshold x01 [PUnlockConditions two_key_uc])
  (PThreshold x01 [PUnlockConditions one_key_uc]).
Proof. exact (proj2 (proj2 tree_examples)). Qed.

(** The relation is not too strict: related policies do have the same address. *)
Theorem C27_converse : forall p q r, UpToOpaque p q r -> policy_address p q = policy_address p r.
Proof. exact UpToOpaque_address. Qed.
Print Assumptions C27_converse.

Example C27_example : plain redaction_sample /\ revealed redaction_sample /\ depth redaction_sample = 3%nat.
Proof. exact redaction_sample_plain. Qed.

(** ** C28 *)

(** Full statement, for what the threshold constructor builds. It fails for 256 children... *)
Theorem C28_wide_refuted : ~ (forall n of q stack rest, policy_threshold n of = Val q -> (depth q <= stack)%nat ->
  run (decode_policy stack) (wbytes (encode_policy q) ++ rest) = ROk q rest).
Proof. exact policy_roundtrip_fails. Qed.
Print Assumptions C28_wide_refuted.

(** ... and for a fraction of a second. *)
Theorem C28_time_refuted : ~ (forall t stack rest, (1 <= stack)%nat ->
  run (decode_policy stack) (wbytes (encode_policy (PAfter t)) ++ rest) = ROk (PAfter t) rest).
Proof. exact policy_time_roundtrip_fails. Qed.
Print Assumptions C28_time_refuted.

(** Any depth that the stack has room for, at most 255 children, whole seconds. *)
Theorem C28_roundtrip_partial : forall stack q rest, encodable q -> (depth q <= stack)%nat ->
  run (decode_policy stack) (wbytes (encode_policy q) ++ rest) = ROk q rest.
Proof. intros stack q rest H1 H2. exact (rt_policy stack q rest (conj H1 H2)). Qed.
Print Assumptions C28_roundtrip_partial.

(** With fractions of a second: the times come back at the start of their seconds, and nothing else changes. *)
Theorem C28_rounded_partial : forall stack q rest, Narrow q -> (depth q <= stack)%nat ->
  exists r, run (decode_policy stack) (wbytes (encode_policy q) ++ rest) = ROk r rest /\ Rounded q r.
Proof. exact policy_rounded. Qed.
Print Assumptions C28_rounded_partial.

Theorem C28_rounded_once : forall q r r', Rounded q r -> Rounded q r' -> r = r'.
Proof. exact rounded_unique. Qed.
Print Assumptions C28_rounded_once.

(** With any number of children: as many come back as the number modulo 256, and the others are left
    in the input. *)
Theorem C28_many_partial : forall stack n l rest, Forall (policy_fits stack) l ->
  let c := (length l mod 256)%nat in
  run (decode_policy (S stack)) (wbytes (encode_policy (PThreshold n l)) ++ rest) =
    ROk (PThreshold n (firstn c l)) (concat (map (fun q => tl (wbytes (encode_policy q))) (skipn c l)) ++ rest).
Proof. exact policy_many. Qed.
Print Assumptions C28_many_partial.

Example C28_rounded_example : exists t, odt_nanos t <> 0 /\ Narrow (PThreshold x01 [PAfter t]) /\
  depth (PThreshold x01 [PAfter t]) = 2%nat.
Proof. exact rounded_example. Qed.

Example C28_many_example : let l := repeat (PAbove (uwrap 64 7)) 257 in
  Forall (policy_fits 1) l /\ (length l mod 256 = 1)%nat.
Proof. exact many_example. Qed.

(** Whatever is accepted is the encoding of the policy that is returned. *)
Theorem C28_accepted : forall stack bs q rest, run (decode_policy stack) bs = ROk q rest ->
  bs = wbytes (encode_policy q) ++ rest /\ encodable q /\ (depth q <= stack)%nat.
Proof. intros stack bs q rest H. exact (conj (canon_policy stack bs q rest H) (decoded_policy stack bs q rest H)). Qed.
Print Assumptions C28_accepted.

Theorem C28_version : forall stack v rest, v <> x01 -> exists e, run (decode_policy stack) (v :: rest) = RErr e.
Proof. exact policy_bad_version. Qed.
Print Assumptions C28_version.

Theorem C28_type : forall stack t rest, Byte.to_N t = 0 \/ 7 < Byte.to_N t ->
  exists e, run (decode_policy (S stack)) (x01 :: t :: rest) = RErr e.
Proof. exact policy_bad_type. Qed.
Print Assumptions C28_type.

Example C28_example : encodable redaction_sample /\ depth redaction_sample = 3%nat.
Proof. exact redaction_sample_encodable. Qed.

(** ** C29. [stack] is the number of nested calls for which the thread's stack has room. *)

(** Full statement: some fixed stack is enough for every input. It fails. *)
Theorem C29_bounded_refuted : ~ (exists stack, forall bs, run (decode_policy stack) bs <> RPanic StackOverflow).
Proof. exact policy_nesting. Qed.
Print Assumptions C29_bounded_refuted.

(** The number of nested calls is at most a third of the number of bytes, rounded up... *)
Theorem C29_linear_partial : forall stack bs, (length bs <= 3 * stack)%nat ->
  run (decode_policy stack) bs <> RPanic StackOverflow.
Proof. exact policy_stack_enough. Qed.
Print Assumptions C29_linear_partial.

(** ... and one byte more can need one call more. *)
Theorem C29_linear_tight_partial : forall stack, exists bs, length bs = (3 * stack + 1)%nat /\
  run (decode_policy stack) bs = RPanic StackOverflow.
Proof. exact policy_stack_exact. Qed.
Print Assumptions C29_linear_tight_partial.

(** Three nested thresholds, in 10 bytes: by the bound four calls are enough, and three are not. *)
Example C29_example :
  let bs := [x01; x05; x01; x01; x05; x01; x01; x05; x01; x01] in
  (length bs <= 3 * 4)%nat /\ run (decode_policy 4) bs <> RPanic StackOverflow /\
  run (decode_policy 3) bs = RPanic StackOverflow.
Proof. repeat split; try (vm_compute; discriminate); try (vm_compute; reflexivity). cbn [length]. lia. Qed.
