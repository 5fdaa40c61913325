(** The address of unlock conditions determines exactly the tree of SpecTree.v, and that of a
    policy determines it up to [SameAddress] (C24, C27). *)

From Verif Require Import Base Io IoProofs Spec SpecWire Codec Model_encoding EncodingProofs Blake2b Model_common
  Model_v1 Model_policy CodecTac CommonProofs V1Proofs PolicyProofs Model_consensus Model_merkle
  Model_ids SpecMerkle SpecTrace SpecPolicy SpecTree MerkleProofs AddressProofs AddressMore.
Local Open Scope nat_scope.

Definition item_input (x : leaf_item) : bytes :=
  match x with
  | LNumber n => x00 :: le_bytes 8 (uval n)
  | LKey k => x00 :: wbytes (encode_unlock_key k)
  end.
Definition item_hash (x : leaf_item) : hash256 := hash (item_input x).

Lemma condition_inputs : forall u, uc_leaf_inputs u = map item_input (condition_leaves u).
Proof.
  intros u. unfold uc_leaf_inputs, condition_leaves. cbn [map item_input]. f_equal.
  rewrite map_app, map_map. reflexivity.
Qed.

Lemma item_input_inj : forall x y, item_input x = item_input y -> x = y.
Proof.
  intros [n|k] [n'|k'] H; cbn [item_input] in H; apply cons_tail in H.
  - now rewrite (u64_inj _ _ H).
  - exfalso. pose proof (unlock_key_long k'). rewrite <- H, le_bytes_length in *. lia.
  - exfalso. pose proof (unlock_key_long k). rewrite H, le_bytes_length in *. lia.
  - now rewrite (unlock_key_inj _ _ H).
Qed.

Fixpoint tree_hash (t : commit_tree) : hash256 :=
  match t with CLeaf x => item_hash x | CNode l r => sum_node (tree_hash l) (tree_hash r) end.

(** Every string hashed for the tree is in [X]. *)
Fixpoint hashed_in (X : bytes -> Prop) (t : commit_tree) : Prop :=
  match t with
  | CLeaf x => X (item_input x)
  | CNode l r => X (node_input (tree_hash l) (tree_hash r)) /\ hashed_in X l /\ hashed_in X r
  end.

Lemma ChainTree_length : forall k l t, ChainTree k l t -> length l = 2 ^ k.
Proof.
  induction 1 as [|k l r x t HT IH HL]; [reflexivity|]. rewrite !app_length, IH. cbn [length Nat.pow]. lia.
Qed.

Lemma CommitTree_ne : forall l t, CommitTree l t -> 0 < length l.
Proof.
  induction 1 as [k l t HT|k l r t s HT HR IH HL].
  - rewrite (ChainTree_length _ _ _ HT). pose proof (Nat.pow_nonzero 2 k). lia.
  - rewrite app_length. lia.
Qed.

Lemma chain_hash : forall X k xs t, ChainTree k xs t -> Forall (fun x => X (item_input x)) xs ->
  forall a, CodeTree X k (map item_hash xs) a -> a = tree_hash t /\ hashed_in X t.
Proof.
  induction 1 as [x|k l r x t HT IH HL]; intros F a HC.
  - inversion HC as [h E1 E2 E3|]; subst. cbn [map] in *. inversion F; subst.
    split; [|assumption]. cbn [tree_hash]. congruence.
  - inversion HC as [|k' l' r' h' a' HT' HL' HX E1 E2 E3]. subst k'.
    pose proof (ChainTree_length _ _ _ HT) as L1. pose proof (CodeTree_length _ _ _ _ HT') as L2.
    rewrite !map_app in E2. apply app_length_inj in E2; [|rewrite map_length; congruence].
    destruct E2 as [E2 E4]. cbn [map] in E4. apply app_inj_tail in E4. destruct E4 as [_ ->].
    apply Forall_app in F. destruct F as [F1 F2]. apply Forall_app in F2. destruct F2 as [_ F2].
    inversion F2; subst. destruct (IH F1 a' HT') as [-> Hin]. cbn [tree_hash hashed_in]. auto.
Qed.

Lemma commit_hash : forall X xs t, CommitTree xs t -> Forall (fun x => X (item_input x)) xs ->
  forall a, CodeRoot X (map item_hash xs) a -> a = tree_hash t /\ hashed_in X t.
Proof.
  induction 1 as [k l t HT|k l r t s HT HR IH HL]; intros F a HC.
  - pose proof (ChainTree_length _ _ _ HT) as L1.
    inversion HC as [k' l' a' HT' E1 E2|k' l' r' a' b' HT' HR' HL' HX E1 E2]; subst.
    + assert (k' = k). { apply pow2_inj. rewrite <- (CodeTree_length _ _ _ _ HT'), map_length. congruence. }
      subst k'. eapply chain_hash; eassumption.
    + exfalso. apply (f_equal (@length _)) in E1. rewrite app_length, map_length, L1, (CodeTree_length _ _ _ _ HT') in E1.
      pose proof (CodeRoot_ne _ _ _ HR'). eapply pow2_between; [|exact E1]. lia.
  - pose proof (ChainTree_length _ _ _ HT) as L1. pose proof (CommitTree_ne _ _ HR) as Hne.
    apply Forall_app in F. destruct F as [F1 F2].
    inversion HC as [k' l' a' HT' E1 E2|k' l' r' a' b' HT' HR' HL' HX E1 E2]; subst.
    + exfalso. pose proof (CodeTree_length _ _ _ _ HT') as L. rewrite map_length, app_length, L1 in L.
      eapply pow2_between; [|exact L]. lia.
    + pose proof (CodeRoot_ne _ _ _ HR') as Hne'. pose proof (CodeTree_length _ _ _ _ HT') as L2.
      pose proof (f_equal (@length _) E1) as E. rewrite map_length, !app_length, L1, L2 in E.
      assert (k' = k) by (eapply pow2_between2; [| |exact (eq_sym E)]; lia). subst k'.
      rewrite map_app in E1. apply app_length_inj in E1; [|rewrite map_length; congruence].
      destruct E1 as [-> ->].
      destruct (chain_hash X k l t HT F1 a' HT') as [-> I1]. destruct (IH F2 b' HR') as [-> I2].
      cbn [tree_hash hashed_in]. auto.
Qed.

(** A list of leaves has one tree only. *)
Lemma ChainTree_fun : forall k l t, ChainTree k l t -> forall s, ChainTree k l s -> s = t.
Proof.
  induction 1 as [x|k l r x t HT IH HL]; intros s Hs.
  - inversion Hs; subst. reflexivity.
  - inversion Hs as [|k' l' r' x' t' HT' HL' E1 E2 E3]. subst k'.
    apply app_length_inj in E2; [|rewrite (ChainTree_length _ _ _ HT), (ChainTree_length _ _ _ HT'); reflexivity].
    destruct E2 as [-> E2]. apply app_inj_tail in E2. destruct E2 as [_ ->]. now rewrite (IH _ HT').
Qed.

Lemma CommitTree_fun : forall l t, CommitTree l t -> forall s, CommitTree l s -> s = t.
Proof.
  induction 1 as [k l t HT|k l r t s HT HR IH HL]; intros s' Hs; pose proof (ChainTree_length _ _ _ HT) as L1;
    inversion Hs as [k' l' t' HT' E1 E2|k' l' r' t' s2 HT' HR' HL' E1 E2]; subst;
    pose proof (ChainTree_length _ _ _ HT') as L2.
  - assert (k' = k) by (apply pow2_inj; congruence). subst k'. eapply ChainTree_fun; eassumption.
  - exfalso. rewrite app_length, L2 in L1. pose proof (CommitTree_ne _ _ HR'). eapply pow2_between; [|exact L1]. lia.
  - exfalso. rewrite app_length, L1 in L2. pose proof (CommitTree_ne _ _ HR). eapply pow2_between; [|exact L2]. lia.
  - pose proof (CommitTree_ne _ _ HR). pose proof (CommitTree_ne _ _ HR').
    pose proof (f_equal (@length _) E1) as E. rewrite !app_length, L1, L2 in E.
    assert (k' = k) by (eapply pow2_between2; [| |exact (eq_sym E)]; lia). subst k'.
    apply app_length_inj in E1; [|congruence]. destruct E1 as [-> ->].
    now rewrite (ChainTree_fun _ _ _ HT _ HT'), (IH _ HR').
Qed.

(** Every non-empty list of leaves has a tree. *)
Lemma chain_exists : forall k xs, length xs = 2 ^ k -> exists t, ChainTree k xs t.
Proof.
  induction k as [|k IH]; intros xs L.
  - destruct xs as [|x [|y xs]]; cbn in L; try lia. eexists. constructor.
  - cbn [Nat.pow] in L. destruct (IH (firstn (2 ^ k) xs)) as [t Ht]; [rewrite firstn_length; lia|].
    assert (Ls : length (skipn (2 ^ k) xs) = 2 ^ k) by (rewrite skipn_length; lia).
    destruct (exists_last (l := skipn (2 ^ k) xs)) as (r & x & E).
    { intros E. rewrite E in Ls. pose proof (Nat.pow_nonzero 2 k). cbn in Ls. lia. }
    exists (CNode t (CLeaf x)). rewrite <- (firstn_skipn (2 ^ k) xs), E. constructor; [exact Ht|].
    rewrite E, app_length in Ls. cbn [length] in Ls. lia.
Qed.

Lemma commit_exists : forall xs, 0 < length xs -> exists t, CommitTree xs t.
Proof.
  intros xs. remember (length xs) as n eqn:En. revert xs En.
  induction n as [n IH] using (well_founded_induction lt_wf). intros xs En Hn.
  pose proof (Nat.log2_spec n Hn) as [B1 B2]. set (k := Nat.log2 n) in *. cbn [Nat.pow] in B2.
  assert (Pk : 0 < 2 ^ k) by (pose proof (Nat.pow_nonzero 2 k); lia).
  destruct (chain_exists k (firstn (2 ^ k) xs)) as [t Ht]; [rewrite firstn_length; lia|].
  destruct (Nat.eq_dec n (2 ^ k)) as [E|E].
  - exists t. rewrite <- (firstn_all xs), <- En, E. econstructor. exact Ht.
  - destruct (IH (n - 2 ^ k) ltac:(lia) (skipn (2 ^ k) xs)) as [s Hs]; [rewrite skipn_length; lia|lia|].
    exists (CNode t s). rewrite <- (firstn_skipn (2 ^ k) xs). econstructor; [exact Ht|exact Hs|].
    rewrite skipn_length. lia.
Qed.

(** Equal hashes come from equal trees, or there is a collision. *)
Lemma tree_hash_binds : forall X Y t s, hashed_in X t -> hashed_in Y s -> tree_hash t = tree_hash s ->
  t = s \/ Clash X Y.
Proof.
  intros X Y. assert (Lf : forall x, leafy (item_input x)) by (intros [n|k]; eexists; reflexivity).
  induction t as [x|l IHl r IHr]; intros [y|l' r'] Ht Hs E; cbn [tree_hash hashed_in] in *.
  - unfold item_hash in E. destruct (hash_or_clash X Y _ _ Ht Hs E) as [E'|C]; [left|now right].
    now rewrite (item_input_inj _ _ E').
  - right. destruct Hs as (Hs & _). exact (leaf_node X Y _ _ _ Ht (Lf x) Hs E).
  - right. destruct Ht as (Ht & _). apply Clash_sym. exact (leaf_node Y X _ _ _ Hs (Lf y) Ht (eq_sym E)).
  - destruct Ht as (H1 & H2 & H3), Hs as (S1 & S2 & S3).
    destruct (node_node X Y _ _ _ _ H1 S1 E) as [[El Er]|C]; [|now right].
    destruct (IHl l' H2 S2 El) as [->|C]; [|now right]. destruct (IHr r' H3 S3 Er) as [->|C]; [now left|now right].
Qed.

Lemma conditions_tree : forall p u, exists t, CommitTree (condition_leaves u) t /\
  unlock_conditions_address p u = Val (tree_hash t) /\ hashed_in (fun x => In x (uc_inputs p u)) t /\
  forall s, CommitTree (condition_leaves u) s -> unlock_conditions_address p u = Val (tree_hash s).
Proof.
  intros p u. destruct (commit_exists (condition_leaves u)) as [t Ht]; [cbn; lia|]. exists t. split; [exact Ht|].
  destruct (uc_root_inputs p u) as (a & E & R).
  assert (F : Forall (fun x => In (item_input x) (uc_inputs p u)) (condition_leaves u)).
  { apply Forall_forall. intros x Hx. unfold uc_inputs. apply in_or_app. left. rewrite condition_inputs.
    now apply in_map. }
  assert (R' : CodeRoot (fun x => In x (uc_inputs p u)) (map item_hash (condition_leaves u)) a).
  { rewrite condition_inputs, map_map in R. exact R. }
  destruct (commit_hash _ _ _ Ht F a R') as [-> Hin]. split; [exact E|]. split; [exact Hin|].
  intros s Hs. destruct (commit_hash _ _ _ Hs F _ R') as [E' _]. now rewrite <- E'.
Qed.

Lemma conditions_one_tree : forall u, exists t, CommitTree (condition_leaves u) t /\
  forall s, CommitTree (condition_leaves u) s -> s = t.
Proof.
  intros u. destruct (commit_exists (condition_leaves u)) as [t Ht]; [cbn; lia|]. exists t.
  split; [exact Ht|]. exact (CommitTree_fun _ _ Ht).
Qed.

Lemma conditions_exact : forall p u v,
  (same_tree u v -> unlock_conditions_address p u = unlock_conditions_address p v) /\
  (unlock_conditions_address p u = unlock_conditions_address p v ->
   same_tree u v \/ Collision (uc_inputs p u) (uc_inputs p v)).
Proof.
  intros p u v. destruct (conditions_tree p u) as (t & T1 & T2 & T3 & T4).
  destruct (conditions_tree p v) as (s & S1 & S2 & S3 & S4). split.
  - intros (r & R1 & R2). rewrite (T4 r R1), (S4 r R2). reflexivity.
  - intros E. rewrite T2, S2 in E. assert (E' : tree_hash t = tree_hash s) by congruence.
    destruct (tree_hash_binds _ _ t s T3 S3 E') as [->|C]; [left|right; exact C]. now exists s.
Qed.

Local Open Scope N_scope.

(** ** Policies *)

Lemma Forall2_same : forall p l, Forall (fun q => forall r a b, policy_address p q = Val a -> policy_address p r = Val b -> a = b ->
    SameAddress p q r \/ Collision (policy_inputs p q) (policy_inputs p r)) l ->
  forall l' bs, Forall2 (fun x b => policy_address p x = Val b) l bs -> Forall2 (fun x b => policy_address p x = Val b) l' bs ->
  Forall2 (SameAddress p) l l' \/ Collision (concat (map (policy_inputs p) l)) (concat (map (policy_inputs p) l')).
Proof.
  induction 1 as [|q l Hq HF IH]; intros l' bs F1 F2; inversion F1; subst; inversion F2; subst; [left; constructor|].
  cbn [map concat].
  match goal with A : policy_address p q = Val ?b, B : policy_address p ?r = Val ?b |- _ =>
    destruct (Hq r b b A B eq_refl) as [C|C] end.
  - match goal with A : Forall2 _ l ?bs, B : Forall2 _ ?l' ?bs |- _ => destruct (IH _ _ A B) as [D|D] end.
    + left. now constructor.
    + right. now apply Collision_r.
  - right. now apply Collision_l.
Qed.

Lemma own_same : forall p q, Forall (fun q => forall r a b, policy_address p q = Val a -> policy_address p r = Val b -> a = b ->
    SameAddress p q r \/ Collision (policy_inputs p q) (policy_inputs p r)) (match q with PThreshold _ of => of | _ => [] end) ->
  forall r x, own_input p q = Some x -> own_input p r = Some x ->
  SameAddress p q r \/ Collision (policy_inputs p q) (policy_inputs p r).
Proof.
  intros p q IH r x Hq Hr.
  destruct q as [h|t|k|h|n of|a|u]; cbn [own_input] in Hq; try discriminate Hq;
  destruct r as [h'|t'|k'|h'|n' of'|a'|u']; cbn [own_input] in Hr; try discriminate Hr;
  repeat match goal with
  | H : match ?s with Val _ => _ | Panic _ => _ end = Some _ |- _ => destruct s as [?|] eqn:?; [|discriminate H]
  end;
  assert (E := eq_trans Hq (eq_sym Hr)); clear Hq Hr;
  assert (E' : forall a b : bytes, Some a = Some b -> a = b) by congruence;
  apply E' in E; clear E';
  rewrite ?preimage_above, ?preimage_after, ?preimage_pk, ?preimage_hash, ?preimage_threshold in E;
  apply prefix_inj, cons_tail in E; try discriminate E; apply cons_tail in E.
  - left. rewrite (u64_inj _ _ E). constructor.
  - left. apply Same_after. apply unix_seconds_inj. now rewrite (u64_inj _ _ E).
  - left. rewrite (arr_eq _ _ _ E). constructor.
  - left. rewrite (arr_eq _ _ _ E). constructor.
  - assert (En : n = n') by congruence. subst n'. apply cons_tail in E.
    match type of E with ?x :: ?a = ?y :: ?b => assert (E2 : a = b) by congruence end.
    apply opaque_concat_inj in E2. subst.
    destruct (Forall2_same p of IH of' _ (sequence_val _ _ _ _ _ Heqo0) (sequence_val _ _ _ _ _ Heqo)) as [C|C].
    + left. now constructor.
    + right. cbn [policy_inputs]. apply Collision_r. exact C.
Qed.

Lemma policy_same_eq : forall p q r a b, policy_address p q = Val a -> policy_address p r = Val b -> a = b ->
  SameAddress p q r \/ Collision (policy_inputs p q) (policy_inputs p r).
Proof.
  intros p.
  assert (Step : forall q, Forall (fun q => forall r a b, policy_address p q = Val a -> policy_address p r = Val b -> a = b ->
    SameAddress p q r \/ Collision (policy_inputs p q) (policy_inputs p r)) (match q with PThreshold _ of => of | _ => [] end) ->
    forall r a b, policy_address p q = Val a -> policy_address p r = Val b -> a = b ->
    SameAddress p q r \/ Collision (policy_inputs p q) (policy_inputs p r)).
  { intros q IH r a b Hq Hr E.
    destruct (own_input_some p q) as [Oq|[(x & ->)|(u & ->)]].
    - destruct (own_input p q) as [x|] eqn:Eq; [clear Oq|congruence].
      destruct (own_input_some p r) as [Or|[(y & ->)|(v & ->)]].
      + destruct (own_input p r) as [y|] eqn:Er; [clear Or|congruence].
        destruct (own_input_hash p q x Eq) as [Hx Ix]. destruct (own_input_hash p r y Er) as [Hy Iy].
        assert (HH : hash x = hash y) by congruence.
        destruct (hash_inj_or x y HH) as [->|[N D]]; [eapply own_same; eassumption|].
        right. exists x, y. auto.
      + left. cbn [policy_address] in Hr. injection Hr as ->. subst. now apply Same_right.
      + right. apply Collision_sym. subst b. cbn [policy_inputs policy_address] in *. eapply uc_own_clash; eassumption.
    - left. cbn [policy_address] in Hq. injection Hq as ->. subst. now apply Same_left.
    - destruct (own_input_some p r) as [Or|[(y & ->)|(v & ->)]].
      + destruct (own_input p r) as [y|] eqn:Er; [clear Or|congruence].
        right. subst b. cbn [policy_inputs policy_address] in *. eapply uc_own_clash; eassumption.
      + left. cbn [policy_address] in Hr. injection Hr as ->. subst. now apply Same_right.
      + cbn [policy_inputs policy_address] in *. destruct (conditions_exact p u v) as [_ B].
        destruct B as [C|C]; [congruence|left; now constructor|now right]. }
  intros q. induction q as [h|t|k|h|n of IH|a|u] using policy_ind'; apply Step; try constructor. exact IH.
Qed.

Lemma after_same : forall t u, odt_secs t = odt_secs u ->
  policy_address_preimage (PAfter t) = policy_address_preimage (PAfter u).
Proof.
  intros t u H. rewrite !preimage_after. do 4 f_equal. unfold s_as_u64, unix_timestamp; cbn [sval]. now rewrite H.
Qed.

Lemma policy_same_address : forall p q r, SameAddress p q r -> policy_address p q = policy_address p r.
Proof.
  intros p q. induction q as [h|t|k|h|n of IH|a|u] using policy_ind'; intros r H;
    inversion H as [q0|q0 a0 E|q0 a0 E|t0 u0 E|u0 v0 E|n0 of0 of' F]; subst; try reflexivity;
    try (rewrite E; reflexivity).
  - cbn [policy_address]. now rewrite (after_same t u0 E).
  - cbn [policy_address]. f_equal. f_equal. clear H.
    revert of' F. induction IH as [|x l Hx HF IHF]; intros of' F; inversion F; subst; [reflexivity|].
    cbn [map]. f_equal; [apply Hx; assumption|apply IHF; assumption].
  - cbn [policy_address]. now apply conditions_exact.
Qed.

Lemma policy_exact : forall p q r,
  (SameAddress p q r -> policy_address p q = policy_address p r) /\
  (policy_address p q = policy_address p r ->
   SameAddress p q r \/ Collision (policy_inputs p q) (policy_inputs p r)).
Proof.
  intros p q r. split; [apply policy_same_address|]. intros E.
  destruct (policy_address_total p q) as [a Ha]. assert (Hr : policy_address p r = Val a) by congruence.
  exact (policy_same_eq p q r a a Ha Hr eq_refl).
Qed.

(** The one-key and the two-key conditions of AddressMore.v, and conditions whose tree differs. *)
Definition other_key_uc : unlock_conditions :=
  MkUc (uwrap 64 0) (@MkVec 40 _ [sample_key x02; sample_key x02] eq_refl) (uwrap 64 1).

Lemma tree_examples : same_tree two_key_uc one_key_uc /\ ~ same_tree two_key_uc other_key_uc /\
  forall p, SameAddress p (PThreshold x01 [PUnlockConditions two_key_uc]) (PThreshold x01 [PUnlockConditions one_key_uc]).
Proof.
  assert (S : forall j k : unlock_key, ChainTree 1 [LNumber (uwrap 64 0); LKey j] (CNode (CLeaf (LNumber (uwrap 64 0))) (CLeaf (LKey j)))).
  { intros j _. apply (Chain_node 0 [_] [] _ _); [constructor|reflexivity]. }
  assert (T : forall j k, CommitTree [LNumber (uwrap 64 0); LKey j; LKey k; LNumber (uwrap 64 1)]
    (CNode (CNode (CLeaf (LNumber (uwrap 64 0))) (CLeaf (LKey j))) (CLeaf (LNumber (uwrap 64 1))))).
  { intros j k. apply (Commit_full 2). apply (Chain_node 1 [_; _] [_] _ _); [exact (S j k)|reflexivity]. }
  assert (A : same_tree two_key_uc one_key_uc).
  { eexists. split; [apply T|]. apply (Commit_split 1 [_; _] [_]); [exact (S _ (sample_key x01))| |cbn; lia].
    apply (Commit_full 0). constructor. }
  split; [exact A|]. split.
  - intros (t & H1 & H2). pose proof (CommitTree_fun _ _ (T (sample_key x01) (sample_key x02)) t H1) as E1.
    pose proof (CommitTree_fun _ _ (T (sample_key x02) (sample_key x02)) t H2) as E2. subst t.
    assert (K : sample_key x02 = sample_key x01) by congruence.
    apply (f_equal (fun k => wbytes (encode_unlock_key k))) in K. vm_compute in K. discriminate K.
  - intros p. apply Same_threshold. constructor; [|constructor]. now apply Same_conditions.
Qed.
