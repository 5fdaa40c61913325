(** Lemmas for C68 and C69. *)

From Coq Require Import Permutation.
From Verif Require Import Base Io IoProofs Model_encoding Model_common Blake2b Model_v1 Model_policy Model_consensus Model_ids
  Model_text Model_json Model_jsontypes Model_jsontext SpecWire SpecJson SpecJsonText PolicyProofs JsonProofs JsonTypeProofs JsonMore
  DocProofs JsonExamples JsonTextProofs JsonTextPrint JsonTextLib JsonTextMore SpecStack Model_stack.
Local Open Scope N_scope.
Local Open Scope jres_scope.

(** ** Nested calls *)

Lemma depth_children : forall n of stack, (depth (PThreshold n of) <= S stack)%nat ->
  Forall (fun q => (depth q <= stack)%nat) of.
Proof.
  intros n of stack H. cbn [depth] in H. apply le_S_n in H. induction of as [|q of IH]; constructor; cbn [fold_right] in H.
  - lia.
  - apply IH. lia.
Qed.

Lemma depth_deep_child : forall n of stack, (S stack < depth (PThreshold n of))%nat ->
  exists q, In q of /\ (stack < depth q)%nat.
Proof.
  intros n of stack H. cbn [depth] in H. apply le_S_n in H. induction of as [|q of IH]; cbn [fold_right] in H; [lia|].
  destruct (Nat.lt_ge_cases stack (depth q)) as [L|L]; [exists q; split; [now left|exact L]|].
  destruct IH as (r & I & R); [lia|]. exists r. split; [now right|exact R].
Qed.

Lemma depth_pos : forall x, (1 <= depth x)%nat.
Proof. intros [| | | |n of| |]; cbn [depth]; lia. Qed.

Lemma sequence_vals : forall A B (f : A -> outcome B) g l, Forall (fun a => f a = Val (g a)) l ->
  sequence_outcome (map f l) = Val (map g l).
Proof.
  intros A B f g l H. induction H as [|a l E _ IH]; [reflexivity|]. cbn [map sequence_outcome]. rewrite E. cbn [obind].
  rewrite IH. reflexivity.
Qed.

Lemma sequence_panic : forall A B (f : A -> outcome B) q l, Forall (fun a => (exists b, f a = Val b) \/ f a = Panic q) l ->
  (exists a, In a l /\ f a = Panic q) -> sequence_outcome (map f l) = Panic q.
Proof.
  intros A B f q l H. induction H as [|a l E _ IH]; intros (x & I & X); [destruct I|]. cbn [map sequence_outcome].
  destruct E as [[b E]|E]; rewrite E; cbn [obind]; [|reflexivity].
  rewrite IH; [reflexivity|]. destruct I as [->|I]; [congruence|]. now exists x.
Qed.

Lemma sequence_in : forall A B (f : A -> outcome B) l r, sequence_outcome (map f l) = Val r ->
  forall a, In a l -> exists b, f a = Val b.
Proof.
  intros A B f l. induction l as [|x l IH]; intros r E a I; [destruct I|]. cbn [map sequence_outcome] in E.
  destruct (f x) as [b|] eqn:X; cbn [obind] in E; [|discriminate].
  destruct (sequence_outcome (map f l)) as [t|]; cbn [obind] in E; [|discriminate].
  destruct I as [->|I]; [now exists b|]. eapply IH; eauto.
Qed.

Lemma encode_calls_ok : forall stack x, (depth x <= stack)%nat -> encode_policy_calls stack x = Val (encode_policy_body x).
Proof.
  induction stack as [|stack IH]; intros x H; [pose proof (depth_pos x); lia|].
  destruct x as [h|t|pk|h|n of|a|u]; try reflexivity.
  cbn [encode_policy_calls encode_policy_body]. rewrite (sequence_vals _ _ _ encode_policy_body); [reflexivity|].
  apply depth_children in H. eapply Forall_impl; [|exact H]. exact IH.
Qed.

Lemma encode_calls_overflow : forall stack x, (stack < depth x)%nat -> encode_policy_calls stack x = Panic StackOverflow.
Proof.
  induction stack as [|stack IH]; intros x H; [reflexivity|].
  destruct x as [h|t|pk|h|n of|a|u]; try (cbn [depth] in H; lia).
  cbn [encode_policy_calls]. rewrite (sequence_panic _ _ _ StackOverflow); [reflexivity| |].
  - apply Forall_forall. intros q _. destruct (Nat.lt_ge_cases stack (depth q)) as [L|L].
    + right. now apply IH.
    + left. eexists. now apply encode_calls_ok.
  - apply depth_deep_child in H as (q & I & L). exists q. split; [exact I|now apply IH].
Qed.

Theorem encode_within_ok : forall stack x, (depth x <= stack)%nat -> encode_policy_within stack x = Val (encode_policy x).
Proof. intros stack x H. unfold encode_policy_within. now rewrite encode_calls_ok. Qed.
Theorem encode_within_overflow : forall stack x, (stack < depth x)%nat -> encode_policy_within stack x = Panic StackOverflow.
Proof. intros stack x H. unfold encode_policy_within. now rewrite encode_calls_overflow. Qed.

Theorem drop_ok : forall stack x, (depth x <= stack)%nat -> drop_policy stack x = Val tt.
Proof.
  induction stack as [|stack IH]; intros x H; [pose proof (depth_pos x); lia|].
  destruct x as [h|t|pk|h|n of|a|u]; try reflexivity.
  cbn [drop_policy]. rewrite (sequence_vals _ _ _ (fun _ => tt)); [reflexivity|].
  apply depth_children in H. eapply Forall_impl; [|exact H]. exact IH.
Qed.
Theorem drop_overflow : forall stack x, (stack < depth x)%nat -> drop_policy stack x = Panic StackOverflow.
Proof.
  induction stack as [|stack IH]; intros x H; [reflexivity|].
  destruct x as [h|t|pk|h|n of|a|u]; try (cbn [depth] in H; lia).
  cbn [drop_policy]. rewrite (sequence_panic _ _ _ StackOverflow); [reflexivity| |].
  - apply Forall_forall. intros q _. destruct (Nat.lt_ge_cases stack (depth q)) as [L|L].
    + right. now apply IH.
    + left. eexists. now apply drop_ok.
  - apply depth_deep_child in H as (q & I & L). exists q. split; [exact I|now apply IH].
Qed.

Lemma opaque_depth : forall n addrs, (depth (PThreshold n (map POpaque addrs)) <= 2)%nat.
Proof.
  intros n addrs. cbn [depth]. induction addrs as [|a l IH]; cbn [map fold_right depth]; lia.
Qed.
Lemma opaque_depth_nil : forall n, depth (PThreshold n []) = 1%nat.
Proof. reflexivity. Qed.

Lemma sequence_length : forall A (l : list (outcome A)) r, sequence_outcome l = Val r -> length r = length l.
Proof.
  intros A l. induction l as [|x l IH]; intros r E; cbn [sequence_outcome] in E; [congruence || now injection E as <-|].
  destruct x as [b|]; cbn [obind] in E; [|discriminate].
  destruct (sequence_outcome l) as [t|]; cbn [obind] in E; [|discriminate].
  assert (r = b :: t) by congruence. subst. cbn [length]. f_equal. now apply IH.
Qed.

Theorem address_within_ok : forall p stack x, (depth x < stack)%nat -> policy_address_within p stack x = policy_address p x.
Proof.
  intros p. induction stack as [|stack IH]; intros x H; [lia|].
  destruct x as [h|t|pk|h|n of|a|u];
    try (cbn [policy_address_within policy_address]; rewrite encode_within_ok by (cbn [depth] in *; lia); reflexivity);
    try reflexivity.
  cbn [policy_address_within policy_address].
  assert (F : map (policy_address_within p stack) of = map (policy_address p) of).
  { apply map_ext_in. intros q I. apply IH. destruct stack as [|stack]; [pose proof (depth_pos (PThreshold n of)); lia|].
    assert (D : (depth (PThreshold n of) <= S stack)%nat) by lia. apply depth_children in D. rewrite Forall_forall in D.
    specialize (D q I). lia. }
  rewrite F. destruct (sequence_outcome (map (policy_address p) of)) as [addrs|] eqn:E; cbn [obind]; [|reflexivity].
  rewrite encode_within_ok; [reflexivity|].
  destruct of as [|q of].
  - apply sequence_length in E. destruct addrs; [|discriminate]. cbn [map]. rewrite opaque_depth_nil. cbn in H. lia.
  - pose proof (opaque_depth n addrs). cbn [depth fold_right] in H. pose proof (depth_pos q). lia.
Qed.

Theorem address_within_overflow : forall p stack x r, (stack < depth x)%nat -> policy_address_within p stack x <> Val r.
Proof.
  intros p. induction stack as [|stack IH]; intros x r H; [discriminate|].
  destruct x as [h|t|pk|h|n of|a|u]; try (cbn [depth] in H; lia).
  cbn [policy_address_within]. apply depth_deep_child in H as (q & I & L).
  destruct (sequence_outcome _) as [l|] eqn:E; cbn [obind]; [|discriminate].
  destruct (sequence_in _ _ _ _ _ E q I) as [b B]. now apply IH in B.
Qed.

Theorem decoded_usable : forall p stack bs x rest, run (decode_policy stack) bs = ROk x rest ->
  encode_policy_within stack x = Val (encode_policy x) /\ drop_policy stack x = Val tt /\
  policy_address_within p (S stack) x = policy_address p x.
Proof.
  intros p stack bs x rest H. apply decoded_policy in H as [_ D].
  split; [now apply encode_within_ok|]. split; [now apply drop_ok|]. apply address_within_ok. lia.
Qed.

(** ** Depth of policies read from text *)

Lemma insert_in : forall k v m kv, In kv (map_insert k v m) -> kv = (k, v) \/ In kv m.
Proof.
  induction m as [|[k' v'] m IH]; intros kv H; cbn [map_insert] in H.
  - destruct H as [H|[]]; now left.
  - destruct (bytes_compare k k'); cbn [In] in H |- *.
    + destruct H as [H|H]; [now left|right; now right].
    + destruct H as [H|[H|H]]; [now left|right; now left|right; now right].
    + destruct H as [H|H]; [right; now left|]. apply IH in H as [H|H]; [now left|right; now right].
Qed.

Lemma map_of_in : forall l kv, In kv (map_of l) -> In kv l.
Proof.
  intros l kv. unfold map_of.
  assert (G : forall l m, In kv (fold_left (fun m kv => map_insert (fst kv) (snd kv) m) l m) -> In kv l \/ In kv m).
  { clear l. induction l as [|[k v] l IH]; intros m H; cbn [fold_left fst snd] in H; [now right|].
    apply IH in H as [H|H]; [left; now right|]. apply insert_in in H as [H|H]; [left; left; now symmetry|now right]. }
  intros H. apply G in H as [H|[]]. exact H.
Qed.

Lemma value_of_depth : forall j, json_depth (value_of j) <= json_depth j.
Proof.
  intros j. induction j as [| | | | | |l IH|l IH] using json_rect'; try (cbn; lia).
  - cbn [value_of]. set (d := fold_right (fun x m => N.max (json_depth x) m) 0 l).
    change (json_depth (JArr l)) with (1 + d). apply JsonProofs.depth_arr. apply Forall_forall. intros x I.
    apply in_map_iff in I as (y & <- & I). rewrite Forall_forall in IH. specialize (IH y I).
    apply depth_in_arr in I. change (json_depth (JArr l)) with (1 + d) in I. lia.
  - cbn [value_of]. set (d := fold_right (fun kv m => N.max (json_depth (snd kv)) m) 0 l).
    change (json_depth (JObj l)) with (1 + d). apply JsonProofs.depth_obj. apply Forall_forall. intros x I.
    apply map_of_in in I. apply in_map_iff in I as ((k & y) & <- & I). cbn [fst snd].
    rewrite Forall_forall in IH. specialize (IH _ I). cbn [snd] in IH.
    apply depth_in_obj in I. change (json_depth (JObj l)) with (1 + d) in I. lia.
Qed.

Lemma visit_in : forall l t0 v0 t v, visit_policy t0 v0 l = JOk (t, Some v) ->
  v0 = Some v \/ exists k j, In (k, j) l /\ bytes_eqb k (ascii "policy") = true /\ v = value_of j.
Proof.
  induction l as [|[k j] l IH]; intros t0 v0 t v H; cbn [visit_policy] in H.
  - left. congruence.
  - destruct (bytes_eqb k (ascii "type")).
    + destruct (de_string j) as [s| |]; cbn [jbind] in H; try discriminate.
      apply IH in H as [H|(k' & j' & I & B & E)]; [now left|]. right. exists k', j'. split; [now right|now split].
    + destruct (bytes_eqb k (ascii "policy")) eqn:B; [|discriminate].
      apply IH in H as [H|(k' & j' & I & B' & E)].
      * right. exists k, j. split; [now left|]. split; [exact B|congruence].
      * right. exists k', j'. split; [now right|now split].
Qed.

Lemma find_in : forall k l v, find_entry k l = Some v -> exists k', In (k', v) l.
Proof.
  induction l as [|[k' w] l IH]; intros v H; cbn [find_entry] in H; [discriminate|].
  destruct (bytes_eqb k' k).
  - exists k'. left. congruence.
  - apply IH in H as [k2 I]. exists k2. now right.
Qed.

Lemma child_depth : forall v c, In c (child_documents v) -> json_depth c + 2 <= json_depth v.
Proof.
  intros v c H. destruct v as [| | | | | |l|l]; cbn [child_documents] in H; try (now destruct H).
  - destruct l as [|a [|[| | | | | |d|] l]]; try (now destruct H).
    apply depth_in_arr in H. assert (I : In (JArr d) (a :: JArr d :: l)) by (right; now left). apply depth_in_arr in I. lia.
  - destruct (find_entry (ascii "of") l) as [[| | | | | |d|]|] eqn:E; try (now destruct H).
    apply find_in in E as [k I]. apply depth_in_arr in H. apply depth_in_obj in I. lia.
Qed.

Lemma visited_depth : forall l t v, visit_policy None None l = JOk (t, Some v) -> json_depth v + 1 <= json_depth (JObj l).
Proof.
  intros l t v H. apply visit_in in H as [H|(k & j & I & _ & ->)]; [discriminate|].
  apply depth_in_obj in I. pose proof (value_of_depth j). lia.
Qed.

(** The children of a threshold that is read are read from the documents named. *)
Lemma jmap_forall2 : forall A B (f : A -> jres B) l m, jmap f l = JOk m -> Forall2 (fun a b => f a = JOk b) l m.
Proof.
  intros A B f. induction l as [|a l IH]; intros m H; cbn [jmap] in H.
  - assert (m = []) by congruence. subst. constructor.
  - fold (jmap f) in H. destruct (f a) as [b| |] eqn:E; cbn [jbind] in H; try discriminate.
    destruct (jmap f l) as [t| |]; cbn [jbind] in H; try discriminate.
    assert (m = b :: t) by congruence. subst. constructor; [exact E|now apply IH].
Qed.

Lemma de_thresh : forall (c : codec policy) v n of, de_struct (thresh_fields c) v = JOk (n, (of, tt)) ->
  Forall2 (fun j q => c_de c j = JOk q) (child_documents v) of.
Proof.
  intros c v n of H. destruct v as [| | | | | |l|l]; try discriminate; cbn [de_struct] in H.
  - destruct l as [|a l]; [discriminate|]. unfold thresh_fields in H. cbn [collect_seq plain f_de] in H.
    destruct (c_de j_u8 a) as [b| |]; cbn [jbind] in H; try discriminate.
    destruct l as [|d l]; [discriminate|]. destruct (c_de (j_list c) d) as [o| |] eqn:E; cbn [jbind] in H; try discriminate.
    destruct l; [|discriminate]. cbn [jbind] in H.
    assert (o = of) by (assert (X : (b, (o, tt)) = (n, (of, tt))) by congruence; congruence). subst o.
    cbn [j_list c_de] in E. unfold de_list in E. destruct d; try discriminate. cbn [child_documents]. now apply jmap_forall2.
  - destruct (check_entries _ _ _) as [u| |]; cbn [jbind] in H; try discriminate.
    unfold thresh_fields in H. cbn [collect_fields plain f_de f_name f_default jopt] in H.
    destruct (find_entry (ascii "n") l) as [w|]; cbn [jbind] in H; try discriminate.
    destruct (c_de j_u8 w) as [b| |]; cbn [jbind] in H; try discriminate.
    cbn [child_documents]. destruct (find_entry (ascii "of") l) as [w'|]; cbn [jbind] in H; try discriminate.
    destruct (c_de (j_list c) w') as [o| |] eqn:E; cbn [jbind] in H; try discriminate.
    assert (o = of) by (assert (X : (b, (o, tt)) = (n, (of, tt))) by congruence; congruence). subst o.
    cbn [j_list c_de] in E. unfold de_list in E. destruct w'; try discriminate. now apply jmap_forall2.
Qed.

Lemma de_policy_children : forall s j x, de_policy (S s) j = JOk x -> exists l, j = JObj l /\
  (depth x = 1%nat \/ exists t v n of, visit_policy None None l = JOk (Some t, Some v) /\ bytes_eqb t (ascii "thresh") = true /\
    x = PThreshold n of /\ Forall2 (fun c q => de_policy s c = JOk q) (child_documents v) of).
Proof.
  intros s j x H. cbn [de_policy] in H. destruct j as [| | | | | | |l]; try discriminate. exists l. split; [reflexivity|].
  destruct (visit_policy None None l) as [[[t|] [v|]]| |]; cbn [jbind jopt fst snd] in H; try discriminate.
  destruct (bytes_eqb t (ascii "above")).
  { destruct (c_de j_u64 v) as [h| |]; cbn [jbind] in H; try discriminate. left. assert (x = PAbove h) by congruence. now subst. }
  destruct (bytes_eqb t (ascii "after")).
  { destruct (c_de j_u64 v) as [h| |]; cbn [jbind] in H; try discriminate.
    destruct (from_unix_timestamp _) as [o|]; cbn [jbind jopt] in H; try discriminate. left.
    assert (x = PAfter o) by congruence. now subst. }
  destruct (bytes_eqb t (ascii "pk")).
  { destruct (c_de j_public_key v) as [h| |]; cbn [jbind] in H; try discriminate. left. assert (x = PPublicKey h) by congruence. now subst. }
  destruct (bytes_eqb t (ascii "h")).
  { destruct (c_de j_hash v) as [h| |]; cbn [jbind] in H; try discriminate. left. assert (x = PHash h) by congruence. now subst. }
  destruct (bytes_eqb t (ascii "thresh")) eqn:T.
  { destruct (de_struct _ v) as [[n [of []]]| |] eqn:E; cbn [jbind fst snd] in H; try discriminate.
    right. exists t, v, n, of. split; [reflexivity|]. split; [exact T|]. split; [congruence|]. now apply de_thresh in E. }
  destruct (bytes_eqb t (ascii "opaque")).
  { destruct (c_de j_address v) as [h| |]; cbn [jbind] in H; try discriminate. left. assert (x = POpaque h) by congruence. now subst. }
  destruct (bytes_eqb t (ascii "uc")); [|discriminate].
  destruct (c_de j_unlock_conditions v) as [h| |]; cbn [jbind] in H; try discriminate. left. assert (x = PUnlockConditions h) by congruence. now subst.
Qed.

Lemma de_policy_depth : forall s j x, de_policy s j = JOk x -> 3 * N.of_nat (depth x) <= json_depth j + 2.
Proof.
  induction s as [|s IH]; intros j x H; [discriminate|].
  apply de_policy_children in H as (l & -> & [D|(t & v & n & of & V & _ & -> & F)]).
  - rewrite D. cbn [json_depth]. lia.
  - apply visited_depth in V. cbn [depth]. rewrite Nat2N.inj_succ.
    enough (G : forall d, (forall c, In c (child_documents v) -> json_depth c + 2 <= d) ->
      3 * N.of_nat (fold_right (fun q acc => Nat.max (depth q) acc) O of) <= d).
    { specialize (G (json_depth v) (child_depth v)). lia. }
    intros d B. clear V. induction F as [|c q cs qs E _ IHF]; cbn [fold_right]; [lia|].
    pose proof (IH _ _ E). pose proof (B c (or_introl eq_refl)).
    specialize (IHF (fun c' I => B c' (or_intror I))). lia.
Qed.

Lemma from_str_inv : forall A (c : codec A) t a, from_str c t = JOk a ->
  exists j, DocumentText j t /\ json_depth j < 128 /\ c_de c j = JOk a.
Proof.
  intros A c t a H. unfold from_str in H. destruct (parse_document t) as [j|] eqn:E; cbn [jopt jbind] in H; [|discriminate].
  apply parse_document_spec in E as [E D]. exists j. split; [exact E|]. split; [exact D|exact H].
Qed.

Theorem text_policy_depth : forall stack t x, from_str (j_policy stack) t = JOk x -> (depth x <= 43)%nat.
Proof.
  intros stack t x H. apply from_str_inv in H as (j & _ & D & E). cbn [j_policy c_de] in E. apply de_policy_depth in E. lia.
Qed.

Theorem text_usable : forall p stack t x, from_str (j_policy stack) t = JOk x ->
  encode_policy_within 43 x = Val (encode_policy x) /\ drop_policy 43 x = Val tt /\
  policy_address_within p 44 x = policy_address p x.
Proof.
  intros p stack t x H. apply text_policy_depth in H.
  split; [now apply encode_within_ok|]. split; [now apply drop_ok|]. apply address_within_ok. lia.
Qed.

Lemma nest_depth : forall n, depth (nest n) = S n.
Proof. induction n as [|n IH]; [reflexivity|]. cbn [nest depth fold_right]. rewrite IH. lia. Qed.

Theorem no_stack_enough : ~ (exists stack, forall x, encode_policy_within stack x <> Panic StackOverflow).
Proof.
  intros [stack H]. apply (H (nest stack)). apply encode_within_overflow. rewrite nest_depth. lia.
Qed.

(** ** Values *)

Definition sizes (l : list json) : N := fold_right (fun x m => json_size x + m) 0 l.
Definition entry_sizes (l : list (bytes * json)) : N := fold_right (fun kv m => json_size (snd kv) + m) 0 l.

Lemma insert_size : forall k v m, entry_sizes (map_insert k v m) <= json_size v + entry_sizes m.
Proof.
  induction m as [|[k' v'] m IH]; cbn [map_insert entry_sizes fold_right snd]; [lia|].
  destruct (bytes_compare k k'); cbn [entry_sizes fold_right snd]; fold (entry_sizes m); try lia.
  fold (entry_sizes (map_insert k v m)). lia.
Qed.

Lemma map_of_size : forall l, entry_sizes (map_of l) <= entry_sizes l.
Proof.
  intros l. unfold map_of.
  assert (G : forall l m, entry_sizes (fold_left (fun m kv => map_insert (fst kv) (snd kv) m) l m) <= entry_sizes l + entry_sizes m).
  { clear l. induction l as [|[k v] l IH]; intros m; cbn [fold_left fst snd]; [cbn [entry_sizes fold_right]; lia|].
    specialize (IH (map_insert k v m)). pose proof (insert_size k v m).
    change (entry_sizes ((k, v) :: l)) with (json_size v + entry_sizes l). lia. }
  specialize (G l []). change (entry_sizes []) with 0 in G. lia.
Qed.

Lemma value_of_size : forall j, json_size (value_of j) <= json_size j.
Proof.
  intros j. induction j as [| | | | | |l IH|l IH] using json_rect'; try (cbn; lia).
  - cbn [value_of json_size]. induction IH as [|x l X _ IHl]; cbn [map fold_right]; lia.
  - cbn [value_of json_size]. fold (entry_sizes l).
    pose proof (map_of_size (map (fun kv => (fst kv, value_of (snd kv))) l)) as M.
    fold (entry_sizes (map_of (map (fun kv => (fst kv, value_of (snd kv))) l))).
    enough (entry_sizes (map (fun kv => (fst kv, value_of (snd kv))) l) <= entry_sizes l) by lia.
    clear M. induction IH as [|x l X _ IHl]; cbn [map entry_sizes fold_right snd]; [lia|].
    fold (entry_sizes l) (entry_sizes (map (fun kv => (fst kv, value_of (snd kv))) l)). lia.
Qed.

Lemma size_pos : forall j, 1 <= json_size j.
Proof. intros []; cbn [json_size]; lia. Qed.

Lemma entry_sizes_perm : forall l m, Permutation l m -> entry_sizes l = entry_sizes m.
Proof. intros l m P. induction P; cbn [entry_sizes fold_right] in *; unfold entry_sizes in *; lia. Qed.

Lemma reordered_size : forall j j', Reordered j j' -> json_size j' = json_size j.
Proof.
  intros j. induction j as [| | | | | |l IH|l IH] using json_rect'; intros j' R;
    try (apply reordered_leaf in R; cbn in R; subst j'; reflexivity).
  - apply reordered_arr_inv in R as (l' & -> & F). cbn [json_size]. f_equal.
    revert l' F. induction IH as [|x l X _ IHl]; intros l' F; inversion F; subst; cbn [fold_right]; [reflexivity|].
    rewrite (X _ H1), (IHl _ H3). reflexivity.
  - apply reordered_obj_inv in R as (m & l' & -> & F & P). cbn [json_size]. f_equal. fold (entry_sizes l) (entry_sizes l').
    rewrite <- (entry_sizes_perm _ _ P). clear P l'. revert m F.
    induction IH as [|x l X _ IHl]; intros m F; inversion F as [|? y ? m' [_ R] F']; subst; [reflexivity|].
    cbn [entry_sizes fold_right]. fold (entry_sizes l) (entry_sizes m'). rewrite (X _ R), (IHl _ F'). reflexivity.
Qed.

Lemma size_in : forall l j, In j l -> json_size j <= sizes l.
Proof.
  induction l as [|x l IH]; intros j I; [destruct I|]. cbn [sizes fold_right]. fold (sizes l).
  destruct I as [->|I]; [lia|]. apply IH in I. lia.
Qed.
Lemma entry_size_in : forall l k j, In (k, j) l -> json_size j <= entry_sizes l.
Proof.
  induction l as [|x l IH]; intros k j I; [destruct I|]. cbn [entry_sizes fold_right]. fold (entry_sizes l).
  destruct I as [->|I]; [cbn [snd]; lia|]. apply IH in I. lia.
Qed.

(** What [json!] makes for a threshold. *)
Lemma threshold_doc : forall n of j, ser_policy (PThreshold n of) = JOk j -> exists v l,
  threshold_value n of = JOk v /\ jmap ser_policy of = JOk l /\ json_size v = 3 + sizes l /\ json_size j = 2 + json_size v.
Proof.
  intros n of j H. destruct (policy_doc_distinct _ _ H) as [_ D]. rewrite ser_threshold in H. unfold threshold_value.
  cbn [j_u8 c_ser ser_u8 junwrap jbind] in H |- *.
  destruct (jmap ser_policy of) as [l| |] eqn:El; cbn [junwrap jbind] in H |- *; try discriminate.
  set (w := JObj [(ascii "n", JUint (uwrap 64 (b2n n))); (ascii "of", JArr l)]) in *.
  exists (value_of w), l. split; [reflexivity|]. split; [reflexivity|].
  assert (Dw : DistinctKeys w).
  { constructor.
    - apply distinct_names_nodup. reflexivity.
    - constructor; [constructor|]. constructor; [|constructor]. cbn [snd]. constructor. apply Forall_forall. intros y Hy.
      apply jmap_forall2 in El. clear -El Hy. induction El as [|q y' of l E _ IH]; [destruct Hy|].
      destruct Hy as [->|Hy]; [now apply policy_doc_distinct in E|now apply IH]. }
  split.
  - rewrite (reordered_size _ _ (value_of_reordered w Dw)). unfold w. cbn [json_size fold_right snd]. fold (sizes l). lia.
  - assert (E : j = JObj [(ascii "type", JStr (type_str (PThreshold n of))); (ascii "policy", value_of w)]) by congruence.
    rewrite E. cbn [json_size fold_right snd]. lia.
Qed.

Theorem written_bound : forall x j, ser_policy x = JOk j -> written_values x <= N.of_nat (depth x) * json_size j.
Proof.
  intros x. induction x as [h|t|pk|h|n of IH|a|u] using policy_ind'; intros j H; try (cbn [written_values]; lia).
  apply threshold_doc in H as (v & l & V & L & S1 & S2). cbn [written_values depth]. rewrite V.
  set (d := fold_right (fun q acc => Nat.max (depth q) acc) O of).
  enough (G : fold_right (fun q m => written_values q + m) 0 of <= N.of_nat d * sizes l) by nia.
  apply jmap_forall2 in L. clear V S1 S2 v j.
  assert (B : Forall (fun q => (depth q <= d)%nat) of).
  { unfold d. clear. induction of as [|q of IH]; constructor; cbn [fold_right]; [lia|].
    eapply Forall_impl; [|exact IH]. cbv beta. intros. lia. }
  clearbody d. revert IH B. induction L as [|q y of l E _ IHL]; intros IH B; cbn [fold_right sizes]; [lia|].
  inversion IH as [|? ? Q IH']; subst. inversion B as [|? ? Bq B']; subst. fold (sizes l).
  specialize (Q _ E). specialize (IHL IH' B').
  assert (N.of_nat (depth q) * json_size y <= N.of_nat d * json_size y) by (apply N.mul_le_mono_r; lia). lia.
Qed.

Lemma nest_written : forall n, exists j, ser_policy (nest n) = JOk j /\ json_size j = 5 * N.of_nat n + 3 /\
  2 * written_values (nest n) = 5 * N.of_nat n * N.of_nat n + 7 * N.of_nat n.
Proof.
  induction n as [|n (j & E & S1 & W)].
  - eexists. split; [reflexivity|]. split; reflexivity.
  - cbn [nest]. assert (X : exists j', ser_policy (PThreshold x01 [nest n]) = JOk j').
    { rewrite ser_threshold. cbn [j_u8 c_ser ser_u8 junwrap jbind jmap]. rewrite E. cbn [jbind junwrap]. eexists. reflexivity. }
    destruct X as [j' E']. exists j'. split; [exact E'|]. apply threshold_doc in E' as (v & l & V & L & S2 & S3).
    cbn [jmap] in L. rewrite E in L. cbn [jbind] in L. assert (l = [j]) by congruence. subst l.
    cbn [sizes fold_right] in S2. split; [lia|]. cbn [written_values fold_right]. rewrite V. lia.
Qed.

Theorem written_not_linear : ~ (exists c, forall x j, ser_policy x = JOk j -> written_values x <= c * json_size j).
Proof.
  intros [c H]. destruct (nest_written (N.to_nat (2 * c + 1))) as (j & E & S1 & W). apply H in E.
  rewrite N2Nat.id in *. nia.
Qed.

(** Reading *)
Lemma member_values_size : forall l, member_values l <= entry_sizes l.
Proof.
  induction l as [|[k v] l IH]; cbn [member_values entry_sizes fold_right fst snd]; [lia|].
  fold (member_values l) (entry_sizes l). pose proof (value_of_size v). destruct (bytes_eqb k (ascii "policy")); lia.
Qed.

Lemma child_sizes : forall v, sizes (child_documents v) <= json_size v.
Proof.
  intros v. destruct v as [| | | | | |l|l]; cbn [child_documents sizes fold_right]; try lia.
  - destruct l as [|a [|[| | | | | |d|] l]]; cbn [sizes fold_right]; try lia.
    cbn [json_size fold_right]. fold (sizes d). lia.
  - destruct (find_entry (ascii "of") l) as [[| | | | | |d|]|] eqn:E; cbn [sizes fold_right]; try lia.
    apply find_in in E as [k I]. apply entry_size_in in I. cbn [json_size] in I |- *. fold (sizes d) in I. fold (entry_sizes l). fold (sizes d). lia.
Qed.

Lemma visited_size : forall l t v, visit_policy None None l = JOk (t, Some v) -> json_size v + 1 <= json_size (JObj l).
Proof.
  intros l t v H. apply visit_in in H as [H|(k & j & I & _ & ->)]; [discriminate|].
  apply entry_size_in in I. pose proof (value_of_size j). cbn [json_size]. fold (entry_sizes l). lia.
Qed.

Lemma read_bound : forall stack j, 3 * read_values stack j <= (json_depth j + 2) * json_size j.
Proof.
  induction stack as [|stack IH]; intros j; [cbn [read_values]; lia|].
  destruct j as [| | | | | | |l]; cbn [read_values]; try lia.
  assert (M : member_values l <= json_size (JObj l)).
  { pose proof (member_values_size l). cbn [json_size]. fold (entry_sizes l). lia. }
  assert (D : 1 <= json_depth (JObj l)) by (cbn [json_depth]; lia).
  destruct (visit_policy None None l) as [[[t|] [v|]]| |] eqn:V; try nia.
  destruct (bytes_eqb t (ascii "thresh")); [|nia].
  pose proof (visited_depth _ _ _ V) as VD. pose proof (visited_size _ _ _ V) as VS. pose proof (child_sizes v) as CS.
  enough (G : 3 * fold_right (fun c m => read_values stack c + m) 0 (child_documents v) <=
    json_depth v * sizes (child_documents v)) by nia.
  pose proof (child_depth v) as CD. clear VD VS CS V M D. generalize dependent (child_documents v).
  induction l0 as [|c cs IHc]; intros CD; cbn [fold_right sizes]; [lia|]. fold (sizes cs).
  specialize (IHc (fun c' I => CD c' (or_intror I))). pose proof (CD c (or_introl eq_refl)). pose proof (IH c).
  assert ((json_depth c + 2) * json_size c <= json_depth v * json_size c) by (apply N.mul_le_mono_r; lia). lia.
Qed.

Lemma comma_length : forall ts, fold_right (fun t n => N.of_nat (length t) + n) 0 ts <= N.of_nat (length (comma_list ts)).
Proof.
  induction ts as [|t ts IH]; [cbn; lia|]. cbn [fold_right]. destruct ts as [|u ts].
  - cbn [comma_list fold_right]. lia.
  - change (comma_list (t :: u :: ts)) with (t ++ ascii "," ++ comma_list (u :: ts)). rewrite !app_length.
    remember (u :: ts) as r. lia.
Qed.

Lemma padded_length : forall P t n, Padded P t -> (forall v, P v -> n <= N.of_nat (length v)) -> n <= N.of_nat (length t).
Proof. intros P t n (w1 & v & w2 & _ & _ & V & ->) H. apply H in V. rewrite !app_length. lia. Qed.

Lemma text_size : forall j v, ValueText j v -> json_size j <= N.of_nat (length v).
Proof.
  assert (L : forall j v, ValueText j v -> 1 <= N.of_nat (length v)).
  { intros j v H. apply value_head in H as (b & r & -> & _). cbn [length]. lia. }
  intros j. induction j as [| | | | | |l IH|l IH] using json_rect'; intros v H; try (apply L in H; exact H).
  - inversion H as [| | |? ? N'| | |? ts Z F| |]; subst.
    + inversion N'.
    + rewrite !app_length. cbn [json_size fold_right]. change (length (ascii "[")) with 1%nat. lia.
    + rewrite !app_length. change (length (ascii "[")) with 1%nat. pose proof (comma_length ts) as C.
      cbn [json_size]. enough (fold_right (fun x m => json_size x + m) 0 l <= fold_right (fun t n => N.of_nat (length t) + n) 0 ts) by lia.
      clear -IH F. revert IH. induction F as [|x t l ts P _ IHF]; intros IH; cbn [fold_right]; [lia|].
      inversion IH; subst. specialize (IHF H2). pose proof (padded_length _ _ _ P H1). lia.
  - inversion H as [| | |? ? N'| | | | |? ts Z F]; subst.
    + inversion N'.
    + rewrite !app_length. cbn [json_size fold_right]. change (length (ascii "{")) with 1%nat. lia.
    + rewrite !app_length. change (length (ascii "{")) with 1%nat. pose proof (comma_length ts) as C.
      cbn [json_size]. enough (fold_right (fun kv m => json_size (snd kv) + m) 0 l <= fold_right (fun t n => N.of_nat (length t) + n) 0 ts) by lia.
      clear -IH F. revert IH. induction F as [|x t l ts (k & v & _ & P & ->) _ IHF]; intros IH; cbn [fold_right]; [lia|].
      inversion IH; subst. specialize (IHF H2). pose proof (padded_length _ _ _ P H1). rewrite !app_length. lia.
Qed.

Theorem read_linear : forall stack j t, DocumentText j t -> json_depth j < 128 ->
  read_values stack j <= 43 * N.of_nat (length t).
Proof.
  intros stack j t H D. pose proof (padded_length _ _ _ H (text_size j)). pose proof (read_bound stack j).
  assert ((json_depth j + 2) * json_size j <= 129 * json_size j) by (apply N.mul_le_mono_r; lia). lia.
Qed.

Theorem de_policy_documents : forall s j x, de_policy (S s) j = JOk x -> exists l, j = JObj l /\
  (depth x = 1%nat \/ exists t v n of, visit_policy None None l = JOk (Some t, Some v) /\
    x = PThreshold n of /\ Forall2 (fun c q => de_policy s c = JOk q) (child_documents v) of).
Proof.
  intros s j x H. apply de_policy_children in H as (l & -> & [D|(t & v & n & of & V & _ & E & F)]); exists l; (split; [reflexivity|]).
  - now left.
  - right. now exists t, v, n, of.
Qed.

Lemma nest_json : forall n, json_policy (nest n).
Proof. induction n as [|n IH]; [exact I|]. cbn [nest json_policy fold_right]. split; [exact IH|exact I]. Qed.

(** Forty-two thresholds around a policy are read from their text. *)
Lemma nest_text : exists t, from_str (j_policy 43) t = JOk (nest 42).
Proof.
  destruct (policy_survives 43 43 (nest 42)) as (j & E & _ & _ & R); [lia|split; [apply nest_json|rewrite nest_depth; lia]|].
  exists (print j). rewrite (from_str_reads _ _ j).
  - apply R. constructor.
  - apply print_document. apply plain_signed. exact (library_plain _ (j_policy 43) (lib_policy 43) _ _ E).
  - assert (X : match ser_policy (nest 42) with JOk j => json_depth j <? 128 | _ => false end = true) by (vm_compute; reflexivity).
    cbn [j_policy c_ser] in E. rewrite E in X. now apply N.ltb_lt.
Qed.
