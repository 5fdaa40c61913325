(** Addresses of unlock conditions and of spend policies. *)

From Verif Require Import Base Io IoProofs Spec SpecWire Codec Model_encoding EncodingProofs Blake2b Model_common
  Model_v1 Model_policy CodecTac CommonProofs V1Proofs PolicyProofs Model_consensus Model_merkle
  Model_ids SpecMerkle SpecTrace SpecPolicy MerkleProofs.
Local Open Scope N_scope.

(** ** What a root commits to *)

(** Two different strings, one satisfying [X] and the other [Y], with the same hash. *)
Definition Clash (X Y : bytes -> Prop) : Prop :=
  exists x y, X x /\ Y y /\ x <> y /\ blake2b_256 x = blake2b_256 y.

Lemma Clash_sym : forall X Y, Clash X Y -> Clash Y X.
Proof. intros X Y (x & y & Hx & Hy & N & E). exists y, x. auto. Qed.

Lemma hash_or_clash : forall (X Y : bytes -> Prop) x y, X x -> Y y -> hash x = hash y -> x = y \/ Clash X Y.
Proof.
  intros X Y x y Hx Hy H. destruct (hash_inj_or x y H) as [E|[N E]]; [now left|right]. exists x, y. auto.
Qed.

(** The input of a leaf starts with a zero byte. *)
Definition leafy (x : bytes) : Prop := exists y, x = x00 :: y.

Lemma leaf_node : forall (X Y : bytes -> Prop) x a b, X x -> leafy x -> Y (node_input a b) ->
  hash x = sum_node a b -> Clash X Y.
Proof.
  intros X Y x a b Hx (y & Ey) Hn H. destruct (hash_or_clash X Y x (node_input a b)) as [E|C]; auto.
  rewrite E in Ey. discriminate Ey.
Qed.

Lemma node_node : forall (X Y : bytes -> Prop) a b a' b', X (node_input a b) -> Y (node_input a' b') ->
  sum_node a b = sum_node a' b' -> (a = a' /\ b = b') \/ Clash X Y.
Proof.
  intros X Y a b a' b' H H' E. destruct (hash_or_clash X Y (node_input a b) (node_input a' b')) as [E'|C]; auto.
  left. now apply node_input_inj.
Qed.

Lemma map_hash_app : forall xs (l r : list hash256), l ++ r = map hash xs ->
  exists x1 x2, xs = x1 ++ x2 /\ l = map hash x1 /\ r = map hash x2.
Proof. intros xs l r H. symmetry in H. apply map_eq_app in H. destruct H as (x1 & x2 & -> & <- & <-). eauto. Qed.

Definition leaves_ok (X : bytes -> Prop) (xs : list bytes) : Prop := Forall leafy xs /\ Forall X xs.

Lemma leaves_ok_app : forall X a b, leaves_ok X (a ++ b) -> leaves_ok X a /\ leaves_ok X b.
Proof. intros X a b [H1 H2]. apply Forall_app in H1, H2. unfold leaves_ok. tauto. Qed.

Lemma last_app : forall A (l r : list A) d, r <> [] -> last (l ++ r) d = last r d.
Proof.
  induction l as [|a l IH]; intros r d H; [reflexivity|]. cbn [app last].
  destruct (l ++ r) eqn:E; [destruct l, r; try discriminate; congruence|]. rewrite <- E. now apply IH.
Qed.

Lemma tree_commits : forall X k l a, CodeTree X k l a -> forall xs, l = map hash xs -> leaves_ok X xs ->
  forall Y k' l' a', CodeTree Y k' l' a' -> forall ys, l' = map hash ys -> leaves_ok Y ys -> a = a' ->
  Clash X Y \/ (k = k' /\ nth 0 xs [] = nth 0 ys [] /\ nth 1 xs [] = nth 1 ys [] /\ last xs [] = last ys []).
Proof.
  induction 1 as [h|k l r h a HT IH HL HX]; intros xs Exs Hxs Y k' l' a' HT' ys Eys Hys E.
  - destruct xs as [|x [|x' xs]]; try discriminate Exs. cbn [map] in Exs. assert (Eh : h = hash x) by congruence.
    destruct Hxs as [Hx HX]. pose proof (Forall_inv Hx) as L. pose proof (Forall_inv HX) as HXx.
    rewrite Eh in E. destruct HT' as [h'|k' l' r' h' a' HT' HL' HX'].
    + destruct ys as [|y [|y' ys]]; try discriminate Eys. cbn [map] in Eys.
      assert (Eh' : h' = hash y) by congruence. rewrite Eh' in E.
      destruct Hys as [Hy HY]. pose proof (Forall_inv HY) as HYy.
      destruct (hash_or_clash X Y x y HXx HYy E) as [->|C]; [right; auto|now left].
    + left. exact (leaf_node X Y x a' h' HXx L HX' E).
  - apply map_hash_app in Exs. destruct Exs as (x1 & x2 & -> & El & Er).
    apply map_hash_app in Er. destruct Er as (x3 & x4 & -> & Er & Eh).
    destruct x4 as [|x [|? ?]]; try discriminate Eh. cbn [map] in Eh. assert (Eh1 : h = hash x) by congruence.
    apply leaves_ok_app in Hxs. destruct Hxs as [Hx1 Hx2]. apply leaves_ok_app in Hx2. destruct Hx2 as [_ Hx].
    destruct Hx as [Hx HXx]. pose proof (Forall_inv Hx) as L. pose proof (Forall_inv HXx) as HXx'.
    clear Eh. subst h.
    destruct HT' as [h'|k' l' r' h' a' HT' HL' HX'].
    + destruct ys as [|y [|y' ys]]; try discriminate Eys. cbn [map] in Eys. assert (Eh' : h' = hash y) by congruence.
      destruct Hys as [Hy HY]. pose proof (Forall_inv HY) as HYy. pose proof (Forall_inv Hy) as Ly.
      left. apply Clash_sym. apply (leaf_node Y X y a (hash x)); auto. now rewrite <- Eh'.
    + apply map_hash_app in Eys. destruct Eys as (y1 & y2 & -> & El' & Er').
      apply map_hash_app in Er'. destruct Er' as (y3 & y4 & -> & Er' & Eh').
      destruct y4 as [|y [|? ?]]; try discriminate Eh'. cbn [map] in Eh'. assert (Eh2 : h' = hash y) by congruence.
      apply leaves_ok_app in Hys. destruct Hys as [Hy1 Hy2]. apply leaves_ok_app in Hy2. destruct Hy2 as [_ Hy].
      destruct Hy as [Hy HYy]. pose proof (Forall_inv HYy) as HYy'.
      clear Eh'. subst h'.
      destruct (node_node X Y a (hash x) a' (hash y) HX HX' E) as [[Ea Eb]|C]; [|now left].
      destruct (hash_or_clash X Y x y HXx' HYy' Eb) as [->|C]; [|now left].
      destruct (IH x1 El Hx1 Y k' _ a' HT' y1 El' Hy1 Ea) as [C|(Ek & E0 & E1 & _)]; [now left|right].
      subst k'. split; [reflexivity|].
      pose proof (CodeTree_length _ _ _ _ HT) as L1. pose proof (CodeTree_length _ _ _ _ HT') as L2.
      rewrite El in L1. rewrite El' in L2. rewrite map_length in L1, L2. pose proof (Nat.pow_nonzero 2 k) as P.
      split; [rewrite !app_nth1 by lia; assumption|].
      rewrite !last_app by (try discriminate; destruct x3, y3; discriminate).
      split; [|reflexivity].
      destruct k as [|k].
      * cbn in HL, HL', L1, L2.
        destruct x1 as [|q [|? ?]]; try discriminate L1. destruct y1 as [|q' [|? ?]]; try discriminate L2.
        rewrite app_length in HL, HL'. cbn in HL, HL'.
        assert (r = []) by (destruct r; [reflexivity|cbn in HL; lia]).
        assert (r' = []) by (destruct r'; [reflexivity|cbn in HL'; lia]). subst r r'.
        destruct x3; [|discriminate]. destruct y3; [|discriminate]. reflexivity.
      * cbn [Nat.pow] in L1, L2. pose proof (Nat.pow_nonzero 2 k).
        rewrite !app_nth1 by lia. assumption.
Qed.

(** A root equal to the hash of a leaf is a single leaf. *)
Lemma leaf_root : forall (X Y : bytes -> Prop) x l b, CodeRoot Y l b -> forall ys, l = map hash ys -> leaves_ok Y ys ->
  X x -> leafy x -> hash x = b -> Clash X Y \/ ys = [x].
Proof.
  intros X Y x l b HR ys Eys Hys Hx Lx E. destruct HR as [k l a HT|k l r a b HT HR HL HX].
  - destruct HT as [h|k l r h a HT HL HX].
    + destruct ys as [|y [|y' ys]]; try discriminate Eys. cbn [map] in Eys. assert (Eh : h = hash y) by congruence.
      destruct Hys as [Hy HY]. pose proof (Forall_inv HY) as HYy. rewrite Eh in E.
      destruct (hash_or_clash X Y x y Hx HYy E) as [->|C]; auto.
    + left. exact (leaf_node X Y x a h Hx Lx HX E).
  - left. exact (leaf_node X Y x a b Hx Lx HX E).
Qed.

(** The committed leaves: the first, the second (if there is one) and the last. *)
Definition same_ends (xs ys : list bytes) : Prop :=
  nth 0 xs [] = nth 0 ys [] /\ ((2 <= length xs)%nat -> (2 <= length ys)%nat -> nth 1 xs [] = nth 1 ys []) /\
  last xs [] = last ys [].

Lemma tree_split : forall X k xs a, CodeTree X k (map hash xs) a -> leaves_ok X xs ->
  forall (Y : bytes -> Prop) k' y1 y2 b c, CodeTree Y k' (map hash y1) b -> CodeRoot Y (map hash y2) c ->
  (length y2 < 2 ^ k')%nat -> Y (node_input b c) -> leaves_ok Y (y1 ++ y2) -> a = sum_node b c ->
  Clash X Y \/ same_ends xs (y1 ++ y2).
Proof.
  intros X k xs a HT Hxs Y k' y1 y2 b c HB HC HL HY Hys E.
  apply leaves_ok_app in Hys. destruct Hys as [Hy1 Hy2].
  remember (map hash xs) as l eqn:El. destruct HT as [h|k l r h a HT HLr HX].
  - destruct xs as [|x [|? ?]]; try discriminate El. cbn [map] in El. assert (Eh : h = hash x) by congruence.
    destruct Hxs as [Hx HXx]. rewrite Eh in E. left.
    exact (leaf_node X Y x b c (Forall_inv HXx) (Forall_inv Hx) HY E).
  - apply map_hash_app in El. destruct El as (x1 & x2 & -> & El & Er).
    apply map_hash_app in Er. destruct Er as (x3 & x4 & -> & _ & Eh).
    destruct x4 as [|x [|? ?]]; try discriminate Eh. cbn [map] in Eh. assert (Eh1 : h = hash x) by congruence.
    clear Eh. subst h.
    apply leaves_ok_app in Hxs. destruct Hxs as [Hx1 Hx2]. apply leaves_ok_app in Hx2. destruct Hx2 as [_ [Hx HXx]].
    pose proof (Forall_inv Hx) as Lx. pose proof (Forall_inv HXx) as HXx'.
    destruct (node_node X Y a (hash x) b c HX HY E) as [[Ea Eb]|C]; [|now left].
    destruct (leaf_root X Y x _ c HC y2 eq_refl Hy2 HXx' Lx Eb) as [C|E2]; [now left|].
    destruct (tree_commits X k l a HT x1 El Hx1 Y k' _ b HB y1 eq_refl Hy1 Ea) as [C|(Ek & E0 & E1 & _)]; [now left|].
    right. subst k' y2. cbn [length] in HL.
    pose proof (CodeTree_length _ _ _ _ HT) as L1. pose proof (CodeTree_length _ _ _ _ HB) as L2.
    rewrite El in L1. rewrite map_length in L1, L2.
    destruct k as [|k]; [cbn in HL; lia|]. cbn [Nat.pow] in L1, L2. pose proof (Nat.pow_nonzero 2 k).
    unfold same_ends. rewrite !app_nth1 by lia. rewrite !last_app by (try discriminate; destruct x3; discriminate). auto.
Qed.

Lemma Clash_same_ends_sym : forall X Y xs ys, Clash Y X \/ same_ends ys xs -> Clash X Y \/ same_ends xs ys.
Proof.
  intros X Y xs ys [C|(E0 & E1 & E2)]; [left; now apply Clash_sym|right].
  split; [auto|]. split; [|auto]. intros. symmetry. apply E1; assumption.
Qed.

Lemma root_commits : forall X l a, CodeRoot X l a -> forall xs, l = map hash xs -> leaves_ok X xs ->
  forall Y l' a', CodeRoot Y l' a' -> forall ys, l' = map hash ys -> leaves_ok Y ys -> a = a' ->
  Clash X Y \/ same_ends xs ys.
Proof.
  induction 1 as [k l a HT|k l r a b HT HR IH HL HX]; intros xs Exs Hxs Y l' a' HR' ys Eys Hys E.
  - destruct HR' as [k' l' a' HT'|k' l' r' a' b' HT' HR' HL' HX'].
    + destruct (tree_commits X k l a HT xs Exs Hxs Y k' l' a' HT' ys Eys Hys E) as [C|(Ek & E0 & E1 & E2)]; [now left|].
      right. unfold same_ends. auto.
    + apply map_hash_app in Eys. destruct Eys as (y1 & y2 & -> & -> & ->). subst l. rewrite map_length in HL'.
      eapply tree_split; eassumption.
  - apply map_hash_app in Exs. destruct Exs as (x1 & x2 & -> & -> & ->). rewrite map_length in HL.
    destruct HR' as [k' l' a' HT'|k' l' r' a' b' HT' HR' HL' HX'].
    + subst l'. apply Clash_same_ends_sym. symmetry in E. eapply tree_split; eassumption.
    + apply map_hash_app in Eys. destruct Eys as (y1 & y2 & -> & -> & ->). rewrite map_length in HL'.
      apply leaves_ok_app in Hxs. destruct Hxs as [Hx1 Hx2]. apply leaves_ok_app in Hys. destruct Hys as [Hy1 Hy2].
      destruct (node_node X Y a b a' b' HX HX' E) as [[Ea Eb]|C]; [|now left].
      destruct (tree_commits X k _ a HT x1 eq_refl Hx1 Y k' _ a' HT' y1 eq_refl Hy1 Ea) as [C|(Ek & E0 & E1 & _)]; [now left|].
      destruct (IH x2 eq_refl Hx2 Y _ b' HR' y2 eq_refl Hy2 Eb) as [C|(_ & _ & E2)]; [now left|right].
      pose proof (CodeTree_length _ _ _ _ HT) as L1. pose proof (CodeTree_length _ _ _ _ HT') as L2.
      pose proof (CodeRoot_ne _ _ _ HR) as N1. pose proof (CodeRoot_ne _ _ _ HR') as N2.
      rewrite map_length in *. subst k'.
      destruct k as [|k]; [cbn in HL; lia|]. cbn [Nat.pow] in L1, L2. pose proof (Nat.pow_nonzero 2 k).
      unfold same_ends. rewrite !app_nth1 by lia. rewrite !last_app by (intros ->; cbn in *; lia). auto.
Qed.

(** ** Unlock conditions *)

Lemma unlock_leaves_inputs : forall u, unlock_leaves u = map hash (uc_leaf_inputs u).
Proof. intros u. unfold unlock_leaves, uc_leaf_inputs. cbn [map]. now rewrite map_app, map_map. Qed.

Lemma uc_leaf_length : forall u, length (uc_leaf_inputs u) = (length (vlist (uc_public_keys u)) + 2)%nat.
Proof. intros u. unfold uc_leaf_inputs. cbn [length]. rewrite app_length, map_length. cbn [length]. lia. Qed.

Lemma uc_leaves_small : forall u, N.of_nat (length (unlock_leaves u)) < 2 ^ 64.
Proof.
  intros u. rewrite unlock_leaves_inputs, map_length, uc_leaf_length.
  destruct (vec_bounds _ _ (uc_public_keys u)) as [H1 H2]. unfold isize_max in *.
  change (2 ^ 64) with 18446744073709551616. change (2 ^ 63 - 1) with 9223372036854775807 in *. lia.
Qed.

Lemma unlock_conditions_root : forall p u, exists a, unlock_conditions_address p u = Val a /\
  CodeRoot (fun x => In x (tree_inputs p (unlock_leaves u))) (unlock_leaves u) a.
Proof. intros p u. apply (root_of_spec p (unlock_leaves u)); [discriminate|apply uc_leaves_small]. Qed.

Lemma unlock_conditions_profile : forall p p' u, unlock_conditions_address p u = unlock_conditions_address p' u.
Proof.
  intros p p' u. destruct (unlock_conditions_root p u) as (a & -> & H).
  destruct (unlock_conditions_root p' u) as (a' & -> & H'). f_equal. eapply CodeRoot_fun; eassumption.
Qed.

Lemma CodeRoot_weaken : forall (X Y : bytes -> Prop), (forall x, X x -> Y x) -> forall l a, CodeRoot X l a -> CodeRoot Y l a.
Proof.
  intros X Y H l a HR. assert (HTree : forall k l a, CodeTree X k l a -> CodeTree Y k l a).
  { induction 1; constructor; auto. }
  induction HR; [econstructor; eauto|]. eapply CR_split; eauto.
Qed.

Lemma uc_leaves_leafy : forall u, Forall leafy (uc_leaf_inputs u).
Proof.
  intros u. unfold uc_leaf_inputs. constructor; [eexists; reflexivity|]. apply Forall_app. split.
  - apply Forall_forall. intros x Hx. apply in_map_iff in Hx. destruct Hx as (k & <- & _). eexists; reflexivity.
  - repeat constructor. eexists; reflexivity.
Qed.

Lemma uc_root_inputs : forall p u, exists a, unlock_conditions_address p u = Val a /\
  CodeRoot (fun x => In x (uc_inputs p u)) (map hash (uc_leaf_inputs u)) a.
Proof.
  intros p u. destruct (unlock_conditions_root p u) as (a & E & H). exists a. split; [assumption|].
  rewrite <- unlock_leaves_inputs. eapply CodeRoot_weaken; [|exact H].
  intros x Hx. unfold uc_inputs. rewrite <- unlock_leaves_inputs. apply in_or_app. now right.
Qed.

Lemma uc_leaves_ok : forall p u, leaves_ok (fun x => In x (uc_inputs p u)) (uc_leaf_inputs u).
Proof.
  intros p u. split; [apply uc_leaves_leafy|]. apply Forall_forall. intros x Hx. apply in_or_app. now left.
Qed.

Lemma unlock_key_inj : forall k k', wbytes (encode_unlock_key k) = wbytes (encode_unlock_key k') -> k = k'.
Proof.
  intros k k' H. pose proof (rt_unlock_key k []) as R. rewrite H, rt_unlock_key in R. now injection R as ->.
Qed.

Lemma unlock_key_long : forall k, (16 <= length (wbytes (encode_unlock_key k)))%nat.
Proof.
  intros k. unfold encode_unlock_key. rewrite wbytes_app_p by prop_tac.
  unfold encode_specifier, encode_arr. rewrite wbytes_write_all, app_length, arr_len. lia.
Qed.

Lemma u64_inj : forall a b : u64, le_bytes 8 (uval a) = le_bytes 8 (uval b) -> a = b.
Proof.
  intros a b H. apply uint_eq. apply (f_equal from_le) in H. rewrite !from_le_le_bytes in H.
  pose proof (uint_lt 64 a). pose proof (uint_lt 64 b).
  change (256 ^ N.of_nat 8) with (2 ^ 64) in H. now rewrite !N.mod_small in H by assumption.
Qed.

Lemma last_uc_inputs : forall u, last (uc_leaf_inputs u) [] = x00 :: le_bytes 8 (uval (uc_signatures_required u)).
Proof. intros u. unfold uc_leaf_inputs. now rewrite app_comm_cons, last_app by discriminate. Qed.

Lemma cons_tail : forall A (x : A) a b, x :: a = x :: b -> a = b.
Proof. congruence. Qed.

Lemma Clash_In : forall xs ys, Clash (fun x => In x xs) (fun y => In y ys) -> Collision xs ys.
Proof. intros xs ys H. exact H. Qed.

Lemma unlock_conditions_binding_eq : forall p p' u v a b, unlock_conditions_address p u = Val a ->
  unlock_conditions_address p' v = Val b -> a = b ->
  same_committed u v \/ Collision (uc_inputs p u) (uc_inputs p' v).
Proof.
  intros p p' u v a b Hu Hv E.
  destruct (uc_root_inputs p u) as (a' & Eu & Ru). destruct (uc_root_inputs p' v) as (b' & Ev & Rv).
  rewrite Hu in Eu. rewrite Hv in Ev. injection Eu as <-. injection Ev as <-.
  destruct (root_commits _ _ _ Ru _ eq_refl (uc_leaves_ok p u) _ _ _ Rv _ eq_refl (uc_leaves_ok p' v) E)
    as [C|(E0 & E1 & E2)]; [right; exact C|left].
  rewrite !last_uc_inputs in E2. apply cons_tail, u64_inj in E2.
  rewrite !uc_leaf_length in E1. specialize (E1 ltac:(lia) ltac:(lia)).
  unfold uc_leaf_inputs in E0. cbn [nth] in E0. apply cons_tail, u64_inj in E0.
  split; [assumption|]. split; [assumption|].
  unfold uc_leaf_inputs in E1. cbn [nth] in E1.
  destruct (vlist (uc_public_keys u)) as [|k ks], (vlist (uc_public_keys v)) as [|k' ks']; cbn [map app nth hd_error] in *.
  - reflexivity.
  - exfalso. pose proof (unlock_key_long k') as L. apply (f_equal (@length _)) in E1. cbn [length] in E1.
    rewrite le_bytes_length in E1. lia.
  - exfalso. pose proof (unlock_key_long k) as L. apply (f_equal (@length _)) in E1. cbn [length] in E1.
    rewrite le_bytes_length in E1. lia.
  - apply cons_tail in E1. now rewrite (unlock_key_inj _ _ E1).
Qed.

Lemma same_committed_eq : forall u v, (length (vlist (uc_public_keys u)) <= 1)%nat ->
  (length (vlist (uc_public_keys v)) <= 1)%nat -> same_committed u v -> u = v.
Proof.
  intros [t ks n] [t' ks' n'] H H' (E1 & E2 & E3). cbn in *. subst.
  f_equal. apply vec_eq. destruct (vlist ks) as [|k [|? ?]], (vlist ks') as [|k' [|? ?]]; cbn in *; try lia; congruence.
Qed.

(** The second key does not matter when there are exactly two keys. *)
Lemma two_keys_one_key : forall p u v k1 k2, vlist (uc_public_keys u) = [k1; k2] -> vlist (uc_public_keys v) = [k1] ->
  uc_timelock u = uc_timelock v -> uc_signatures_required u = uc_signatures_required v ->
  unlock_conditions_address p u = unlock_conditions_address p v.
Proof.
  intros p u v k1 k2 Hu Hv Et Es. change (root_of p (unlock_leaves u) = root_of p (unlock_leaves v)).
  unfold unlock_leaves. rewrite Hu, Hv, Et, Es. cbn [map app]. rewrite root_of_3.
  set (t := hash (x00 :: le_bytes 8 (uval (uc_timelock v)))).
  set (s := hash (x00 :: le_bytes 8 (uval (uc_signatures_required v)))).
  set (h1 := hash (x00 :: wbytes (encode_unlock_key k1))). set (h2 := hash (x00 :: wbytes (encode_unlock_key k2))).
  destruct (root_of_spec p [t; h1; h2; s]) as (r & -> & HR); [discriminate|reflexivity|].
  f_equal. eapply (CodeRoot_fun _ _ _ HR (fun _ => True)). apply (CR_tree _ 2).
  apply (CT_node _ 1 [t; h1] [h2] s); [|reflexivity|exact I].
  apply (CT_node _ 0 [t] [] h1); [constructor|reflexivity|exact I].
Qed.

(** ** Policies *)

Lemma sequence_map_val : forall A B (f : A -> outcome B) l, (forall x, In x l -> exists b, f x = Val b) ->
  exists bs, sequence_outcome (map f l) = Val bs /\ Forall2 (fun x b => f x = Val b) l bs.
Proof.
  induction l as [|x l IH]; intros H; [exists []; auto|]. cbn [map sequence_outcome].
  destruct (H x) as (b & E); [now left|]. destruct IH as (bs & E2 & F); [intros; apply H; now right|].
  exists (b :: bs). rewrite E. cbn [obind]. rewrite E2. auto.
Qed.

Lemma sequence_val : forall A B (f : A -> outcome B) l bs, sequence_outcome (map f l) = Val bs ->
  Forall2 (fun x b => f x = Val b) l bs.
Proof.
  induction l as [|x l IH]; intros bs H; cbn [map sequence_outcome] in H; [injection H as <-; constructor|].
  destruct (f x) as [b|] eqn:E; [|discriminate]. cbn [obind] in H.
  destruct (sequence_outcome (map f l)) as [t|] eqn:E2; [|discriminate]. cbn [obind] in H.
  injection H as <-. constructor; auto.
Qed.

Lemma policy_address_total : forall p q, exists a, policy_address p q = Val a.
Proof.
  intros p q. induction q as [h|t|k|h|n of IH|a|u] using policy_ind'; cbn [policy_address]; eauto.
  - rewrite Forall_forall in IH. destruct (sequence_map_val _ _ (policy_address p) of IH) as (bs & -> & _).
    cbn [obind]. eauto.
  - destruct (unlock_conditions_root p u) as (a & -> & _). eauto.
Qed.

Lemma policy_address_profile : forall p p' q, policy_address p q = policy_address p' q.
Proof.
  intros p p' q. induction q as [h|t|k|h|n of IH|a|u] using policy_ind'; cbn [policy_address]; try reflexivity.
  - now rewrite (map_ext_Forall _ _ IH).
  - apply unlock_conditions_profile.
Qed.

(** Induction on redactions, with the hypothesis for every child. *)
Lemma Redacted_address : forall p q r, Redacted p q r -> policy_address p r = policy_address p q.
Proof.
  intros p q. induction q as [h|t|k|h|n of IH|a|u] using policy_ind'; intros r H;
    inversion H as [q0|q0 a0 E|n0 of0 of' F]; subst; try reflexivity; try (rewrite E; reflexivity).
  cbn [policy_address]. f_equal. f_equal. clear H.
  revert of' F. induction IH as [|x l Hx HF IHF]; intros of' F; inversion F; subst; [reflexivity|].
  cbn [map]. f_equal; [apply Hx; assumption|apply IHF; assumption].
Qed.

(** *** The hashed inputs *)

Definition prefix_text : bytes := ascii "sia/address|".

Lemma preimage_above : forall h, policy_address_preimage (PAbove h) = prefix_text ++ x01 :: x01 :: le_bytes 8 (uval h).
Proof.
  intros h. unfold policy_address_preimage, encode_policy. rewrite wbytes_app_p by prop_tac. cbn [encode_policy_body type_prefix].
  rewrite wbytes_app_p by prop_tac. unfold encode_u64. rewrite wbytes_uint by lia. reflexivity.
Qed.
Lemma preimage_after : forall t, policy_address_preimage (PAfter t) =
  prefix_text ++ x01 :: x02 :: le_bytes 8 (uval (s_as_u64 (unix_timestamp t))).
Proof.
  intros h. unfold policy_address_preimage, encode_policy. rewrite wbytes_app_p by prop_tac. cbn [encode_policy_body type_prefix].
  rewrite wbytes_app_p by prop_tac. unfold encode_u64. rewrite wbytes_uint by lia. reflexivity.
Qed.
Lemma preimage_pk : forall k, policy_address_preimage (PPublicKey k) = prefix_text ++ x01 :: x03 :: aval k.
Proof.
  intros h. unfold policy_address_preimage, encode_policy. rewrite wbytes_app_p by prop_tac. cbn [encode_policy_body type_prefix].
  rewrite wbytes_app_p by prop_tac. unfold encode_hash, encode_arr. rewrite !wbytes_write_all. reflexivity.
Qed.
Lemma preimage_hash : forall k, policy_address_preimage (PHash k) = prefix_text ++ x01 :: x04 :: aval k.
Proof.
  intros h. unfold policy_address_preimage, encode_policy. rewrite wbytes_app_p by prop_tac. cbn [encode_policy_body type_prefix].
  rewrite wbytes_app_p by prop_tac. unfold encode_hash, encode_arr. rewrite !wbytes_write_all. reflexivity.
Qed.
Lemma preimage_threshold : forall n l, policy_address_preimage (PThreshold n (map POpaque l)) =
  prefix_text ++ x01 :: x05 :: n :: n2b (N.of_nat (length l) mod 256) :: concat (map (fun a => x06 :: aval a) l).
Proof.
  intros n l. unfold policy_address_preimage, encode_policy. rewrite wbytes_app_p by prop_tac. cbn [encode_policy_body type_prefix].
  rewrite !wbytes_app_p by prop_tac. rewrite wbytes_concat_map_body, map_map, map_length.
  replace (map (fun x => wbytes (encode_policy_body (POpaque x))) l) with (map (fun a : hash256 => x06 :: aval a) l).
  - reflexivity.
  - apply map_ext. intros a. cbn [encode_policy_body type_prefix]. rewrite wbytes_app_p by prop_tac.
    unfold encode_hash, encode_arr. now rewrite !wbytes_write_all.
Qed.

Lemma opaque_concat_inj : forall l l' : list hash256,
  concat (map (fun a => x06 :: aval a) l) = concat (map (fun a => x06 :: aval a) l') -> l = l'.
Proof.
  induction l as [|a l IH]; intros [|a' l'] H; cbn [map concat app] in H; try discriminate H; [reflexivity|].
  apply cons_tail in H. apply app_length_inj in H; [|now rewrite !arr_len]. destruct H as [H1 H2].
  f_equal; [now apply arr_eq|auto].
Qed.

Lemma unix_seconds_inj : forall t u, uval (s_as_u64 (unix_timestamp t)) = uval (s_as_u64 (unix_timestamp u)) ->
  odt_secs t = odt_secs u.
Proof.
  intros t u H.
  assert (E : s_as_u64 (unix_timestamp t) = s_as_u64 (unix_timestamp u)) by now apply uint_eq.
  pose proof (unix_timestamp_ok t) as Ht. pose proof (unix_timestamp_ok u) as Hu.
  unfold s_as_u64, unix_timestamp in H. cbn [sval] in H.
  rewrite !uwrap_small in H by (pose proof (Z.mod_pos_bound (odt_secs t) (2 ^ 64)); pose proof (Z.mod_pos_bound (odt_secs u) (2 ^ 64)); change (2 ^ 64)%Z with 18446744073709551616%Z in *; change (2 ^ 64) with 18446744073709551616; lia).
  change (2 ^ (Z.of_N 64 - 1))%Z with 9223372036854775808%Z in *. change (2 ^ 64)%Z with 18446744073709551616%Z in *.
  pose proof (Z.mod_pos_bound (odt_secs t) 18446744073709551616). pose proof (Z.mod_pos_bound (odt_secs u) 18446744073709551616).
  assert (Hm : (odt_secs t mod 18446744073709551616 = odt_secs u mod 18446744073709551616)%Z) by lia.
  pose proof (Z.div_mod (odt_secs t) 18446744073709551616). pose proof (Z.div_mod (odt_secs u) 18446744073709551616).
  lia.
Qed.

(** A policy that is neither opaque nor unlock conditions is hashed from a prefixed text. *)
Definition own_input (p : profile) (q : policy) : option bytes :=
  match q with
  | PUnlockConditions _ | POpaque _ => None
  | PThreshold n of =>
    match sequence_outcome (map (policy_address p) of) with
    | Val addrs => Some (policy_address_preimage (PThreshold n (map POpaque addrs)))
    | Panic _ => None
    end
  | _ => Some (policy_address_preimage q)
  end.

Lemma own_input_hash : forall p q x, own_input p q = Some x -> policy_address p q = Val (hash x) /\ In x (policy_inputs p q).
Proof.
  intros p q x H. destruct q as [h|t|k|h|n of|a|u]; cbn [own_input policy_address policy_inputs] in *;
    try discriminate H; try (assert (E : x = _) by (injection H as E; exact (eq_sym E)); rewrite E; split; [reflexivity|now left]).
  destruct (sequence_outcome (map (policy_address p) of)); [|discriminate].
  assert (E : x = policy_address_preimage (PThreshold n (map POpaque a))) by congruence.
  rewrite E. split; [reflexivity|now left].
Qed.

Lemma own_input_prefix : forall p q x, own_input p q = Some x -> exists y, x = prefix_text ++ y.
Proof.
  intros p q x H. destruct q as [h|t|k|h|n of|a|u]; cbn [own_input] in H; try discriminate H;
    try (destruct (sequence_outcome _); [|discriminate]); injection H as <-;
    eexists; reflexivity.
Qed.

(** The address of unlock conditions is the hash of a node. *)
Lemma uc_node : forall p u, exists x y, unlock_conditions_address p u = Val (sum_node x y) /\ In (node_input x y) (uc_inputs p u).
Proof.
  intros p u. destruct (uc_root_inputs p u) as (a & E & R).
  assert (L : (2 <= length (map hash (uc_leaf_inputs u)))%nat) by (rewrite map_length, uc_leaf_length; lia).
  destruct R as [k l a HT|k l r a b HT HR HL HX].
  - destruct HT as [h|k l r h a HT HL HX]; [cbn in L; lia|]. eauto.
  - eauto.
Qed.

Lemma uc_own_clash : forall p p' u q x a, unlock_conditions_address p u = Val a -> own_input p' q = Some x ->
  policy_address p' q = Val a -> Collision (uc_inputs p u) (policy_inputs p' q).
Proof.
  intros p p' u q x a Hu Hx Hq. destruct (uc_node p u) as (l & r & E & HI). rewrite Hu in E.
  destruct (own_input_hash p' q x Hx) as [E2 HI2]. rewrite Hq in E2.
  destruct (own_input_prefix p' q x Hx) as (y & ->).
  assert (HH : hash (node_input l r) = hash (prefix_text ++ y)).
  { change (sum_node l r = hash (prefix_text ++ y)). congruence. }
  destruct (hash_inj_or _ _ HH) as [D|[N D]]; [discriminate D|].
  exists (node_input l r), (prefix_text ++ y). auto.
Qed.

Lemma Collision_sym : forall xs ys, Collision xs ys -> Collision ys xs.
Proof. intros xs ys (x & y & Hx & Hy & N & E). exists y, x. auto. Qed.

Lemma Forall2_alike : forall p l, Forall (fun q => forall r a b, policy_address p q = Val a -> policy_address p r = Val b -> a = b ->
    Alike p q r \/ Collision (policy_inputs p q) (policy_inputs p r)) l ->
  forall l' bs, Forall2 (fun x b => policy_address p x = Val b) l bs -> Forall2 (fun x b => policy_address p x = Val b) l' bs ->
  Forall2 (Alike p) l l' \/ Collision (concat (map (policy_inputs p) l)) (concat (map (policy_inputs p) l')).
Proof.
  induction 1 as [|q l Hq HF IH]; intros l' bs F1 F2; inversion F1; subst; inversion F2; subst; [left; constructor|].
  cbn [map concat].
  match goal with A : policy_address p q = Val ?b, B : policy_address p ?r = Val ?b |- _ =>
    destruct (Hq r b b A B eq_refl) as [C|C] end.
  - match goal with A : Forall2 _ l ?bs, B : Forall2 _ ?l' ?bs |- _ => destruct (IH _ _ A B) as [D|D] end.
    + left. now constructor.
    + right. now apply Collision_r.
  - right. now apply Collision_l.
Qed.

Lemma prefix_inj : forall a b, prefix_text ++ a = prefix_text ++ b -> a = b.
Proof. intros a b. apply app_inv_head. Qed.

Lemma own_alike : forall p q, Forall (fun q => forall r a b, policy_address p q = Val a -> policy_address p r = Val b -> a = b ->
    Alike p q r \/ Collision (policy_inputs p q) (policy_inputs p r)) (match q with PThreshold _ of => of | _ => [] end) ->
  forall r x, own_input p q = Some x -> own_input p r = Some x ->
  Alike p q r \/ Collision (policy_inputs p q) (policy_inputs p r).
Proof.
  intros p q IH r x Hq Hr.
  destruct q as [h|t|k|h|n of|a|u]; cbn [own_input] in Hq; try discriminate Hq;
  destruct r as [h'|t'|k'|h'|n' of'|a'|u']; cbn [own_input] in Hr; try discriminate Hr;
  repeat match goal with
  | H : match ?s with Val _ => _ | Panic _ => _ end = Some _ |- _ => destruct s as [?|] eqn:?; [|discriminate H]
  end;
  assert (E := eq_trans Hq (eq_sym Hr)); clear Hq Hr;
  assert (E' : forall a b : bytes, Some a = Some b -> a = b) by congruence;
  apply E' in E; clear E';
  rewrite ?preimage_above, ?preimage_after, ?preimage_pk, ?preimage_hash, ?preimage_threshold in E;
  apply prefix_inj, cons_tail in E; try discriminate E; apply cons_tail in E.
  - left. rewrite (u64_inj _ _ E). constructor.
  - left. apply Alike_after. apply unix_seconds_inj. now rewrite (u64_inj _ _ E).
  - left. rewrite (arr_eq _ _ _ E). constructor.
  - left. rewrite (arr_eq _ _ _ E). constructor.
  - assert (En : n = n') by congruence. subst n'. apply cons_tail in E.
    match type of E with ?x :: ?a = ?y :: ?b => assert (E2 : a = b) by congruence end.
    apply opaque_concat_inj in E2. subst.
    destruct (Forall2_alike p of IH of' _ (sequence_val _ _ _ _ _ Heqo0) (sequence_val _ _ _ _ _ Heqo)) as [C|C].
    + left. now constructor.
    + right. cbn [policy_inputs]. apply Collision_r. exact C.
Qed.

Lemma own_input_some : forall p q, own_input p q <> None \/ (exists a, q = POpaque a) \/ (exists u, q = PUnlockConditions u).
Proof.
  intros p q. destruct q as [h|t|k|h|n of|a|u]; cbn [own_input]; try (left; discriminate); eauto.
  left. destruct (policy_address_total p (PThreshold n of)) as (a & E). cbn [policy_address] in E.
  destruct (sequence_outcome (map (policy_address p) of)); [discriminate|discriminate E].
Qed.

Lemma policy_binding_eq : forall p q r a b, policy_address p q = Val a -> policy_address p r = Val b -> a = b ->
  Alike p q r \/ Collision (policy_inputs p q) (policy_inputs p r).
Proof.
  intros p.
  assert (Step : forall q, Forall (fun q => forall r a b, policy_address p q = Val a -> policy_address p r = Val b -> a = b ->
    Alike p q r \/ Collision (policy_inputs p q) (policy_inputs p r)) (match q with PThreshold _ of => of | _ => [] end) ->
    forall r a b, policy_address p q = Val a -> policy_address p r = Val b -> a = b ->
    Alike p q r \/ Collision (policy_inputs p q) (policy_inputs p r)).
  { intros q IH r a b Hq Hr E.
    destruct (own_input_some p q) as [Oq|[(x & ->)|(u & ->)]].
    - destruct (own_input p q) as [x|] eqn:Eq; [clear Oq|congruence].
      destruct (own_input_some p r) as [Or|[(y & ->)|(v & ->)]].
      + destruct (own_input p r) as [y|] eqn:Er; [clear Or|congruence].
        destruct (own_input_hash p q x Eq) as [Hx Ix]. destruct (own_input_hash p r y Er) as [Hy Iy].
        assert (HH : hash x = hash y) by congruence.
        destruct (hash_inj_or x y HH) as [->|[N D]]; [eapply own_alike; eassumption|].
        right. exists x, y. auto.
      + left. cbn [policy_address] in Hr. injection Hr as ->. subst. now apply Alike_right.
      + right. apply Collision_sym. subst b. cbn [policy_inputs policy_address] in *. eapply uc_own_clash; eassumption.
    - left. cbn [policy_address] in Hq. injection Hq as ->. subst. now apply Alike_left.
    - destruct (own_input_some p r) as [Or|[(y & ->)|(v & ->)]].
      + destruct (own_input p r) as [y|] eqn:Er; [clear Or|congruence].
        right. subst b. cbn [policy_inputs policy_address] in *. eapply uc_own_clash; eassumption.
      + left. cbn [policy_address] in Hr. injection Hr as ->. subst. now apply Alike_right.
      + cbn [policy_inputs policy_address] in *.
        destruct (unlock_conditions_binding_eq p p u v a b Hq Hr E) as [C|C]; [left; now constructor|now right]. }
  intros q. induction q as [h|t|k|h|n of IH|a|u] using policy_ind'; apply Step; try constructor. exact IH.
Qed.

(** Two plain policies that are alike differ only in opaque policies. *)
Lemma Alike_plain : forall p q r, plain q -> plain r -> Alike p q r -> UpToOpaque p q r.
Proof.
  intros p q. induction q as [h|t|k|h|n of IH|a|u] using policy_ind'; intros r Pq Pr H;
    inversion H as [q0|q0 a0 E|q0 a0 E|t0 u0 E|u0 v0 E|n0 of0 of' F]; subst;
    try apply Up_same; try (apply Up_left; assumption); try (apply Up_right; assumption).
  - cbn [plain] in *. assert (t = u0) by (apply odt_eq; congruence). subst. apply Up_same.
  - cbn [plain] in Pq, Pr. clear H. apply Up_threshold.
    revert of' F Pr. induction IH as [|x l Hx HF IHF]; intros of' F Pr; inversion F as [|? y ? l' A F']; subst; [constructor|].
    cbn [fold_right] in Pq, Pr. constructor; [apply Hx; tauto|]. apply IHF; tauto.
  - cbn [plain] in *. rewrite (same_committed_eq u v0); auto. apply Up_same.
Qed.

Lemma UpToOpaque_revealed : forall p q r, revealed q -> revealed r -> UpToOpaque p q r -> q = r.
Proof.
  intros p q. induction q as [h|t|k|h|n of IH|a|u] using policy_ind'; intros r Pq Pr H;
    inversion H as [q0|q0 a0 E|q0 a0 E|n0 of0 of' F]; subst; try reflexivity; try contradiction.
  cbn [revealed] in Pq, Pr. clear H. f_equal.
  revert of' F Pr. induction IH as [|x l Hx HF IHF]; intros of' F Pr; inversion F as [|? y ? l' A F']; subst; [reflexivity|].
  cbn [fold_right] in Pq, Pr. f_equal; [apply Hx; tauto|]. apply IHF; tauto.
Qed.

Lemma UpToOpaque_address : forall p q r, UpToOpaque p q r -> policy_address p q = policy_address p r.
Proof.
  intros p q. induction q as [h|t|k|h|n of IH|a|u] using policy_ind'; intros r H;
    inversion H as [q0|q0 a0 E|q0 a0 E|n0 of0 of' F]; subst; try reflexivity; try (rewrite E; reflexivity).
  cbn [policy_address]. f_equal. f_equal. clear H.
  revert of' F. induction IH as [|x l Hx HF IHF]; intros of' F; inversion F; subst; [reflexivity|].
  cbn [map]. f_equal; [apply Hx; assumption|apply IHF; assumption].
Qed.

(** ** Deciding collisions of concrete inputs *)

Definition bytes_eqb (x y : bytes) : bool := if list_eq_dec Byte.byte_eq_dec x y then true else false.

Definition collision_free (xs ys : list bytes) : bool :=
  forallb (fun x => forallb (fun y => bytes_eqb x y || negb (bytes_eqb (blake2b_256 x) (blake2b_256 y))) ys) xs.

Lemma collision_free_spec : forall xs ys, collision_free xs ys = true -> ~ Collision xs ys.
Proof.
  intros xs ys H (x & y & Hx & Hy & N & E). unfold collision_free in H.
  rewrite forallb_forall in H. specialize (H x Hx). rewrite forallb_forall in H. specialize (H y Hy).
  unfold bytes_eqb in H. destruct (list_eq_dec Byte.byte_eq_dec x y); [contradiction|].
  destruct (list_eq_dec Byte.byte_eq_dec (blake2b_256 x) (blake2b_256 y)); [discriminate|contradiction].
Qed.
