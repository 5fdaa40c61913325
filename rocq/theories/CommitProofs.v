(** Exactly which leaves the accumulator's root depends on. *)

From Verif Require Import Base Io Model_encoding Model_common Blake2b Model_v1 Model_policy Model_consensus Model_merkle
  Model_ids SpecMerkle SpecTrace MerkleProofs SpecPolicy AddressProofs.
Local Open Scope N_scope.

Lemma power_positions_S : forall k (l r : list hash256) h, length l = (2 ^ k)%nat -> length (r ++ [h]) = (2 ^ k)%nat ->
  power_positions (S k) (l ++ r ++ [h]) = power_positions k l ++ [Some h].
Proof.
  intros k l r h L1 L2. unfold power_positions. rewrite (seq_S (S k)), map_app. cbn [Nat.add map]. f_equal.
  - apply map_ext_in. intros i Hi. apply in_seq in Hi. rewrite nth_error_app1; [reflexivity|].
    rewrite L1. pose proof (Nat.pow_le_mono_r 2 i k). pose proof (Nat.pow_nonzero 2 i). lia.
  - f_equal. rewrite app_length in L2. cbn [length] in L2.
    rewrite nth_error_app2 by (rewrite L1; cbn [Nat.pow]; lia).
    rewrite nth_error_app2 by (rewrite L1; cbn [Nat.pow]; lia).
    replace (2 ^ S k - 1 - length l - length r)%nat with 0%nat by (cbn [Nat.pow]; lia). reflexivity.
Qed.

Lemma tree_positions_bind : forall X k l a, CodeTree X k l a -> forall Y l' b, CodeTree Y k l' b -> a = b ->
  Clash X Y \/ power_positions k l = power_positions k l'.
Proof.
  induction 1 as [h|k l r h a HT IH HL HX]; intros Y l' b HT' E.
  - inversion HT' as [h' Ek El Eb|]; subst. right. reflexivity.
  - inversion HT' as [|k' l1 r' h' a' HT1 HL' HX' Ek El Eb].
    assert (E2 : sum_node a h = sum_node a' h') by congruence.
    destruct (node_node X Y a h a' h' HX HX' E2) as [[Ea Eh]|C]; [|now left].
    destruct (IH Y l1 a' HT1 Ea) as [C|P]; [now left|right].
    rewrite !power_positions_S; try assumption; try (eapply CodeTree_length; eassumption). now rewrite P, Eh.
Qed.

Lemma tree_positions_det : forall X k l a, CodeTree X k l a -> forall Y l' b, CodeTree Y k l' b ->
  power_positions k l = power_positions k l' -> a = b.
Proof.
  induction 1 as [h|k l r h a HT IH HL HX]; intros Y l' b HT' E.
  - inversion HT' as [h' Ek El Eb|]; subst. unfold power_positions in E. cbn in E. congruence.
  - inversion HT' as [|k' l1 r' h' a' HT1 HL' HX' Ek El Eb]; subst.
    rewrite !power_positions_S in E; try assumption; try (eapply CodeTree_length; eassumption).
    apply app_inj_tail in E. destruct E as [E1 E2]. rewrite (IH _ _ _ HT1 E1). congruence.
Qed.

Lemma power_positions_length : forall k l, length (power_positions k l) = S k.
Proof. intros k l. unfold power_positions. now rewrite map_length, seq_length. Qed.

Lemma Committed_fun : forall l c, Committed l c -> forall c', Committed l c' -> c = c'.
Proof.
  induction 1 as [k l L|k l r c L R HC IH]; intros c' H'.
  - inversion H' as [k' l' L' E1 E2|k' l' r' c0 L' R' HC' E1 E2]; subst.
    + assert (k = k') by (apply pow2_inj; congruence). now subst.
    + exfalso. rewrite app_length, L' in L. exact (pow2_between _ _ _ R' L).
  - inversion H' as [k' l' L' E1 E2|k' l' r' c0 L' R' HC' E1 E2]; subst.
    + exfalso. rewrite app_length, L in L'. exact (pow2_between _ _ _ R L').
    + assert (E : length (l' ++ r') = length (l ++ r)) by now rewrite E1. rewrite !app_length, L, L' in E.
      assert (k = k') by (eapply pow2_between2; [exact R'|exact R|lia]). subst k'.
      apply app_length_inj in E1; [|congruence]. destruct E1 as [-> ->]. f_equal. now apply IH.
Qed.

Lemma root_committed : forall X l a, CodeRoot X l a -> exists c, Committed l c.
Proof.
  induction 1 as [k l a HT|k l r a b HT HR IH HL HX].
  - exists (power_positions k l). constructor. eapply CodeTree_length; eassumption.
  - destruct IH as (c & HC). exists (power_positions k l ++ c). apply Com_more; auto.
    + eapply CodeTree_length; eassumption.
    + split; [eapply CodeRoot_ne; eassumption|assumption].
Qed.

Lemma root_committed_bind : forall X l a, CodeRoot X l a -> forall Y l' b, CodeRoot Y l' b -> length l = length l' -> a = b ->
  forall c c', Committed l c -> Committed l' c' -> Clash X Y \/ c = c'.
Proof.
  induction 1 as [k l a HT|k l r a b HT HR IH HL HX]; intros Y l' a' HR' L E c c' HC HC'.
  - pose proof (CodeTree_length _ _ _ _ HT) as L1.
    rewrite (Committed_fun _ _ HC _ (Com_run k l L1)).
    destruct HR' as [k' l' a' HT'|k' l' r' a' b' HT' HR' HL' HX'].
    + pose proof (CodeTree_length _ _ _ _ HT') as L2. assert (k' = k) by (apply pow2_inj; congruence). subst k'.
      rewrite (Committed_fun _ _ HC' _ (Com_run k l' L2)). eapply tree_positions_bind; eassumption.
    + exfalso. rewrite app_length, L1, (CodeTree_length _ _ _ _ HT') in L. pose proof (CodeRoot_ne _ _ _ HR').
      eapply pow2_between; [|symmetry; exact L]. lia.
  - pose proof (CodeTree_length _ _ _ _ HT) as L1. pose proof (CodeRoot_ne _ _ _ HR) as N1.
    destruct (root_committed _ _ _ HR) as (cr & HCr).
    rewrite (Committed_fun _ _ HC _ (Com_more k l r cr L1 (conj N1 HL) HCr)).
    destruct HR' as [k' l' a' HT'|k' l' r' a' b' HT' HR' HL' HX'].
    + exfalso. rewrite app_length, L1, (CodeTree_length _ _ _ _ HT') in L. eapply pow2_between; [|exact L]. lia.
    + pose proof (CodeTree_length _ _ _ _ HT') as L2. pose proof (CodeRoot_ne _ _ _ HR') as N2.
      destruct (root_committed _ _ _ HR') as (cr' & HCr').
      rewrite (Committed_fun _ _ HC' _ (Com_more k' l' r' cr' L2 (conj N2 HL') HCr')).
      rewrite !app_length, L1, L2 in L.
      assert (k' = k) by (eapply pow2_between2; [| |exact L]; lia). subst k'.
      destruct (node_node X Y a b a' b' HX HX' E) as [[Ea Eb]|C]; [|now left].
      destruct (tree_positions_bind _ _ _ _ HT _ _ _ HT' Ea) as [C|P]; [now left|].
      destruct (IH Y r' b' HR' ltac:(lia) Eb cr cr' HCr HCr') as [C|Q]; [now left|right]. now rewrite P, Q.
Qed.

Lemma root_committed_det : forall X l a, CodeRoot X l a -> forall Y l' b, CodeRoot Y l' b -> length l = length l' ->
  forall c, Committed l c -> Committed l' c -> a = b.
Proof.
  induction 1 as [k l a HT|k l r a b HT HR IH HL HX]; intros Y l' a' HR' L c HC HC'.
  - pose proof (CodeTree_length _ _ _ _ HT) as L1.
    pose proof (Committed_fun _ _ HC _ (Com_run k l L1)) as E1.
    destruct HR' as [k' l' a' HT'|k' l' r' a' b' HT' HR' HL' HX'].
    + pose proof (CodeTree_length _ _ _ _ HT') as L2. assert (k' = k) by (apply pow2_inj; congruence). subst k'.
      pose proof (Committed_fun _ _ HC' _ (Com_run k l' L2)) as E2.
      eapply tree_positions_det; [eassumption|eassumption|congruence].
    + exfalso. rewrite app_length, L1, (CodeTree_length _ _ _ _ HT') in L. pose proof (CodeRoot_ne _ _ _ HR').
      eapply pow2_between; [|symmetry; exact L]. lia.
  - pose proof (CodeTree_length _ _ _ _ HT) as L1. pose proof (CodeRoot_ne _ _ _ HR) as N1.
    destruct (root_committed _ _ _ HR) as (cr & HCr).
    pose proof (Committed_fun _ _ HC _ (Com_more k l r cr L1 (conj N1 HL) HCr)) as E1.
    destruct HR' as [k' l' a' HT'|k' l' r' a' b' HT' HR' HL' HX'].
    + exfalso. rewrite app_length, L1, (CodeTree_length _ _ _ _ HT') in L. eapply pow2_between; [|exact L]. lia.
    + pose proof (CodeTree_length _ _ _ _ HT') as L2. pose proof (CodeRoot_ne _ _ _ HR') as N2.
      destruct (root_committed _ _ _ HR') as (cr' & HCr').
      pose proof (Committed_fun _ _ HC' _ (Com_more k' l' r' cr' L2 (conj N2 HL') HCr')) as E2.
      rewrite !app_length, L1, L2 in L.
      assert (k' = k) by (eapply pow2_between2; [| |exact L]; lia). subst k'.
      rewrite E1 in E2. apply app_length_inj in E2; [|now rewrite !power_positions_length]. destruct E2 as [E2 E3].
      rewrite (tree_positions_det _ _ _ _ HT _ _ _ HT' E2). f_equal.
      eapply IH; [exact HR'|lia|exact HCr|now rewrite E3].
Qed.

Lemma root_of_committed : forall p l l' r r', l <> [] -> length l = length l' -> N.of_nat (length l) < 2 ^ 64 ->
  root_of p l = Val r -> root_of p l' = Val r' ->
  exists c c', Committed l c /\ Committed l' c' /\ (c = c' -> r = r') /\
    (r = r' -> c = c' \/ Collision (tree_inputs p l) (tree_inputs p l')).
Proof.
  intros p l l' r r' Hne L B Hr Hr'.
  destruct (root_of_spec p l Hne B) as (q & E & R).
  destruct (root_of_spec p l') as (q' & E' & R'); [intros ->; destruct l; [congruence|discriminate L]|now rewrite <- L|].
  assert (q = r) by congruence. assert (q' = r') by congruence. subst q q'.
  destruct (root_committed _ _ _ R) as (c & HC). destruct (root_committed _ _ _ R') as (c' & HC').
  exists c, c'. split; [exact HC|]. split; [exact HC'|]. split.
  - intros ->. exact (root_committed_det _ _ _ R _ _ _ R' L c' HC HC').
  - intros Er. destruct (root_committed_bind _ _ _ R _ _ _ R' L Er c c' HC HC') as [C|C]; [right; exact C|now left].
Qed.
