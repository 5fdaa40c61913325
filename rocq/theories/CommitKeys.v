(** Which public keys of unlock conditions determine the address, for any number of keys (C24). *)

From Verif Require Import Base Io Blake2b Model_encoding Model_common Model_v1 Model_merkle Model_ids SpecMerkle SpecTrace
  SpecPolicy MerkleProofs AddressProofs CommitProofs.
Local Open Scope nat_scope.

Lemma pow2_pos : forall k, 0 < 2 ^ k.
Proof. intros k. pose proof (Nat.pow_nonzero 2 k ltac:(lia)). lia. Qed.

Lemma pow2_unique : forall n k k', 2 ^ k <= n < 2 ^ S k -> 2 ^ k' <= n < 2 ^ S k' -> k = k'.
Proof.
  intros n k k' H H'. destruct (Nat.lt_trichotomy k k') as [L|[L|L]]; [|exact L|]; exfalso.
  - pose proof (Nat.pow_le_mono_r 2 (S k) k' ltac:(lia) L). lia.
  - pose proof (Nat.pow_le_mono_r 2 (S k') k ltac:(lia) L). lia.
Qed.

Lemma pow2_own : forall k, 2 ^ k <= 2 ^ k < 2 ^ S k.
Proof. intros k. cbn [Nat.pow]. pose proof (pow2_pos k). lia. Qed.

Lemma CommittedAt_zero : forall i, ~ CommittedAt 0 i.
Proof. intros i H. inversion H as [n k j B _ E1 E2|n k j B _ E1 E2]; pose proof (pow2_pos k); lia. Qed.

Lemma positions_agree : forall k (l l' : list (arr 32)),
  power_positions k l = power_positions k l' <->
  forall j, j <= k -> nth_error l (2 ^ j - 1) = nth_error l' (2 ^ j - 1).
Proof.
  intros k l l'. unfold power_positions. split.
  - intros H j Hj. apply (f_equal (fun x => nth j x None)) in H.
    set (f := fun i => nth_error l (2 ^ i - 1)) in *. set (g := fun i => nth_error l' (2 ^ i - 1)) in *.
    assert (N : forall h : nat -> option (arr 32), nth j (map h (seq 0 (S k))) None = h j).
    { intros h. rewrite (nth_indep _ None (h 0)) by (rewrite map_length, seq_length; lia).
      rewrite map_nth, seq_nth by lia. reflexivity. }
    rewrite !N in H. exact H.
  - intros H. apply map_ext_in. intros j Hj. apply in_seq in Hj. apply H. lia.
Qed.

Lemma committed_at : forall l c, Committed l c -> forall l' c', Committed l' c' -> length l = length l' ->
  (c = c' <-> forall i, CommittedAt (length l) i -> nth_error l i = nth_error l' i).
Proof.
  induction 1 as [k l L|k l r c L R HC IH]; intros l' c' HC' E.
  - destruct HC' as [k' l' L'|k' l' r' c' L' R' HC'].
    + assert (k' = k) by (apply pow2_inj; congruence). subst k'. rewrite positions_agree, L. split.
      * intros H i Hi. inversion Hi as [n k0 j B Bj E1 E2|n k0 j B Hj E1 E2]; subst.
        -- rewrite (pow2_unique _ _ _ B (pow2_own k)) in *. now apply H.
        -- rewrite (pow2_unique _ _ _ B (pow2_own k)) in *. rewrite Nat.sub_diag in Hj.
           destruct (CommittedAt_zero _ Hj).
      * intros H j Hj. apply H. econstructor; [apply pow2_own|exact Hj].
    + exfalso. rewrite app_length, L, L' in E. eapply pow2_between; [|symmetry; exact E]. lia.
  - pose proof (pow2_pos k) as Pk.
    assert (B : 2 ^ k <= length (l ++ r) < 2 ^ S k) by (rewrite app_length, L; cbn [Nat.pow]; lia).
    destruct HC' as [k' l' L'|k' l' r' c' L' R' HC'].
    + exfalso. rewrite app_length, L, L' in E. eapply pow2_between; [|exact E]. lia.
    + rewrite !app_length, L, L' in E.
      assert (k' = k) by (eapply pow2_between2; [| |exact E]; lia). subst k'.
      specialize (IH r' c' HC' ltac:(lia)).
      assert (Hin : forall j, j <= k -> 2 ^ j - 1 < 2 ^ k).
      { intros j Hj. pose proof (Nat.pow_le_mono_r 2 j k ltac:(lia) Hj). pose proof (pow2_pos j). lia. }
      split.
      * intros Ec. apply app_length_inj in Ec; [|now rewrite !power_positions_length].
        destruct Ec as [E1 E2]. rewrite positions_agree in E1. rewrite IH in E2.
        intros i Hi. inversion Hi as [n k0 j B0 Bj X1 X2|n k0 j B0 Hj X1 X2]; subst i n;
          rewrite (pow2_unique _ _ _ B0 B) in *.
        -- rewrite !nth_error_app1 by (rewrite ?L, ?L'; apply Hin; exact Bj). now apply E1.
        -- rewrite !nth_error_app2 by (rewrite ?L, ?L'; lia). rewrite L, L'.
           replace (2 ^ k + j - 2 ^ k) with j by lia. apply E2.
           rewrite app_length, L in Hj. now replace (2 ^ k + length r - 2 ^ k) with (length r) in Hj by lia.
      * intros H. f_equal.
        -- apply positions_agree. intros j Hj.
           specialize (H (2 ^ j - 1) (At_run _ k j B Hj)).
           now rewrite !nth_error_app1 in H by (rewrite ?L, ?L'; apply Hin; exact Hj).
        -- apply IH. intros i Hi.
           assert (Hi' : CommittedAt (length (l ++ r)) (2 ^ k + i)).
           { apply At_rest; [exact B|]. rewrite app_length, L.
             now replace (2 ^ k + length r - 2 ^ k) with (length r) by lia. }
           specialize (H _ Hi'). rewrite !nth_error_app2 in H by (rewrite ?L, ?L'; lia). rewrite L, L' in H.
           now replace (2 ^ k + i - 2 ^ k) with i in H by lia.
Qed.

(** Equal hashes at a position come from equal inputs, or there is a collision. *)
Lemma hash_positions : forall xs ys : list bytes,
  (forall i, nth_error (map hash xs) i = nth_error (map hash ys) i -> nth_error xs i = nth_error ys i) \/
  Collision xs ys.
Proof.
  induction xs as [|x xs IH]; intros [|y ys].
  - left. reflexivity.
  - left. intros i H. rewrite !nth_error_map in H. replace (nth_error (@nil bytes) i) with (@None bytes) in * by now destruct i.
    cbn [option_map] in H. destruct (nth_error (y :: ys) i); [discriminate H|reflexivity].
  - left. intros i H. rewrite !nth_error_map in H. replace (nth_error (@nil bytes) i) with (@None bytes) in * by now destruct i.
    cbn [option_map] in H. destruct (nth_error (x :: xs) i); [discriminate H|reflexivity].
  - destruct (IH ys) as [G|(a & b & Ia & Ib & D)].
    + destruct (list_eq_dec Byte.byte_eq_dec x y) as [->|Ne].
      * left. intros [|i] H; [reflexivity|]. apply G. exact H.
      * destruct (list_eq_dec Byte.byte_eq_dec (blake2b_256 x) (blake2b_256 y)) as [Eh|Nh].
        -- right. exists x, y. repeat split; try (now left); assumption.
        -- left. intros [|i] H; [|apply G; exact H]. exfalso. cbn [map nth_error] in H. apply Nh.
           apply (f_equal (fun o => match o with Some h => aval h | None => [] end)) in H. cbv beta iota in H.
           unfold hash in H. now rewrite !arr_of_aval in H by apply blake2b_256_length.
    + right. exists a, b. split; [now right|]. split; [now right|]. exact D.
Qed.

Lemma uc_keys : forall p u v a b,
  length (vlist (uc_public_keys u)) = length (vlist (uc_public_keys v)) ->
  unlock_conditions_address p u = Val a -> unlock_conditions_address p v = Val b ->
  (same_committed_keys u v -> a = b) /\ (a = b -> same_committed_keys u v \/ Collision (uc_inputs p u) (uc_inputs p v)).
Proof.
  intros p u v a b L Ha Hb. set (n := length (vlist (uc_public_keys u))) in *.
  pose proof (uc_leaf_length u) as Lu. pose proof (uc_leaf_length v) as Lv. fold n in Lu. rewrite <- L in Lv.
  destruct (root_of_committed p (map hash (uc_leaf_inputs u)) (map hash (uc_leaf_inputs v)) a b) as
    (c & c' & HC & HC' & D & R).
  - intros E. apply (f_equal (@length _)) in E. rewrite map_length, Lu in E. cbn in E. lia.
  - now rewrite !map_length, Lu, Lv.
  - rewrite <- unlock_leaves_inputs. apply uc_leaves_small.
  - rewrite <- unlock_leaves_inputs. exact Ha.
  - rewrite <- unlock_leaves_inputs. exact Hb.
  - assert (Lm : length (map hash (uc_leaf_inputs u)) = length (map hash (uc_leaf_inputs v)))
      by now rewrite !map_length, Lu, Lv.
    pose proof (committed_at _ _ HC _ _ HC' Lm) as P. rewrite map_length, Lu in P.
    split.
    + intros (E1 & E2 & E3). fold n in E3. apply D, P. intros [|i] Hi.
      * cbn [map nth_error uc_leaf_inputs]. unfold uc_leaf_inputs. cbn [map nth_error]. now rewrite E1.
      * specialize (E3 i Hi). unfold uc_leaf_inputs. cbn [map nth_error]. rewrite !map_app.
        destruct (Nat.lt_ge_cases i n) as [Li|Li].
        -- rewrite !nth_error_app1 by (rewrite !map_length; lia). rewrite !nth_error_map, E3. reflexivity.
        -- rewrite !nth_error_app2 by (rewrite !map_length; lia). rewrite !map_length. fold n. rewrite <- L.
           now rewrite E2.
    + intros E. destruct (R E) as [Ec|C].
      2:{ right. destruct C as (x & y & Ix & Iy & C). exists x, y. unfold uc_inputs.
          split; [apply in_or_app; now right|]. split; [apply in_or_app; now right|]. exact C. }
      rewrite P in Ec. subst b.
      destruct (unlock_conditions_binding_eq p p u v a a Ha Hb eq_refl) as [(E1 & E2 & _)|C]; [|now right].
      destruct (hash_positions (uc_leaf_inputs u) (uc_leaf_inputs v)) as [G|C].
      2:{ right. destruct C as (x & y & Ix & Iy & C). exists x, y. unfold uc_inputs.
          split; [apply in_or_app; now left|]. split; [apply in_or_app; now left|]. exact C. }
      left. split; [exact E1|]. split; [exact E2|]. fold n. intros i Hi. specialize (Ec _ Hi). apply G in Ec.
      unfold uc_leaf_inputs in Ec. cbn [nth_error] in Ec.
      destruct (Nat.lt_ge_cases i n) as [Li|Li].
      * rewrite !nth_error_app1 in Ec by (rewrite map_length; lia). rewrite !nth_error_map in Ec.
        destruct (nth_error (vlist (uc_public_keys u)) i) as [k|], (nth_error (vlist (uc_public_keys v)) i) as [k'|];
          cbn [option_map] in Ec; try discriminate Ec; [|reflexivity].
        f_equal. apply unlock_key_inj. congruence.
      * rewrite (proj2 (nth_error_None (vlist (uc_public_keys u)) i)) by lia.
        now rewrite (proj2 (nth_error_None (vlist (uc_public_keys v)) i)) by lia.
Qed.

Lemma committed_example :
  CommittedAt 6 1 /\ ~ CommittedAt 6 2 /\ CommittedAt 6 3 /\ CommittedAt 6 4 /\ CommittedAt 6 5.
Proof.
  assert (B6 : 2 ^ 2 <= 6 < 2 ^ 3) by (cbn; lia). assert (B2 : 2 ^ 1 <= 2 < 2 ^ 2) by (cbn; lia).
  repeat split.
  - exact (At_run 6 2 1 B6 ltac:(lia)).
  - assert (G : forall n i, CommittedAt n i -> n = 6 -> i <> 2).
    { intros n i H -> ->. remember 6 as n eqn:En. remember 2 as i eqn:Ei in H.
      destruct H as [n k j B Bj|n k j B Hj]; subst n; rewrite (pow2_unique _ _ _ B B6) in *.
      - destruct j as [|[|[|j]]]; cbn in Ei; lia.
      - change (2 ^ 2) with 4 in Ei. lia. }
    intros H. exact (G _ _ H eq_refl eq_refl).
  - exact (At_run 6 2 2 B6 ltac:(lia)).
  - exact (At_rest 6 2 0 B6 (At_run 2 1 0 B2 ltac:(lia))).
  - exact (At_rest 6 2 1 B6 (At_run 2 1 1 B2 ltac:(lia))).
Qed.
