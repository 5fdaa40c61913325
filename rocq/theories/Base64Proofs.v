(** Proofs about the base64 forms. *)

From Verif Require Import Base Model_json.
Local Open Scope N_scope.

Lemma b64_symbol_value : forall n, n < 64 -> b64_value (b64_symbol n) = Some n.
Proof.
  intros n H.
  assert (A : forallb (fun k => match b64_value (b64_symbol (N.of_nat k)) with
                                | Some v => v =? N.of_nat k | None => false end) (seq 0 64) = true)
    by (vm_compute; reflexivity).
  rewrite forallb_forall in A. specialize (A (N.to_nat n)).
  rewrite N2Nat.id in A. destruct (b64_value (b64_symbol n)) eqn:E.
  - f_equal. apply N.eqb_eq. apply A. apply in_seq. lia.
  - assert (false = true) by (apply A; apply in_seq; lia). discriminate.
Qed.

Lemma b64_value_symbol : forall c n, b64_value c = Some n -> n < 64 /\ b64_symbol n = c.
Proof.
  intros c n H.
  assert (A : forall c, match b64_value c with
                        | Some v => (v <? 64) && Byte.eqb (b64_symbol v) c | None => true end = true)
    by (intros x; destruct x; vm_compute; reflexivity).
  specialize (A c). rewrite H, andb_true_iff, N.ltb_lt in A. destruct A as [A B].
  split; [exact A|]. now apply Byte.byte_dec_bl.
Qed.

Lemma b64_value_pad : b64_value "=" = None.
Proof. reflexivity. Qed.

Lemma b64_ind : forall P : bytes -> Prop,
  P [] -> (forall a, P [a]) -> (forall a b, P [a; b]) ->
  (forall a b c r, P r -> P (a :: b :: c :: r)) -> forall l, P l.
Proof.
  intros P H0 H1 H2 H3.
  assert (A : forall n l, (length l <= n)%nat -> P l).
  { induction n as [|n IH]; intros l Hl.
    - destruct l; [exact H0|cbn in Hl; lia].
    - destruct l as [|a [|b [|c r]]]; auto. apply H3, IH. cbn in Hl. lia. }
  intros l. now apply (A (length l)).
Qed.

Lemma quad_ind : forall P : bytes -> Prop,
  P [] -> (forall a, P [a]) -> (forall a b, P [a; b]) -> (forall a b c, P [a; b; c]) ->
  (forall a b c d r, P r -> P (a :: b :: c :: d :: r)) -> forall l, P l.
Proof.
  intros P H0 H1 H2 H3 H4.
  assert (A : forall n l, (length l <= n)%nat -> P l).
  { induction n as [|n IH]; intros l Hl.
    - destruct l; [exact H0|cbn in Hl; lia].
    - destruct l as [|a [|b [|c [|d r]]]]; auto. apply H4, IH. cbn in Hl. lia. }
  intros l. now apply (A (length l)).
Qed.

Ltac divmod := repeat match goal with
  | |- context [?a / ?k] =>
      let q := fresh "q" in let r := fresh "r" in let E := fresh "E" in
      pose proof (N.div_mod a k ltac:(discriminate)) as E;
      pose proof (N.mod_lt a k ltac:(discriminate));
      generalize dependent (a / k); generalize dependent (a mod k); intros r ? q E
  | |- context [?a mod ?k] =>
      let q := fresh "q" in let r := fresh "r" in let E := fresh "E" in
      pose proof (N.div_mod a k ltac:(discriminate)) as E;
      pose proof (N.mod_lt a k ltac:(discriminate));
      generalize dependent (a / k); generalize dependent (a mod k); intros r ? q E
  end.

Lemma div_uniq : forall a b q r, r < b -> a = b * q + r -> a / b = q.
Proof. intros. symmetry. eapply N.div_unique; eauto. Qed.
Lemma mod_uniq : forall a b q r, r < b -> a = b * q + r -> a mod b = r.
Proof. intros. symmetry. eapply N.mod_unique; eauto. Qed.

(** the bytes of the model: small numbers *)
Lemma split_byte : forall b k m, k * m = 256 -> k <> 0 -> exists q r, b2n b = q * k + r /\ r < k /\ q < m /\
  b2n b / k = q /\ b2n b mod k = r.
Proof.
  intros b k m H Hk. exists (b2n b / k), (b2n b mod k).
  pose proof (N.div_mod (b2n b) k Hk). pose proof (N.mod_lt (b2n b) k Hk). pose proof (b2n_lt b).
  split; [lia|]. split; [lia|]. split; [|auto].
  apply N.div_lt_upper_bound; lia.
Qed.

Lemma join16 : forall x y, y < 16 -> (x * 16 + y) / 16 = x /\ (x * 16 + y) mod 16 = y.
Proof. intros; split; [apply (div_uniq _ _ _ y)|apply (mod_uniq _ _ x)]; lia. Qed.
Lemma join4 : forall x y, y < 4 -> (x * 4 + y) / 4 = x /\ (x * 4 + y) mod 4 = y.
Proof. intros; split; [apply (div_uniq _ _ _ y)|apply (mod_uniq _ _ x)]; lia. Qed.
Lemma join64 : forall x y, y < 64 -> (x * 64 + y) / 64 = x /\ (x * 64 + y) mod 64 = y.
Proof. intros; split; [apply (div_uniq _ _ _ y)|apply (mod_uniq _ _ x)]; lia. Qed.

Lemma b64_roundtrip : forall l, b64_decode (b64_encode l) = Some l.
Proof.
  induction l as [|a|a b|a b c r IH] using b64_ind.
  - reflexivity.
  - destruct (split_byte a 4 64 eq_refl ltac:(discriminate)) as (qa & ra & Ea & Hra & Hqa & Da & Ma).
    cbn [b64_encode b64_decode]. rewrite Da, Ma.
    rewrite !b64_symbol_value by lia.
    change (b64_value "="%byte) with (@None N). cbv beta iota.
    change (Byte.eqb "="%byte "=") with true.
    pose proof (join16 ra 0 ltac:(lia)) as [J1 J2]. rewrite N.add_0_r in J1, J2. rewrite J2, J1.
    cbn [andb N.eqb]. rewrite <- Ea. now rewrite n2b_b2n.
  - destruct (split_byte a 4 64 eq_refl ltac:(discriminate)) as (qa & ra & Ea & Hra & Hqa & Da & Ma).
    destruct (split_byte b 16 16 eq_refl ltac:(discriminate)) as (qb & rb & Eb & Hrb & Hqb & Db & Mb).
    cbn [b64_encode b64_decode]. rewrite Da, Ma, Db, Mb.
    rewrite !b64_symbol_value by lia.
    change (b64_value "="%byte) with (@None N). cbv beta iota.
    change (Byte.eqb "="%byte "=") with true.
    destruct (join16 ra qb Hqb) as [J1 J2]. rewrite J1, J2.
    pose proof (join4 rb 0 ltac:(lia)) as [J3 J4]. rewrite N.add_0_r in J3, J4. rewrite J3, J4.
    cbn [andb N.eqb]. rewrite <- Ea, <- Eb. now rewrite !n2b_b2n.
  - destruct (split_byte a 4 64 eq_refl ltac:(discriminate)) as (qa & ra & Ea & Hra & Hqa & Da & Ma).
    destruct (split_byte b 16 16 eq_refl ltac:(discriminate)) as (qb & rb & Eb & Hrb & Hqb & Db & Mb).
    destruct (split_byte c 64 4 eq_refl ltac:(discriminate)) as (qc & rc & Ec & Hrc & Hqc & Dc & Mc).
    cbn [b64_encode b64_decode]. rewrite Da, Ma, Db, Mb, Dc, Mc.
    rewrite !b64_symbol_value by lia. rewrite IH.
    destruct (join16 ra qb Hqb) as [J1 J2]. destruct (join4 rb qc Hqc) as [J3 J4].
    rewrite J1, J2, J3, J4, <- Ea, <- Eb, <- Ec. now rewrite !n2b_b2n.
Qed.

Lemma value_split : forall v k m, k * m = 64 -> k <> 0 -> v < 64 ->
  v = v / k * k + v mod k /\ v mod k < k /\ v / k < m.
Proof.
  intros v k m H Hk Hv. pose proof (N.div_mod v k Hk). pose proof (N.mod_lt v k Hk).
  split; [lia|]. split; [auto|]. apply N.div_lt_upper_bound; lia.
Qed.

Lemma b2n_small : forall n, n < 256 -> b2n (n2b n) = n.
Proof. intros. rewrite b2n_n2b. now apply N.mod_small. Qed.

Lemma if_and : forall (A : Type) (b : bool) (x y : A), (if b then Some x else None) = Some y -> b = true /\ x = y.
Proof. intros A [] x y H; [now inversion H|discriminate]. Qed.

Lemma b64_canonical : forall s l, b64_decode s = Some l -> s = b64_encode l.
Proof.
  induction s as [|s0|s0 s1|s0 s1 s2|s0 s1 s2 s3 r IH] using quad_ind; intros l H;
    cbn [b64_decode] in H; try discriminate.
  - now inversion H.
  - destruct (b64_value s0) as [v0|] eqn:E0; [|discriminate].
    destruct (b64_value s1) as [v1|] eqn:E1; [|discriminate].
    apply b64_value_symbol in E0, E1. destruct E0 as [V0 <-], E1 as [V1 <-].
    destruct (value_split v1 16 4 eq_refl ltac:(discriminate) V1) as (S1 & R1 & Q1).
    destruct (join4 v0 (v1 / 16) Q1) as [JA JB].
    assert (N0 : b2n (n2b (v0 * 4 + v1 / 16)) = v0 * 4 + v1 / 16) by (apply b2n_small; lia).
    destruct (b64_value s2) as [v2|] eqn:E2.
    + apply b64_value_symbol in E2. destruct E2 as [V2 <-].
      destruct (value_split v2 4 16 eq_refl ltac:(discriminate) V2) as (S2 & R2 & Q2).
      destruct (join16 (v1 mod 16) (v2 / 4) Q2) as [JC JD].
      assert (N1 : b2n (n2b (v1 mod 16 * 16 + v2 / 4)) = v1 mod 16 * 16 + v2 / 4) by (apply b2n_small; lia).
      destruct (b64_value s3) as [v3|] eqn:E3.
      * destruct (b64_decode r) as [l'|] eqn:Er; [|discriminate].
        apply b64_value_symbol in E3. destruct E3 as [V3 <-].
        destruct (join64 (v2 mod 4) v3 V3) as [JE JF].
        assert (N2 : b2n (n2b (v2 mod 4 * 64 + v3)) = v2 mod 4 * 64 + v3) by (apply b2n_small; lia).
        inversion H; subst l. cbn [b64_encode].
        rewrite N0, N1, N2, JA, JB, JC, JD, JE, JF, <- S1, <- S2. now rewrite <- (IH l' eq_refl).
      * apply if_and in H. destruct H as [C <-].
        rewrite !andb_true_iff in C. destruct C as [[C1 C2] C3].
        apply Byte.byte_dec_bl in C1. subst s3. destruct r; [|discriminate].
        apply N.eqb_eq in C3. cbn [b64_encode].
        rewrite N0, N1, JA, JB, JC, JD, <- S1.
        replace (v2 / 4 * 4) with v2 by lia. reflexivity.
    + apply if_and in H. destruct H as [C <-].
      rewrite !andb_true_iff in C. destruct C as [[[C1 C2] C3] C4].
      apply Byte.byte_dec_bl in C1, C2. subst s2 s3. destruct r; [|discriminate].
      apply N.eqb_eq in C4. cbn [b64_encode].
      rewrite N0, JA, JB. replace (v1 / 16 * 16) with v1 by lia. reflexivity.
Qed.

Lemma b64_length : forall l, length (b64_encode l) = (4 * ((length l + 2) / 3))%nat.
Proof.
  induction l as [|a|a b|a b c r IH] using b64_ind; try reflexivity.
  cbn [b64_encode length]. rewrite IH.
  replace (S (S (S (length r))) + 2)%nat with ((length r + 2) + 1 * 3)%nat by lia.
  rewrite Nat.div_add by lia. lia.
Qed.

Lemma b64_symbol_ascii : forall n, b2n (b64_symbol n) < 128.
Proof.
  intros n. unfold b64_symbol. destruct (Nat.lt_ge_cases (N.to_nat n) 64).
  - assert (A : forallb (fun k => b2n (nth k b64_alphabet x00) <? 128) (seq 0 64) = true) by (vm_compute; reflexivity).
    rewrite forallb_forall in A. apply N.ltb_lt, A, in_seq. lia.
  - rewrite nth_overflow; [reflexivity|]. exact H.
Qed.

Lemma b64_ascii : forall l, Forall (fun c => b2n c < 128) (b64_encode l).
Proof.
  induction l as [|a|a b|a b c r IH] using b64_ind; cbn [b64_encode];
    repeat (constructor; try apply b64_symbol_ascii; try reflexivity); assumption.
Qed.
