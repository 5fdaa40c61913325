(** Which error the parsers of hexadecimal texts give. *)

From Verif Require Import Base Io Spec SpecUtf8 SpecText SpecReject Blake2b Model_encoding Model_common Model_v1
  Model_text CurrencyProofs TextProofs TextMore TextTotal.
Local Open Scope N_scope.

Lemma not_digit : forall c, decode_hex_char c = None -> forall v, ~ hex_digit c v.
Proof. intros c E v H. apply hex_digit_decode in H. destruct H as [H _]. congruence. Qed.
Lemma a_digit : forall c v, decode_hex_char c = Some v -> exists w, hex_digit c w.
Proof. intros c v E. apply decode_hex_char_some in E. destruct E as [_ H]. eauto. Qed.
Lemma bad_decode : forall c, (forall v, ~ hex_digit c v) -> decode_hex_char c = None.
Proof. intros c H. destruct (decode_hex_char c) as [v|] eqn:E; [|reflexivity]. apply a_digit in E. destruct E as [w E]. now destruct (H w). Qed.

Lemma first_bad_cons : forall d s c i, decode_hex_char d <> None -> FirstBad s c i -> FirstBad (d :: s) c (i + 1).
Proof.
  intros d s c i D (b & a & E & I & F & N). exists (d :: b), a. split; [cbn; now rewrite E|].
  split; [cbn [length]; lia|]. split; [|exact N]. constructor; [|exact F].
  destruct (decode_hex_char d) as [v|] eqn:Ed; [|congruence]. eapply a_digit; eassumption.
Qed.
Lemma first_bad_head : forall d s, decode_hex_char d = None -> FirstBad (d :: s) d 0.
Proof. intros d s D. exists [], s. repeat split; [constructor|now apply not_digit]. Qed.

Lemma first_bad_inv : forall d s c i, FirstBad (d :: s) c i ->
  (decode_hex_char d = None /\ c = d /\ i = 0) \/
  (decode_hex_char d <> None /\ exists i', i = i' + 1 /\ FirstBad s c i').
Proof.
  intros d s c i (b & a & E & I & F & N). destruct b as [|x b]; cbn in E; injection E as -> E.
  - left. split; [now apply bad_decode|]. now split.
  - right. inversion F as [|? ? [v Hv] F']; subst. apply hex_digit_decode in Hv. destruct Hv as [Hv _]. split; [congruence|].
    exists (N.of_nat (length b)). split; [cbn [length]; lia|]. now exists b, a.
Qed.

Lemma hex_pairs_error : forall n s i e, (length s <= n)%nat -> Nat.odd (length s) = false ->
  (hex_pairs i s = inr e <-> exists c k, e = InvalidHexCharacter c (i + k) /\ FirstBad s c k).
Proof.
  induction n as [|n IH]; intros s i e L O.
  { destruct s; [|cbn in L; lia]. split; [discriminate|]. intros (c & k & _ & b & a & E & _). now destruct b. }
  destruct s as [|d1 [|d2 s]].
  - split; [discriminate|]. intros (c & k & _ & b & a & E & _). now destruct b.
  - discriminate O.
  - cbn [length] in L. change (Nat.odd (length s) = false) in O. cbn [hex_pairs].
    destruct (decode_hex_char d1) as [v1|] eqn:E1.
    2:{ split.
        - intros [= <-]. exists d1, 0. rewrite N.add_0_r. split; [reflexivity|now apply first_bad_head].
        - intros (c & k & -> & B). apply first_bad_inv in B. destruct B as [(_ & -> & ->)|(B & _)]; [|congruence].
          now rewrite N.add_0_r. }
    assert (D1 : decode_hex_char d1 <> None) by congruence.
    destruct (decode_hex_char d2) as [v2|] eqn:E2.
    2:{ split.
        - intros [= <-]. exists d2, 1. split; [reflexivity|]. apply (first_bad_cons _ _ _ 0 D1). now apply first_bad_head.
        - intros (c & k & -> & B). apply first_bad_inv in B. destruct B as [(B & _)|(_ & k' & -> & B)]; [congruence|].
          apply first_bad_inv in B. destruct B as [(_ & -> & ->)|(B & _)]; [reflexivity|congruence]. }
    assert (D2 : decode_hex_char d2 <> None) by congruence.
    assert (L' : (length s <= n)%nat) by lia. pose proof (IH s (i + 2) e L' O) as H.
    transitivity (hex_pairs (i + 2) s = inr e).
    { destruct (hex_pairs (i + 2) s) as [t|x]; split; intros Q; try discriminate Q; injection Q as ->; reflexivity. }
    rewrite H. split.
    + intros (c & k & -> & B). exists c, (k + 1 + 1). split; [f_equal; lia|]. now apply first_bad_cons, first_bad_cons.
    + intros (c & k & -> & B). apply first_bad_inv in B. destruct B as [(B & _)|(_ & k' & -> & B)]; [congruence|].
      apply first_bad_inv in B. destruct B as [(B & _)|(_ & k2 & -> & B)]; [congruence|].
      exists c, k2. split; [f_equal; lia|exact B].
Qed.

Lemma hex_decode_error : forall s e, hex_decode s = inr e <->
  match e with
  | OddLength => Nat.odd (length s) = true
  | InvalidHexCharacter c i => Nat.odd (length s) = false /\ FirstBad s c i
  | InvalidStringLength => False
  end.
Proof.
  intros s e. unfold hex_decode. destruct (Nat.odd (length s)) eqn:O.
  - split; [intros [= <-]; reflexivity|]. destruct e as [c i| |]; [intros [H _]; discriminate H|reflexivity|intros []].
  - rewrite (hex_pairs_error (length s) s 0 e (le_n _) O). split.
    + intros (c & k & -> & B). now split.
    + destruct e as [c i| |]; [|discriminate|intros []]. intros [_ B]. exists c, i. now split.
Qed.

Lemma hex_slice_error : forall n s e, length s = (2 * n)%nat ->
  (hex_decode_to_slice n s = inr e <-> exists c i, e = InvalidHexCharacter c i /\ FirstBad s c i).
Proof.
  intros n s e L. unfold hex_decode_to_slice.
  assert (O : Nat.odd (length s) = false).
  { rewrite L. rewrite Nat.odd_mul. reflexivity. }
  rewrite O. rewrite L at 1. rewrite Nat.div2_double, Nat.eqb_refl. cbn [negb].
  apply (hex_pairs_error (length s) s 0 e (le_n _) O).
Qed.

Lemma no_prefix_bad : forall s body, after_prefix s body ->
  match split_once ":" s with Some (_, suffix) => suffix | None => s end = body.
Proof.
  intros s body [[-> F]|(p & -> & F)].
  - pose proof (split_once_inv ":" body) as I. destruct (split_once ":" body) as [[p r]|]; [|reflexivity].
    destruct I as [E _]. exfalso. rewrite E in F. apply Forall_app in F. destruct F as [_ F]. inversion F; congruence.
  - now rewrite (split_once_some _ _ _ F).
Qed.

Lemma prefix_exists : forall s, exists body, after_prefix s body.
Proof.
  intros s. pose proof (split_once_inv ":" s) as I. destruct (split_once ":" s) as [[p r]|].
  - destruct I as [E F]. exists r. right. eauto.
  - exists s. now left.
Qed.

Lemma hash_error : forall s e, parse_hash s = inr e <-> exists body, after_prefix s body /\
  match e with
  | InvalidLength => length body <> 64%nat
  | HexError (InvalidHexCharacter c i) => length body = 64%nat /\ FirstBad body c i
  | _ => False
  end.
Proof.
  intros s e. unfold parse_hash.
  assert (Core : forall t, (if negb (Nat.eqb (length t) 64) then inr InvalidLength
      else match hex_decode_to_slice 32 t with
           | inl data => inl (arr_of 32 data) | inr e => inr (HexError e) end) = (inr e : hash256 + hex_parse_error) <->
      match e with
      | InvalidLength => length t <> 64%nat
      | HexError (InvalidHexCharacter c i) => length t = 64%nat /\ FirstBad t c i
      | _ => False
      end).
  { intros t. destruct (Nat.eqb_spec (length t) 64) as [L|L]; cbn [negb].
    - pose proof (fun x => hex_slice_error 32 t x L) as H. destruct (hex_decode_to_slice 32 t) as [d|x].
      + split; [discriminate|]. destruct e as [| | | |[c i| |]]; try contradiction. intros [_ B].
        assert (W : (inl d : bytes + hex_error) = inr (InvalidHexCharacter c i)) by (apply H; eauto). discriminate W.
      + destruct (proj1 (H x) eq_refl) as (c & i & -> & B). split.
        * intros [= <-]. now split.
        * destruct e as [| | | |[c' i'| |]]; try contradiction. intros [_ B'].
          assert (W : (inr (InvalidHexCharacter c i) : bytes + hex_error) = inr (InvalidHexCharacter c' i')) by (apply H; eauto).
          injection W as -> ->. reflexivity.
    - split; [intros [= <-]; exact L|]. destruct e as [| | | |[c i| |]]; try contradiction; [reflexivity|].
      intros [L' _]. contradiction. }
  split.
  - intros H. destruct (prefix_exists s) as [body P]. exists body. split; [exact P|]. cbv zeta in H.
    rewrite (no_prefix_bad _ _ P) in H. now apply Core.
  - intros (body & P & H). cbv zeta. rewrite (no_prefix_bad _ _ P). now apply Core.
Qed.

Lemma bad_not_hex : forall s c i l, FirstBad s c i -> ~ HexText s l.
Proof.
  intros s c i l (b & a & -> & _ & _ & N) H. apply HexText_Forall with (d := c) in H; [|now apply bad_decode].
  apply Forall_app in H. destruct H as [_ H]. inversion H; congruence.
Qed.

Lemma address_error : forall s e, parse_address s = inr e <->
  match e with
  | InvalidLength => length s <> 76%nat
  | HexError (InvalidHexCharacter c i) => length s = 76%nat /\ FirstBad s c i
  | InvalidChecksum => exists data, HexText s data /\ length data = 38%nat /\
      skipn 32 data <> firstn 6 (blake2b_256 (firstn 32 data))
  | _ => False
  end.
Proof.
  intros s e. unfold parse_address. destruct (Nat.eqb_spec (length s) 76) as [L|L]; cbn [negb].
  - pose proof (fun x => hex_slice_error 38 s x L) as H. destruct (hex_decode_to_slice 38 s) as [d|x] eqn:Es.
    + assert (NB : forall c i, ~ FirstBad s c i).
      { intros c i B. assert (W : (inl d : bytes + hex_error) = inr (InvalidHexCharacter c i)) by (apply H; eauto). discriminate W. }
      apply hex_decode_to_slice_iff in Es. destruct Es as [Ed El].
      destruct (bytes_eqb (firstn 6 (blake2b_256 (firstn 32 d))) (skipn 32 d)) eqn:Q.
      * apply bytes_eqb_eq in Q. split; [discriminate|]. destruct e as [| | | |[c i| |]]; try contradiction.
        -- intros (d' & Hd & Hl & Hn). exfalso. apply Hn. rewrite <- (HexText_fun _ _ _ Ed Hd). now symmetry.
        -- intros [_ B]. now apply NB in B.
      * split.
        -- intros [= <-]. exists d. split; [exact Ed|]. split; [exact El|]. intros W. rewrite W in Q.
           assert (T : bytes_eqb (firstn 6 (blake2b_256 (firstn 32 d))) (firstn 6 (blake2b_256 (firstn 32 d))) = true)
             by now apply bytes_eqb_eq. congruence.
        -- destruct e as [| | | |[c i| |]]; try contradiction; [reflexivity|]. intros [_ B]. now apply NB in B.
    + destruct (proj1 (H x) eq_refl) as (c & i & -> & B). split.
      * intros [= <-]. now split.
      * destruct e as [| | | |[c' i'| |]]; try contradiction.
        -- intros (d' & Hd & _). now apply (bad_not_hex _ _ _ _ B) in Hd.
        -- intros [_ B']. assert (W : (inr (InvalidHexCharacter c i) : bytes + hex_error) = inr (InvalidHexCharacter c' i')) by (apply H; eauto).
           injection W as -> ->. reflexivity.
  - split; [intros [= <-]; exact L|]. destruct e as [| | | |[c i| |]]; try contradiction; [reflexivity| |intros [L' _]; contradiction].
    intros (d & Hd & Hl & _). apply HexText_length in Hd. lia.
Qed.

Lemma leaf_error : forall s e, parse_leaf s = inr e <->
  match e with
  | InvalidLength => length s <> 128%nat
  | HexError (InvalidHexCharacter c i) => length s = 128%nat /\ FirstBad s c i
  | _ => False
  end.
Proof.
  intros s e. unfold parse_leaf. destruct (Nat.eqb_spec (length s) 128) as [L|L]; cbn [negb].
  - pose proof (fun x => hex_slice_error 64 s x L) as H. destruct (hex_decode_to_slice 64 s) as [d|x].
    + split; [discriminate|]. destruct e as [| | | |[c i| |]]; try contradiction. intros [_ B].
      assert (W : (inl d : bytes + hex_error) = inr (InvalidHexCharacter c i)) by (apply H; eauto). discriminate W.
    + destruct (proj1 (H x) eq_refl) as (c & i & -> & B). split.
      * intros [= <-]. now split.
      * destruct e as [| | | |[c' i'| |]]; try contradiction. intros [_ B'].
        assert (W : (inr (InvalidHexCharacter c i) : bytes + hex_error) = inr (InvalidHexCharacter c' i')) by (apply H; eauto).
        injection W as -> ->. reflexivity.
  - split; [intros [= <-]; exact L|]. destruct e as [| | | |[c i| |]]; try contradiction; [reflexivity|].
    intros [L' _]. contradiction.
Qed.

Lemma signature_error : forall s e, parse_signature s = inr e <->
  match e with
  | HexError OddLength => Nat.odd (length s) = true
  | HexError (InvalidHexCharacter c i) => Nat.odd (length s) = false /\ FirstBad s c i
  | InvalidLength => exists data, HexText s data /\ length data <> 64%nat
  | _ => False
  end.
Proof.
  intros s e. unfold parse_signature. pose proof (hex_decode_error s) as H. destruct (hex_decode s) as [d|x] eqn:Es.
  - assert (NE : forall x, (inl d : bytes + hex_error) <> inr x) by (intros x W; discriminate W).
    apply hex_decode_iff in Es. destruct (Nat.eqb_spec (length d) 64) as [L|L].
    + split; [discriminate|]. destruct e as [| | | |[c i| |]]; try contradiction.
      * intros (d' & Hd & Hn). exfalso. apply Hn. now rewrite <- (HexText_fun _ _ _ Es Hd).
      * intros B. apply (H (InvalidHexCharacter c i)) in B. now apply NE in B.
      * intros B. apply (H OddLength) in B. now apply NE in B.
    + split.
      * intros [= <-]. now exists d.
      * destruct e as [| | | |[c i| |]]; try contradiction; [reflexivity| |].
        -- intros B. apply (H (InvalidHexCharacter c i)) in B. now apply NE in B.
        -- intros B. apply (H OddLength) in B. now apply NE in B.
  - pose proof (proj1 (H x) eq_refl) as Hx. split.
    + intros [= <-]. destruct x as [c i| |]; [exact Hx|exact Hx|destruct Hx].
    + destruct e as [| | | |y]; try contradiction.
      * intros (d' & Hd & _). apply hex_decode_iff in Hd. rewrite Hd in Es. discriminate Es.
      * intros B. assert (W : (inr x : bytes + hex_error) = inr y) by (apply H; destruct y; [exact B|exact B|destruct B]).
        now injection W as ->.
Qed.

Lemma key_error : forall (s : rstring) e, parse_unlock_key s = inr e <->
  match e with
  | MissingPrefix => Forall (fun c => c <> ":"%byte) (vlist (sbytes s))
  | HexError x => exists prefix body, vlist (sbytes s) = prefix ++ ":"%byte :: body /\
      Forall (fun c => c <> ":"%byte) prefix /\
      match x with
      | OddLength => Nat.odd (length body) = true
      | InvalidHexCharacter c i => Nat.odd (length body) = false /\ FirstBad body c i
      | InvalidStringLength => False
      end
  | _ => False
  end.
Proof.
  intros s e. unfold parse_unlock_key. pose proof (split_once_inv ":" (vlist (sbytes s))) as I.
  assert (U : forall p r p' r', p ++ ":"%byte :: r = p' ++ ":"%byte :: r' ->
    Forall (fun c => c <> ":"%byte) p -> Forall (fun c => c <> ":"%byte) p' -> r = r').
  { intros p r p' r' E F F'. assert (W : split_once ":" (p ++ ":"%byte :: r) = split_once ":" (p' ++ ":"%byte :: r')) by now rewrite E.
    rewrite !split_once_some in W by assumption. now injection W. }
  destruct (split_once ":" (vlist (sbytes s))) as [[p r]|].
  - destruct I as [E F].
    assert (NC : ~ Forall (fun c => c <> ":"%byte) (vlist (sbytes s))).
    { rewrite E. intros W. apply Forall_app in W. destruct W as [_ W]. inversion W; congruence. }
    pose proof (hex_decode_error r) as H. destruct (hex_decode r) as [key|x] eqn:Eh.
    + assert (V : exists v, vec_of 1 key = Some v).
      { apply hex_decode_iff in Eh. apply HexText_length in Eh.
        pose proof (f_equal (@length _) E) as Q. rewrite app_length in Q. cbn [length] in Q.
        pose proof (vec_ok (sbytes s)) as W. apply andb_true_iff in W. destruct W as [_ W]. apply N.leb_le in W.
        unfold u8 in *. assert (Z : N.of_nat (length key) <= isize_max) by (eapply N.le_trans; [|exact W]; lia).
        destruct (vec_of_ok 1 _ key) as (v & Hv & _); [rewrite N.mul_1_r; exact Z|exact Z|]. now exists v. }
      destruct V as [v ->]. split; [discriminate|]. destruct e as [| | | |x]; try contradiction.
      intros (p' & r' & E' & F' & B). rewrite E in E'. rewrite <- (U _ _ _ _ E' F F') in B.
      apply H in B. discriminate B.
    + pose proof (proj1 (H x) eq_refl) as Hx. split.
      * intros [= <-]. exists p, r. split; [exact E|]. split; [exact F|]. exact Hx.
      * destruct e as [| | | |y]; try contradiction. intros (p' & r' & E' & F' & B). rewrite E in E'.
        rewrite <- (U _ _ _ _ E' F F') in B. apply H in B. now injection B as ->.
  - split; [intros [= <-]; exact I|]. destruct e as [| | | |x]; try contradiction; [reflexivity|].
    intros (p & r & E & _). exfalso. rewrite E in I. apply Forall_app in I. destruct I as [_ I]. inversion I; congruence.
Qed.

Lemma reject_examples :
  FirstBad (ascii "00g0") "g" 2 /\
  parse_hash (ascii "h:" ++ repeat "a"%byte 63 ++ ascii "z") = inr (HexError (InvalidHexCharacter "z" 63)) /\
  parse_signature (ascii "abc") = inr (HexError OddLength) /\
  parse_leaf (ascii "abcd") = inr InvalidLength.
Proof.
  split; [|repeat split; vm_compute; reflexivity]. exists (ascii "00"), (ascii "0"). split; [reflexivity|]. split; [reflexivity|].
  split; [|now apply not_digit]. repeat constructor; exists 0%nat; now left.
Qed.
