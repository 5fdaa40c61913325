(** Text forms. *)

From Verif Require Import Base Io Model_encoding Model_common Blake2b Model_currency Model_v1
  Model_consensus Model_text SpecText CurrencyProofs.
Local Open Scope N_scope.

(** ** Hexadecimal digits *)

Definition hex_check (c : byte) : bool :=
  match decode_hex_char c with
  | Some v =>
    (v <? 16) &&
    ((match nth_error hex_digits_lower (N.to_nat v) with Some d => Byte.eqb c d | None => false end)
     || (match nth_error hex_digits_upper (N.to_nat v) with Some d => Byte.eqb c d | None => false end))
  | None => true
  end.

Lemma hex_check_all : forall c, hex_check c = true.
Proof. destruct c; vm_compute; reflexivity. Qed.

Lemma decode_hex_char_some : forall c v, decode_hex_char c = Some v -> v < 16 /\ hex_digit c (N.to_nat v).
Proof.
  intros c v H. pose proof (hex_check_all c) as K. unfold hex_check in K. rewrite H in K.
  apply andb_true_iff in K. destruct K as [K1 K2]. apply N.ltb_lt in K1. split; [assumption|].
  apply orb_true_iff in K2. unfold hex_digit. destruct K2 as [K|K]; [left|right];
    destruct (nth_error _ _) as [d|]; try discriminate; apply Byte.byte_dec_bl in K; now subst d.
Qed.

Lemma hex_digit_decode : forall c v, hex_digit c v -> decode_hex_char c = Some (N.of_nat v) /\ (v < 16)%nat.
Proof.
  intros c v [H|H]; do 16 (destruct v as [|v]; [injection H as <-; split; [reflexivity|lia]|]);
    destruct v; discriminate H.
Qed.

Lemma pair_inv : forall h l, h < 16 -> l < 16 -> b2n (n2b (h * 16 + l)) = h * 16 + l.
Proof. intros h l Hh Hl. rewrite b2n_n2b, N.mod_small by lia. reflexivity. Qed.

Lemma hex_pairs_text : forall s l, HexText s l -> forall i, hex_pairs i s = inl l.
Proof.
  induction 1 as [|c1 v1 c2 v2 s l b H1 H2 Hb Hs IH]; intros i; [reflexivity|].
  cbn [hex_pairs]. destruct (hex_digit_decode c1 v1 H1) as [-> L1]. destruct (hex_digit_decode c2 v2 H2) as [-> L2].
  rewrite (IH (i + 2)).
  assert (E : n2b (N.of_nat v1 * 16 + N.of_nat v2) = b) by (apply b2n_inj; rewrite pair_inv by lia; lia).
  now rewrite E.
Qed.

Lemma hex_pairs_inl : forall n s, (length s <= n)%nat -> Nat.even (length s) = true -> forall i l,
  hex_pairs i s = inl l -> HexText s l.
Proof.
  induction n as [|n IH]; intros s Hn He i l H.
  - destruct s; [|cbn in Hn; lia]. cbn in H. injection H as <-. constructor.
  - destruct s as [|c1 [|c2 s]]; [cbn in H; injection H as <-; constructor|discriminate He|].
    cbn [hex_pairs] in H. destruct (decode_hex_char c1) as [v1|] eqn:E1; [|discriminate].
    destruct (decode_hex_char c2) as [v2|] eqn:E2; [|discriminate].
    destruct (hex_pairs (i + 2) s) as [t|] eqn:Ep; [|discriminate]. injection H as <-.
    apply decode_hex_char_some in E1, E2. destruct E1 as [L1 D1]. destruct E2 as [L2 D2].
    econstructor; [exact D1|exact D2| |].
    + rewrite pair_inv by assumption. rewrite !N2Nat.id. lia.
    + eapply IH; [cbn in Hn; lia|exact He|exact Ep].
Qed.

Lemma HexText_length : forall s l, HexText s l -> length s = (2 * length l)%nat.
Proof. induction 1; cbn [length]; lia. Qed.

Lemma even_double : forall n, Nat.even (2 * n) = true.
Proof. intros n. rewrite Nat.even_mul. reflexivity. Qed.
Lemma odd_double : forall n, Nat.odd (2 * n) = false.
Proof. intros n. unfold Nat.odd. now rewrite even_double. Qed.

Lemma hex_decode_iff : forall s l, hex_decode s = inl l <-> HexText s l.
Proof.
  intros s l. unfold hex_decode. split.
  - destruct (Nat.odd (length s)) eqn:E; [discriminate|]. intros H.
    eapply hex_pairs_inl; [reflexivity| |exact H]. unfold Nat.odd in E. now destruct (Nat.even (length s)).
  - intros H. rewrite (HexText_length _ _ H), odd_double. now apply hex_pairs_text.
Qed.

Lemma hex_decode_to_slice_iff : forall n s l,
  hex_decode_to_slice n s = inl l <-> HexText s l /\ length l = n.
Proof.
  intros n s l. unfold hex_decode_to_slice. split.
  - destruct (Nat.odd (length s)) eqn:E; [discriminate|].
    destruct (Nat.eqb_spec (Nat.div2 (length s)) n) as [E2|E2]; [|discriminate]. cbn [negb]. intros H.
    assert (HT : HexText s l).
    { eapply hex_pairs_inl; [reflexivity| |exact H]. unfold Nat.odd in E. now destruct (Nat.even (length s)). }
    split; [assumption|]. rewrite (HexText_length _ _ HT), Nat.div2_double in E2. assumption.
  - intros [H <-]. rewrite (HexText_length _ _ H), odd_double, Nat.div2_double, Nat.eqb_refl. cbn [negb].
    now apply hex_pairs_text.
Qed.

Lemma HexText_fun : forall s l l', HexText s l -> HexText s l' -> l = l'.
Proof.
  intros s l l' H H'. apply hex_decode_iff in H, H'. congruence.
Qed.

Lemma hex_char_digit : forall v, (v < 16)%nat -> hex_digit (hex_char (N.of_nat v)) v.
Proof. intros v H. left. do 16 (destruct v as [|v]; [reflexivity|]). lia. Qed.

Lemma hex_encode_text : forall l, HexText (hex_encode l) l.
Proof.
  induction l as [|b l IH]; cbn [hex_encode]; [constructor|].
  pose proof (b2n_lt b) as Hb.
  assert (Hh : b2n b / 16 < 16) by (apply N.div_lt_upper_bound; lia).
  pose proof (N.mod_lt (b2n b) 16 ltac:(discriminate)) as Hl.
  pose proof (N.div_mod (b2n b) 16 ltac:(discriminate)) as Hd.
  rewrite <- (N2Nat.id (b2n b / 16)), <- (N2Nat.id (b2n b mod 16)).
  econstructor; [apply hex_char_digit; lia|apply hex_char_digit; lia| |exact IH].
  rewrite !N2Nat.id. lia.
Qed.

Lemma hex_encode_length : forall l, length (hex_encode l) = (2 * length l)%nat.
Proof. intros l. apply HexText_length, hex_encode_text. Qed.

(** *** Letter case *)

Lemma hex_digit_lower : forall c v, hex_digit c v <-> hex_digit (lower c) v.
Proof.
  intros c v. split.
  - intros [H|H]; left; do 16 (destruct v as [|v]; [injection H as <-; reflexivity|]); destruct v; discriminate H.
  - intros H. destruct (hex_digit_decode _ _ H) as [E Hv].
    assert (D : decode_hex_char c = decode_hex_char (lower c)).
    { clear. unfold lower. destruct c; vm_compute; reflexivity. }
    rewrite <- D in E. apply decode_hex_char_some in E. rewrite Nat2N.id in E. tauto.
Qed.

Lemma hex_digit_lower_eq : forall c v, hex_digit c v -> lower c = hex_char (N.of_nat v).
Proof.
  intros c v [H|H]; do 16 (destruct v as [|v]; [injection H as <-; reflexivity|]); destruct v; discriminate H.
Qed.

Lemma HexText_lower : forall s l, HexText s l <-> map lower s = hex_encode l.
Proof.
  split.
  - induction 1 as [|c1 v1 c2 v2 s l b H1 H2 Hb Hs IH]; [reflexivity|].
    cbn [map hex_encode]. rewrite (hex_digit_lower_eq _ _ H1), (hex_digit_lower_eq _ _ H2), IH, Hb.
    destruct (hex_digit_decode _ _ H1) as [_ L1]. destruct (hex_digit_decode _ _ H2) as [_ L2].
    replace ((16 * N.of_nat v1 + N.of_nat v2) / 16) with (N.of_nat v1).
    + replace ((16 * N.of_nat v1 + N.of_nat v2) mod 16) with (N.of_nat v2); [reflexivity|].
      apply (N.mod_unique _ _ (N.of_nat v1)); lia.
    + apply (N.div_unique _ _ _ (N.of_nat v2)); lia.
  - revert s. induction l as [|b l IH]; intros s H.
    + destruct s; [constructor|discriminate].
    + destruct s as [|c1 [|c2 s]]; [discriminate|discriminate|]. cbn [map hex_encode] in H.
      injection H as E1 E2 E3.
      pose proof (hex_encode_text [b]) as HB. cbn [hex_encode] in HB.
      inversion HB as [|? v1 ? v2 ? ? ? D1 D2 Db Ds]; subst.
      econstructor; [apply hex_digit_lower; rewrite E1; exact D1|apply hex_digit_lower; rewrite E2; exact D2
        |exact Db|now apply IH].
Qed.

Lemma hex_encode_inj : forall a b, hex_encode a = hex_encode b -> a = b.
Proof.
  intros a b H. pose proof (hex_encode_text a) as Ha. rewrite H in Ha.
  exact (HexText_fun _ _ _ Ha (hex_encode_text b)).
Qed.

Lemma hex_digit_not : forall c v d, hex_digit c v -> decode_hex_char d = None -> c <> d.
Proof. intros c v d H E ->. destruct (hex_digit_decode _ _ H) as [E' _]. congruence. Qed.

Lemma HexText_Forall : forall s l d, HexText s l -> decode_hex_char d = None -> Forall (fun c => c <> d) s.
Proof.
  induction 1; intros Hd; [constructor|]. constructor; [eapply hex_digit_not; eassumption|].
  constructor; [eapply hex_digit_not; eassumption|auto].
Qed.

(** ** split_once *)

Lemma split_once_none : forall c s, Forall (fun b => b <> c) s -> split_once c s = None.
Proof.
  induction s as [|b s IH]; intros H; [reflexivity|]. inversion H as [|? ? Hb Hs]; subst.
  cbn [split_once]. destruct (Byte.eqb b c) eqn:E; [apply Byte.byte_dec_bl in E; contradiction|].
  now rewrite (IH Hs).
Qed.

Lemma split_once_some : forall c p s, Forall (fun b => b <> c) p -> split_once c (p ++ c :: s) = Some (p, s).
Proof.
  induction p as [|b p IH]; intros s H; cbn [app split_once].
  - now rewrite (Byte.byte_dec_lb (eq_refl c)).
  - inversion H as [|? ? Hb Hs]; subst.
    destruct (Byte.eqb b c) eqn:E; [apply Byte.byte_dec_bl in E; contradiction|]. now rewrite (IH s Hs).
Qed.

Lemma split_once_inv : forall c s,
  match split_once c s with
  | Some (p, r) => s = p ++ c :: r /\ Forall (fun b => b <> c) p
  | None => Forall (fun b => b <> c) s
  end.
Proof.
  induction s as [|b s IH]; cbn [split_once]; [constructor|].
  destruct (Byte.eqb b c) eqn:E.
  - apply Byte.byte_dec_bl in E. subst b. split; [reflexivity|constructor].
  - assert (Hb : b <> c) by (intros ->; rewrite (Byte.byte_dec_lb (eq_refl c)) in E; discriminate).
    destruct (split_once c s) as [[p r]|].
    + destruct IH as [-> IH]. split; [reflexivity|]. now constructor.
    + now constructor.
Qed.

(** ** Hashes *)

Lemma parse_hash_iff : forall s h,
  parse_hash s = inl h <-> exists body, after_prefix s body /\ HexText body (aval h).
Proof.
  intros s h. unfold parse_hash.
  assert (Core : forall t, (if negb (Nat.eqb (length t) 64) then inr InvalidLength
      else match hex_decode_to_slice 32 t with
           | inl data => inl (arr_of 32 data) | inr e => inr (HexError e) end) = inl h <-> HexText t (aval h)).
  { intros t. split.
    - destruct (Nat.eqb_spec (length t) 64) as [E|E]; [|discriminate]. cbn [negb].
      destruct (hex_decode_to_slice 32 t) as [d|] eqn:Ed; [|discriminate]. intros H. injection H as <-.
      apply hex_decode_to_slice_iff in Ed. destruct Ed as [Ed El]. now rewrite arr_of_aval.
    - intros H. pose proof (HexText_length _ _ H) as Hl. rewrite arr_len in Hl. rewrite Hl. cbn [Nat.eqb negb Nat.mul Nat.add].
      assert (E : hex_decode_to_slice 32 t = inl (aval h)) by (apply hex_decode_to_slice_iff; split; [assumption|apply arr_len]).
      rewrite E. f_equal. apply arr_of_id. }
  pose proof (split_once_inv ":" s) as Hs. destruct (split_once ":" s) as [[p r]|].
  - destruct Hs as [-> Hp]. rewrite Core. split.
    + intros H. exists r. split; [|assumption]. right. now exists p.
    + intros (body & [[E F]|(p' & E & F)] & HT).
      * exfalso. rewrite <- E in F. apply Forall_app in F. destruct F as [_ F]. inversion F; congruence.
      * assert (E2 : split_once ":" (p ++ ":"%byte :: r) = split_once ":" (p' ++ ":"%byte :: body)) by now rewrite E.
        rewrite !split_once_some in E2 by assumption. injection E2 as <- <-. assumption.
  - rewrite Core. split.
    + intros H. exists s. split; [|assumption]. now left.
    + intros (body & [[E F]|(p' & E & F)] & HT); [now subst|].
      exfalso. rewrite E in Hs. apply Forall_app in Hs. destruct Hs as [_ Hs]. inversion Hs; congruence.
Qed.

Lemma parse_hash_text : forall h, parse_hash (hash_text h) = inl h.
Proof.
  intros h. apply parse_hash_iff. exists (hash_text h). pose proof (hex_encode_text (aval h)) as H.
  split; [|exact H]. left. split; [reflexivity|]. eapply HexText_Forall; [exact H|reflexivity].
Qed.

(** ** Addresses *)

Lemma bytes_eqb_eq : forall a b, bytes_eqb a b = true <-> a = b.
Proof. intros a b. unfold bytes_eqb. destruct (list_eq_dec Byte.byte_eq_dec a b); split; congruence. Qed.

Lemma address_payload_length : forall a : hash256, length (aval a ++ firstn 6 (blake2b_256 (aval a))) = 38%nat.
Proof.
  intros a. rewrite app_length, firstn_length, blake2b_256_length, arr_len. reflexivity.
Qed.

Lemma parse_address_iff : forall s a, parse_address s = inl a <-> map lower s = address_text a.
Proof.
  intros s a. unfold address_text. rewrite <- HexText_lower. unfold parse_address. split.
  - destruct (Nat.eqb_spec (length s) 76) as [E|E]; [|discriminate]. cbn [negb].
    destruct (hex_decode_to_slice 38 s) as [d|] eqn:Ed; [|discriminate].
    apply hex_decode_to_slice_iff in Ed. destruct Ed as [Ed El].
    destruct (bytes_eqb _ _) eqn:Ec; [|discriminate]. intros H.
    assert (Ea : a = arr_of 32 (firstn 32 d)) by congruence. subst a. clear H.
    apply bytes_eqb_eq in Ec.
    assert (E32 : aval (arr_of 32 (firstn 32 d)) = firstn 32 d) by (apply arr_of_aval; rewrite firstn_length; lia).
    rewrite E32, Ec, firstn_skipn. exact Ed.
  - intros H. pose proof (HexText_length _ _ H) as Hl. rewrite address_payload_length in Hl. rewrite Hl.
    cbn [Nat.eqb negb Nat.mul Nat.add].
    assert (E : hex_decode_to_slice 38 s = inl (aval a ++ firstn 6 (blake2b_256 (aval a))))
      by (apply hex_decode_to_slice_iff; split; [assumption|apply address_payload_length]).
    rewrite E. pose proof (arr_len 32 a) as La.
    assert (F1 : forall x, firstn 32 (aval a ++ x) = aval a)
      by (intros x; rewrite firstn_app, La, Nat.sub_diag, firstn_all2 by lia; cbn [firstn]; apply app_nil_r).
    assert (F2 : forall x, skipn 32 (aval a ++ x) = x)
      by (intros x; rewrite skipn_app, La, Nat.sub_diag, skipn_all2 by lia; reflexivity).
    rewrite F1, F2.
    assert (E2 : bytes_eqb (firstn 6 (blake2b_256 (aval a))) (firstn 6 (blake2b_256 (aval a))) = true)
      by now apply bytes_eqb_eq.
    rewrite E2. f_equal. apply arr_of_id.
Qed.

Lemma lower_hex_encode : forall l, map lower (hex_encode l) = hex_encode l.
Proof. intros l. apply HexText_lower, hex_encode_text. Qed.

Lemma parse_address_text : forall a, parse_address (address_text a) = inl a.
Proof. intros a. apply parse_address_iff. apply lower_hex_encode. Qed.

Lemma address_text_inj : forall a b, address_text a = address_text b -> a = b.
Proof.
  intros a b H. pose proof (parse_address_text a) as Ha. rewrite H, parse_address_text in Ha. congruence.
Qed.

(** Every accepted text of the right shape carries the right checksum. *)
Lemma parse_address_reject : forall s data, HexText s data -> length data = 38%nat ->
  skipn 32 data <> firstn 6 (blake2b_256 (firstn 32 data)) -> parse_address s = inr InvalidChecksum.
Proof.
  intros s data H Hl Hc. unfold parse_address. rewrite (HexText_length _ _ H), Hl. cbn [Nat.eqb negb Nat.mul Nat.add].
  assert (E : hex_decode_to_slice 38 s = inl data) by now apply hex_decode_to_slice_iff.
  rewrite E. destruct (bytes_eqb _ _) eqn:Ec; [|reflexivity]. apply bytes_eqb_eq in Ec. congruence.
Qed.

(** ** Leaves *)

Lemma parse_leaf_iff : forall s (l : leaf), parse_leaf s = inl l <-> HexText s (aval l).
Proof.
  intros s l. unfold parse_leaf. split.
  - destruct (Nat.eqb_spec (length s) 128) as [E|E]; [|discriminate]. cbn [negb].
    destruct (hex_decode_to_slice 64 s) as [d|] eqn:Ed; [|discriminate]. intros H. injection H as <-.
    apply hex_decode_to_slice_iff in Ed. destruct Ed as [Ed El]. now rewrite arr_of_aval.
  - intros H. pose proof (HexText_length _ _ H) as Hl. rewrite arr_len in Hl. rewrite Hl.
    change (negb (Nat.eqb (2 * 64) 128)) with false.
    assert (E : hex_decode_to_slice 64 s = inl (aval l)) by (apply hex_decode_to_slice_iff; split; [assumption|apply arr_len]).
    rewrite E. f_equal. apply arr_of_id.
Qed.

(** ** Public keys, signatures, work *)

Lemma strip_prefix_iff : forall p s r, strip_prefix p s = Some r <-> s = p ++ r.
Proof.
  induction p as [|a p IH]; intros s r; cbn [strip_prefix app].
  - split; [now intros [= <-]|now intros ->].
  - destruct s as [|b s]; [split; discriminate|]. destruct (Byte.eqb a b) eqn:E.
    + apply Byte.byte_dec_bl in E. subst b. rewrite IH. split; [now intros ->|now intros [= ->]].
    + split; [discriminate|]. intros [= -> _]. rewrite (Byte.byte_dec_lb (eq_refl a)) in E. discriminate.
Qed.

Lemma parse_public_key_iff : forall s k,
  parse_public_key s = Some k <-> exists body, s = ascii "ed25519:" ++ body /\ HexText body (aval k).
Proof.
  intros s k. unfold parse_public_key. destruct (strip_prefix (ascii "ed25519:") s) as [r|] eqn:E.
  - apply strip_prefix_iff in E. subst s. split.
    + destruct (hex_decode_to_slice 32 r) as [d|] eqn:Ed; [|discriminate]. intros [= <-].
      apply hex_decode_to_slice_iff in Ed. destruct Ed as [Ed El]. exists r. split; [reflexivity|].
      now rewrite arr_of_aval.
    + intros (body & E & HT). apply app_inv_head in E. subst body.
      assert (Ed : hex_decode_to_slice 32 r = inl (aval k)) by (apply hex_decode_to_slice_iff; split; [assumption|apply arr_len]).
      rewrite Ed. f_equal. apply arr_of_id.
  - split; [discriminate|]. intros (body & -> & _). exfalso.
    assert (E' : strip_prefix (ascii "ed25519:") (ascii "ed25519:" ++ body) = Some body) by now apply strip_prefix_iff.
    congruence.
Qed.

Lemma parse_public_key_text : forall k, parse_public_key (public_key_text k) = Some k.
Proof.
  intros k. apply parse_public_key_iff. exists (hex_encode (aval k)). split; [reflexivity|apply hex_encode_text].
Qed.

Lemma parse_signature_iff : forall s (g : signature), parse_signature s = inl g <-> HexText s (aval g).
Proof.
  intros s g. unfold parse_signature. split.
  - destruct (hex_decode s) as [d|] eqn:Ed; [|discriminate]. apply hex_decode_iff in Ed.
    destruct (Nat.eqb_spec (length d) 64) as [E|E]; [|discriminate]. intros [= <-]. now rewrite arr_of_aval.
  - intros H. assert (E : hex_decode s = inl (aval g)) by now apply hex_decode_iff.
    rewrite E, arr_len, Nat.eqb_refl. f_equal. apply arr_of_id.
Qed.

Lemma parse_signature_text : forall g, parse_signature (signature_text g) = inl g.
Proof. intros g. apply parse_signature_iff, hex_encode_text. Qed.

Lemma parse_work_iff : forall s (w : work),
  parse_work s = Some w <-> Forall digit s /\ dec_value s = uval w.
Proof.
  intros s w. unfold parse_work. split.
  - destruct (parse_digits 256 0 s) as [n|] eqn:E; [|discriminate]. intros [= <-].
    pose proof (parse_digits_inl _ _ _ _ E) as Hd. split; [assumption|].
    rewrite (parse_digits_ok 256 s 0 Hd (pow2_pos 256)) in E. change (dval 0 s) with (dec_value s) in E.
    destruct (N.ltb_spec (dec_value s) (2 ^ 256)) as [Hlt|]; [|discriminate]. injection E as <-.
    symmetry. now apply uwrap_small.
  - intros [Hd Hv]. rewrite (parse_digits_ok 256 s 0 Hd (pow2_pos 256)). change (dval 0 s) with (dec_value s).
    rewrite Hv. pose proof (uint_lt 256 w) as Hw. apply N.ltb_lt in Hw. rewrite Hw. now rewrite (uwrap_id 256 w).
Qed.

Lemma parse_work_text : forall w, parse_work (work_text w) = Some w.
Proof.
  intros w. apply parse_work_iff. destruct (dec_text_spec (uval w)) as ([_ H1] & H2 & _). now split.
Qed.

(** ** Literals *)

Lemma decode_hex_256_iff : forall s h, (64 <= length s)%nat ->
  decode_hex_256 s = Val h <-> HexText (firstn 64 s) (aval h).
Proof.
  intros s h Hs. unfold decode_hex_256.
  assert (L : length (firstn 64 s) = 64%nat) by (rewrite firstn_length; lia).
  set (t := firstn 64 s) in *. clearbody t. clear s Hs. split.
  - destruct (hex_pairs 0 t) as [d|] eqn:E; [|discriminate]. intros [= <-].
    assert (HT : HexText t d) by (eapply hex_pairs_inl; [reflexivity|now rewrite L|exact E]).
    rewrite arr_of_aval; [assumption|]. apply HexText_length in HT. lia.
  - intros H. rewrite (hex_pairs_text _ _ H). f_equal. apply arr_of_id.
Qed.

Lemma hash_literal_iff : forall s h,
  hash_literal s = Val h <-> parse_hash s = inl h /\ Forall (fun c => c <> ":"%byte) s.
Proof.
  intros s h. rewrite parse_hash_iff. unfold hash_literal. split.
  - destruct (Nat.eqb_spec (length s) 64) as [E|E]; [|discriminate]. cbn [negb]. intros H.
    apply decode_hex_256_iff in H; [|lia]. rewrite firstn_all2 in H by lia.
    assert (F : Forall (fun c => c <> ":"%byte) s) by (eapply HexText_Forall; [exact H|reflexivity]).
    split; [|assumption]. exists s. split; [now left|assumption].
  - intros [(body & [[<- F]|(p & -> & F)] & HT) Hn].
    + pose proof (HexText_length _ _ HT) as L. rewrite arr_len in L. rewrite L.
      change (negb (Nat.eqb (2 * 32) 64)) with false. apply decode_hex_256_iff; [lia|].
      rewrite firstn_all2 by lia. assumption.
    + exfalso. apply Forall_app in Hn. destruct Hn as [_ Hn]. inversion Hn; congruence.
Qed.

Lemma public_key_literal_iff : forall s k, public_key_literal s = Val k <-> parse_public_key s = Some k.
Proof.
  intros s k. rewrite parse_public_key_iff. unfold public_key_literal. split.
  - destruct (Nat.eqb_spec (length s) 72) as [E|E]; [|discriminate]. cbn [negb].
    destruct (bytes_eqb (firstn 8 s) (ascii "ed25519:")) eqn:Eb; [|discriminate]. cbn [negb].
    apply bytes_eqb_eq in Eb. intros H.
    apply decode_hex_256_iff in H; [|rewrite skipn_length; lia].
    rewrite firstn_all2 in H by (rewrite skipn_length; lia).
    exists (skipn 8 s). split; [|assumption]. now rewrite <- Eb, firstn_skipn.
  - intros (body & -> & HT). pose proof (HexText_length _ _ HT) as L. rewrite arr_len in L.
    rewrite app_length, L. change (negb (Nat.eqb (length (ascii "ed25519:") + 2 * 32) 72)) with false.
    assert (Eb : bytes_eqb (firstn 8 (ascii "ed25519:" ++ body)) (ascii "ed25519:") = true).
    { apply bytes_eqb_eq. rewrite firstn_app. cbn [length Nat.sub]. change (8 - length (ascii "ed25519:"))%nat with 0%nat.
      cbn [firstn]. now rewrite app_nil_r. }
    rewrite Eb. cbn [negb].
    assert (Es : skipn 8 (ascii "ed25519:" ++ body) = body) by reflexivity.
    rewrite Es. apply decode_hex_256_iff; [lia|]. rewrite firstn_all2 by lia. assumption.
Qed.

Lemma address_literal_agrees : forall s a, parse_address s = inl a -> address_literal s = Val a.
Proof.
  intros s a H. apply parse_address_iff in H. unfold address_text in H. apply HexText_lower in H.
  pose proof (HexText_length _ _ H) as L. rewrite address_payload_length in L. unfold address_literal.
  rewrite L. change (negb (Nat.eqb (2 * 38) 76)) with false. apply decode_hex_256_iff; [lia|].
  assert (G : forall l1 l2 s, HexText s (l1 ++ l2) -> HexText (firstn (2 * length l1) s) l1).
  { clear. induction l1 as [|b l1 IH]; intros l2 s H; [constructor|].
    cbn [app] in H. inversion H; subst. cbn [length]. replace (2 * S (length l1))%nat with (S (S (2 * length l1))) by lia.
    cbn [firstn]. econstructor; eauto. }
  specialize (G _ _ _ H). rewrite arr_len in G. exact G.
Qed.

(** Which texts the [address!] literal accepts: the checksum digits are ignored. *)
Lemma address_literal_iff : forall s a,
  address_literal s = Val a <-> length s = 76%nat /\ HexText (firstn 64 s) (aval a).
Proof.
  intros s a. unfold address_literal. destruct (Nat.eqb_spec (length s) 76) as [E|E]; cbn [negb].
  - rewrite decode_hex_256_iff by lia. tauto.
  - split; [discriminate|tauto].
Qed.

(** ** Specifiers *)

Lemma drop_zeros_repeat : forall n l, drop_zeros (repeat x00 n ++ l) = drop_zeros l.
Proof. induction n as [|n IH]; intros l; [reflexivity|]. cbn [repeat app drop_zeros]. apply IH. Qed.

Lemma repeat_rev : forall (A : Type) (x : A) n, rev (repeat x n) = repeat x n.
Proof.
  intros A x n. induction n as [|n IH]; [reflexivity|]. cbn [repeat rev]. rewrite IH.
  clear IH. induction n as [|n IH]; [reflexivity|]. cbn [repeat app]. now rewrite IH.
Qed.

Lemma drop_zeros_id : forall t, no_trailing_zero t -> drop_zeros (rev t) = rev t.
Proof.
  intros t H. destruct (rev t) as [|b r] eqn:E; [reflexivity|]. cbn [drop_zeros].
  destruct (Byte.eqb b x00) eqn:Eb; [|reflexivity]. exfalso. apply Byte.byte_dec_bl in Eb. subst b.
  apply (H (rev r)). rewrite <- (rev_involutive t), E. reflexivity.
Qed.

Lemma specifier_from_aval : forall t, (length t <= 16)%nat ->
  aval (specifier_from t) = t ++ repeat x00 (16 - length t).
Proof.
  intros t H. unfold specifier_from. rewrite firstn_all2 by assumption.
  apply arr_of_aval. rewrite app_length, repeat_length. lia.
Qed.

Lemma trim_zeros_pad : forall t n, no_trailing_zero t -> trim_zeros (t ++ repeat x00 n) = t.
Proof.
  intros t n H. unfold trim_zeros. rewrite rev_app_distr, repeat_rev, drop_zeros_repeat, drop_zeros_id by assumption.
  apply rev_involutive.
Qed.

Lemma specifier_text_from : forall t, (length t <= 16)%nat -> utf8_valid t = true -> no_trailing_zero t ->
  specifier_text (specifier_from t) = Val t.
Proof.
  intros t Hl Hu Hz. unfold specifier_text. rewrite specifier_from_aval, trim_zeros_pad by assumption.
  now rewrite Hu.
Qed.

Lemma specifier_from_inj : forall t t', (length t <= 16)%nat -> (length t' <= 16)%nat ->
  no_trailing_zero t -> no_trailing_zero t' -> specifier_from t = specifier_from t' -> t = t'.
Proof.
  intros t t' L L' Z Z' H. apply (f_equal aval) in H. rewrite !specifier_from_aval in H by assumption.
  apply (f_equal trim_zeros) in H. now rewrite !trim_zeros_pad in H.
Qed.

Lemma drop_zeros_spec : forall l, exists n, l = repeat x00 n ++ drop_zeros l.
Proof.
  induction l as [|b l [n IH]]; [now exists 0%nat|]. cbn [drop_zeros].
  destruct (Byte.eqb b x00) eqn:E; [|now exists 0%nat].
  apply Byte.byte_dec_bl in E. subst b. exists (S n). cbn [repeat app]. now rewrite <- IH.
Qed.

Lemma drop_zeros_head : forall l r, drop_zeros l <> x00 :: r.
Proof.
  induction l as [|b l IH]; intros r; cbn [drop_zeros]; [discriminate|].
  destruct (Byte.eqb b x00) eqn:E; [apply IH|]. intros [= -> _]. discriminate.
Qed.

Lemma trim_zeros_spec : forall l, exists n, l = trim_zeros l ++ repeat x00 n.
Proof.
  intros l. destruct (drop_zeros_spec (rev l)) as [n H]. exists n. unfold trim_zeros.
  rewrite <- (rev_involutive l) at 1. rewrite H at 1. now rewrite rev_app_distr, repeat_rev.
Qed.

Lemma trim_zeros_no_trailing : forall l, no_trailing_zero (trim_zeros l).
Proof.
  intros l u H. unfold trim_zeros in H. apply (f_equal (@rev byte)) in H.
  rewrite rev_involutive, rev_app_distr in H. cbn in H. exact (drop_zeros_head _ _ H).
Qed.

Lemma specifier_from_text : forall s t, specifier_text s = Val t -> specifier_from t = s.
Proof.
  intros s t H. unfold specifier_text in H. destruct (utf8_valid _); [|discriminate]. injection H as <-.
  destruct (trim_zeros_spec (aval s)) as [n H]. apply arr_eq.
  assert (L : (length (trim_zeros (aval s)) + n = 16)%nat).
  { pose proof (arr_len 16 s) as L. rewrite H, app_length, repeat_length in L. exact L. }
  rewrite specifier_from_aval by lia. etransitivity; [|symmetry; exact H]. f_equal. f_equal. lia.
Qed.

Lemma specifier_text_panics : forall s, utf8_valid (trim_zeros (aval s)) = false ->
  specifier_text s = Panic UnwrapNone.
Proof. intros s H. unfold specifier_text. now rewrite H. Qed.

(** ** Unlock keys *)

Lemma unlock_key_text_inv : forall k t, unlock_key_text k = Val t ->
  exists a, specifier_text (uk_algorithm k) = Val a /\ t = a ++ ":"%byte :: hex_encode (vlist (uk_key k)).
Proof.
  intros k t H. unfold unlock_key_text in H. destruct (specifier_text (uk_algorithm k)) as [a|]; [|discriminate].
  cbn [obind] in H. injection H as <-. exists a. split; reflexivity.
Qed.

Lemma parse_unlock_key_text : forall k s,
  unlock_key_text k = Val (vlist (sbytes s)) ->
  Forall (fun c => c <> ":"%byte) (aval (uk_algorithm k)) ->
  parse_unlock_key s = inl k.
Proof.
  intros k s H Hc. destruct (unlock_key_text_inv _ _ H) as (a & Ha & E). unfold parse_unlock_key. rewrite E.
  rewrite split_once_some.
  - assert (Ed : hex_decode (hex_encode (vlist (uk_key k))) = inl (vlist (uk_key k)))
      by apply hex_decode_iff, hex_encode_text.
    rewrite Ed, vec_of_vlist, (specifier_from_text _ _ Ha). now destruct k.
  - unfold specifier_text in Ha. destruct (utf8_valid _); [|discriminate]. injection Ha as <-.
    destruct (trim_zeros_spec (aval (uk_algorithm k))) as [n Hn]. rewrite Hn in Hc.
    apply Forall_app in Hc. tauto.
Qed.
