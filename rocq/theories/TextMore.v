(** The forms of CurrencyProofs.v and TextProofs.v stated in P_text.v, and the refutations. *)

From Verif Require Import Base Io Spec SpecUtf8 SpecText Model_encoding Model_common Model_v1 Blake2b
  Model_currency Model_consensus Model_text CurrencyProofs TextProofs EncodingProofs CommonProofs BasicProofs.
Local Open Scope N_scope.

Lemma currency_text_spec : forall c : currency,
  digits (currency_text c) /\ dec_value (currency_text c) = uval c /\
  (forall r, currency_text c <> "0"%byte :: r \/ r = []).
Proof.
  intros c. unfold currency_text. destruct (dec_text_spec (uval c)) as (H1 & H2 & H3 & H4).
  split; [exact H1|]. split; [exact H2|]. intros r.
  destruct (N.eq_dec (uval c) 0) as [E|E].
  - rewrite (H4 E). destruct r; [now right|]. left. discriminate.
  - left. intros E'. exact (H3 E _ _ E' eq_refl).
Qed.

Lemma parse_currency_exact' : forall p s int frac e,
  CurrencyText s int frac e -> N.of_nat (length frac) <= e -> hastings int frac e < 2 ^ 128 ->
  exists c, parse_currency p s = Val (inl c) /\ uval c = hastings int frac e.
Proof.
  intros p s int frac e H1 H2 H3. eexists. split; [now apply parse_currency_exact with (1 := H1)|].
  now apply uwrap_small.
Qed.

Lemma parse_currency_malformed : forall p s, (forall int frac e, ~ CurrencyText s int frac e) ->
  exists err, parse_currency p s = Val (inr err).
Proof.
  intros p s H. destruct (parse_currency_wf p s) as [E|(i & f & e & E)]; [exact E|].
  exfalso. exact (H _ _ _ E).
Qed.

Lemma currency_text_frac : forall s int frac e, CurrencyText s int frac e -> (length frac <= length s)%nat.
Proof. intros s int frac e H. destruct H; rewrite ?app_length; cbn; lia. Qed.

Lemma parse_currency_accepted : forall s c, N.of_nat (length s) < 2 ^ 31 ->
  parse_currency Debug s = Val (inl c) ->
  exists int frac e, CurrencyText s int frac e /\ N.of_nat (length frac) <= e /\
    uval c = hastings int frac e.
Proof.
  intros s c Hs H. destruct (parse_currency_wf Debug s) as [[e E]|(i & f & e & E)]; [congruence|].
  exists i, f, e. split; [exact E|]. eapply parse_currency_debug; [exact E| |exact H].
  pose proof (currency_text_frac _ _ _ _ E). lia.
Qed.

Lemma parse_panics : ~ (forall s, exists r, parse_currency Debug s = Val r).
Proof.
  intros H. destruct (H (ascii "1000000000000 TS")) as [r E]. vm_compute in E. discriminate E.
Qed.

Lemma digits_dec : forall s, s <> [] -> forallb is_digit s = true -> digits s.
Proof.
  intros s H1 H2. split; [exact H1|]. apply Forall_forall. intros c Hc.
  apply is_digit_iff. rewrite forallb_forall in H2. now apply H2.
Qed.

Lemma blank_space : blank (ascii " ").
Proof. exists [[x20]]. split; [reflexivity|]. constructor; [|constructor]. cbn; tauto. Qed.

Lemma parse_too_fine :
  CurrencyText (ascii "0.0000000000000000000000001 SC") (ascii "0") (ascii "0000000000000000000000001") 24 /\
  parse_currency Debug (ascii "0.0000000000000000000000001 SC") = Panic ArithOverflow.
Proof.
  split; [|vm_compute; reflexivity].
  apply (text_fraction (ascii "0") (ascii "0000000000000000000000001") (ascii " ") (ascii "SC") 24 []).
  - apply digits_dec; [discriminate|reflexivity].
  - apply digits_dec; [discriminate|reflexivity].
  - exact blank_space.
  - apply blank_nil.
  - cbn; tauto.
Qed.

Lemma parse_wrong : ~ (forall s int frac e c,
  CurrencyText s int frac e -> parse_currency Release s = Val (inl c) -> uval c = hastings int frac e).
Proof.
  intros H.
  assert (E : exists c, parse_currency Release (ascii "1000000000000 TS") = Val (inl c) /\
                        uval c <> 10 ^ 48).
  { destruct (parse_currency Release (ascii "1000000000000 TS")) as [[c|e]|q] eqn:E.
    - exists c. split; [reflexivity|]. intros Ec. pose proof (uint_lt 128 c) as Hc. rewrite Ec in Hc.
      vm_compute in Hc. discriminate Hc.
    - vm_compute in E. discriminate E.
    - vm_compute in E. discriminate E. }
  destruct E as (c & E & N1). apply N1.
  rewrite (H _ (ascii "1000000000000") [] 36 c) with (2 := E); [vm_compute; reflexivity|].
  apply (text_integer (ascii "1000000000000") (ascii " ") (ascii "TS") 36 []).
  - apply digits_dec; [discriminate|reflexivity].
  - exact blank_space.
  - apply blank_nil.
  - cbn; tauto.
Qed.

Lemma currency_examples :
  CurrencyText (ascii "1.25 KS") (ascii "1") (ascii "25") 27 /\
  hastings (ascii "1") (ascii "25") 27 = 1250000000000000000000000000 /\
  (forall int frac e, ~ CurrencyText (ascii "1..2 KS") int frac e).
Proof.
  split; [|split; [vm_compute; reflexivity|]].
  - apply (text_fraction (ascii "1") (ascii "25") (ascii " ") (ascii "KS") 27 []).
    + apply digits_dec; [discriminate|reflexivity].
    + apply digits_dec; [discriminate|reflexivity].
    + exact blank_space.
    + apply blank_nil.
    + cbn; tauto.
  - intros int frac e H.
    assert (Hi : forall p, digits p -> forall r, p ++ r = ascii "1..2 KS" ->
      p = ascii "1" /\ r = ascii "..2 KS").
    { intros p [Hp1 Hp2] r E. destruct p as [|c p]; [contradiction|]. injection E as -> E.
      destruct p as [|c p]; [now subst|]. injection E as -> E.
      inversion Hp2 as [|? ? _ Hq]; subst. inversion Hq as [|? ? Hd _]; subst.
      unfold digit in Hd. cbn in Hd. lia. }
    assert (HU : forall w1 u w2 e', blank w1 -> blank w2 -> u = [] \/ u = ascii "H" \/ In (u, e') units ->
      w1 ++ u ++ w2 <> ascii "..2 KS").
    { intros w1 u w2 e' B1 B2 U E. destruct (unit_trim u w1 w2 e' B1 B2 U) as [_ V].
      rewrite E in V. discriminate V. }
    remember (ascii "1..2 KS") as s eqn:Es.
    destruct H as [int w1 u w2 D1 B1 B2 U|int w1 u e w2 D1 B1 B2 U|int frac w1 u e w2 D1 D2 B1 B2 U];
      destruct (Hi int D1 _ eq_refl) as [_ E].
    + apply (HU w1 u w2 0 B1 B2); [tauto|exact E].
    + apply (HU w1 u w2 e B1 B2); [tauto|exact E].
    + injection E as E. destruct D2 as [D2 D3].
      destruct frac as [|c frac]; [contradiction|]. injection E as -> _.
      inversion D3 as [|? ? Hd _]; subst. unfold digit in Hd. cbn in Hd. lia.
Qed.

Lemma checked_all : forall a b : currency,
  (match checked_add a b with Some c => uval c = uval a + uval b | None => 2 ^ 128 <= uval a + uval b end) /\
  (match checked_sub a b with Some c => uval c + uval b = uval a | None => uval a < uval b end) /\
  (match checked_mul a b with Some c => uval c = uval a * uval b | None => 2 ^ 128 <= uval a * uval b end) /\
  (match checked_div a b with
   | Some c => uval b <> 0 /\ uval b * uval c <= uval a < uval b * (uval c + 1)
   | None => uval b = 0
   end).
Proof.
  intros a b. split; [apply checked_add_spec|]. split; [apply checked_sub_spec|].
  split; [apply checked_mul_spec|apply checked_div_spec].
Qed.

Lemma operators_exact : forall p (a b : currency),
  (uval a + uval b < 2 ^ 128 -> exists c, currency_add p a b = Val c /\ uval c = uval a + uval b) /\
  (uval b <= uval a -> exists c, currency_sub p a b = Val c /\ uval c = uval a - uval b) /\
  (uval a * uval b < 2 ^ 128 -> exists c, currency_mul p a b = Val c /\ uval c = uval a * uval b) /\
  (uval b <> 0 -> exists c, currency_div a b = Val c /\ uval b * uval c <= uval a < uval b * (uval c + 1)) /\
  (uval b <> 0 -> exists c, currency_rem a b = Val c /\ uval c < uval b /\ exists q, uval a = q * uval b + uval c).
Proof.
  intros p a b. split; [apply currency_add_exact|]. split; [apply currency_sub_exact|].
  split; [apply currency_mul_exact|]. split; intros H.
  - destruct (currency_div_spec a b) as [[E _]|[_ E]]; [contradiction|exact E].
  - destruct (currency_rem_spec a b) as [[E _]|[_ E]]; [contradiction|exact E].
Qed.

Lemma operators_debug : forall a b : currency,
  (2 ^ 128 <= uval a + uval b -> currency_add Debug a b = Panic ArithOverflow) /\
  (uval a < uval b -> currency_sub Debug a b = Panic ArithOverflow) /\
  (2 ^ 128 <= uval a * uval b -> currency_mul Debug a b = Panic ArithOverflow) /\
  (uval b = 0 -> currency_div a b = Panic DivByZero /\ currency_rem a b = Panic DivByZero).
Proof.
  intros a b. split; [apply currency_add_overflow|]. split; [apply currency_sub_underflow|].
  split; [apply currency_mul_overflow|]. intros H. split.
  - destruct (currency_div_spec a b) as [[_ E]|[E _]]; [exact E|contradiction].
  - destruct (currency_rem_spec a b) as [[_ E]|[E _]]; [exact E|contradiction].
Qed.

Lemma total_sum : forall l, fold_right N.add 0 (map uval l) = total l.
Proof. induction l as [|c l IH]; [reflexivity|]. exact (f_equal (N.add (uval c)) IH). Qed.

Lemma sum_exact : forall p (l : list currency),
  (fold_right N.add 0 (map uval l) < 2 ^ 128 ->
     exists c, currency_sum p l = Val c /\ uval c = fold_right N.add 0 (map uval l)) /\
  (2 ^ 128 <= fold_right N.add 0 (map uval l) -> currency_sum Debug l = Panic ArithOverflow).
Proof.
  intros p l. rewrite total_sum. split; [apply currency_sum_exact|apply currency_sum_debug].
Qed.

Definition c_max : currency := uwrap 128 (2 ^ 128 - 1).

Lemma operators_release :
  ~ (forall a b c : currency, currency_add Release a b = Val c -> uval c = uval a + uval b) /\
  ~ (forall a b c : currency, currency_sub Release a b = Val c -> uval c + uval b = uval a) /\
  ~ (forall a b c : currency, currency_mul Release a b = Val c -> uval c = uval a * uval b) /\
  ~ (forall (l : list currency) c, currency_sum Release l = Val c -> uval c = fold_right N.add 0 (map uval l)).
Proof.
  assert (E : 2 ^ 128 <= uval c_max + uval c_max) by (vm_compute; discriminate).
  assert (E1 : uval (uwrap 128 0 : currency) < uval c_max) by reflexivity.
  assert (E2 : 2 ^ 128 <= uval c_max * uval c_max) by (vm_compute; discriminate).
  split; [|split; [|split]]; intros H.
  - destruct (currency_add_overflow _ _ E) as [_ (c & Hc & _)]. apply H in Hc.
    pose proof (uint_lt 128 c). lia.
  - destruct (currency_sub_underflow _ _ E1) as [_ (c & Hc & _)]. apply H in Hc.
    change (uval (uwrap 128 0 : currency)) with 0 in *. lia.
  - destruct (currency_mul_overflow _ _ E2) as [_ (c & Hc & _)]. apply H in Hc.
    pose proof (uint_lt 128 c). lia.
  - destruct (currency_sum Release [c_max; c_max]) as [c|q] eqn:Es.
    + specialize (H _ _ Es). pose proof (uint_lt 128 c) as Hc. cbn [map fold_right] in H.
      rewrite N.add_0_r in H. lia.
    + vm_compute in Es. discriminate Es.
Qed.

Lemma hash_text_spec : forall h : hash256, HexText (hash_text h) (aval h) /\ length (hash_text h) = 64%nat.
Proof.
  intros h. split; [apply hex_encode_text|]. unfold hash_text. rewrite hex_encode_length.
  now rewrite arr_len.
Qed.

Lemma hex_repeat : forall c v b n, hex_digit c v -> b2n b = 16 * N.of_nat v + N.of_nat v ->
  HexText (repeat c (2 * n)) (repeat b n).
Proof.
  intros c v b n Hc Hb. induction n as [|n IH]; [constructor|].
  replace (2 * S n)%nat with (S (S (2 * n))) by lia. cbn [repeat].
  now apply hex_cons with (v1 := v) (v2 := v).
Qed.

Lemma hash_examples :
  after_prefix (ascii "h:" ++ repeat "A"%byte 64) (repeat "A"%byte 64) /\
  HexText (repeat "A"%byte 64) (repeat xaa 32).
Proof.
  split.
  - right. exists (ascii "h"). split; [reflexivity|]. constructor; [discriminate|constructor].
  - apply (hex_repeat "A"%byte 10 xaa 32); [right; reflexivity|reflexivity].
Qed.

Lemma address_text_spec : forall a : hash256,
  HexText (address_text a) (aval a ++ firstn 6 (blake2b_256 (aval a))) /\ length (address_text a) = 76%nat.
Proof.
  intros a. split; [apply hex_encode_text|]. unfold address_text. rewrite hex_encode_length.
  now rewrite address_payload_length.
Qed.

Lemma address_literal_refuted : ~ (forall s a, address_literal s = Val a -> parse_address s = inl a).
Proof.
  intros H. specialize (H (repeat "0"%byte 76) (arr_of 32 (repeat x00 32))).
  assert (E : address_literal (repeat "0"%byte 76) = Val (arr_of 32 (repeat x00 32))).
  { apply address_literal_iff. split; [reflexivity|].
    rewrite arr_of_aval by reflexivity. exact (hex_repeat "0"%byte 0 x00 32 (or_introl eq_refl) eq_refl). }
  specialize (H E). vm_compute in H. discriminate H.
Qed.

Lemma hash_literal_refuted : ~ (forall s h, parse_hash s = inl h -> hash_literal s = Val h).
Proof.
  intros H. specialize (H (ascii "h:" ++ repeat "0"%byte 64) (arr_of 32 (repeat x00 32))).
  assert (E : parse_hash (ascii "h:" ++ repeat "0"%byte 64) = inl (arr_of 32 (repeat x00 32))).
  { apply parse_hash_iff. exists (repeat "0"%byte 64). split.
    - right. exists (ascii "h"). split; [reflexivity|]. constructor; [discriminate|constructor].
    - rewrite arr_of_aval by reflexivity. exact (hex_repeat "0"%byte 0 x00 32 (or_introl eq_refl) eq_refl). }
  specialize (H E). vm_compute in H. discriminate H.
Qed.

Lemma specifier_text_from' : forall t, (length t <= 16)%nat -> Utf8 t -> no_trailing_zero t ->
  specifier_text (specifier_from t) = Val t.
Proof. intros t H1 H2 H3. apply utf8_spec in H2. now apply specifier_text_from. Qed.

Lemma specifier_print : forall (s : specifier) t n, aval s = t ++ repeat x00 n -> no_trailing_zero t ->
  (Utf8 t -> specifier_text s = Val t /\ specifier_from t = s) /\
  (~ Utf8 t -> specifier_text s = Panic UnwrapNone).
Proof.
  intros s t n E H. pose proof (trim_zeros_pad t n H) as Ht. rewrite <- E in Ht.
  split; intros Hu; rewrite <- utf8_spec in Hu.
  - assert (Es : specifier_text s = Val t) by (unfold specifier_text; rewrite Ht; cbv zeta; now rewrite Hu).
    split; [exact Es|]. now apply specifier_from_text.
  - apply specifier_text_panics. rewrite Ht. now apply not_true_iff_false.
Qed.

Lemma specifier_text_refuted : ~ (forall t, (length t <= 16)%nat -> Utf8 t -> specifier_text (specifier_from t) = Val t).
Proof.
  intros H. specialize (H [x00]). rewrite <- utf8_spec in H.
  specialize (H ltac:(cbn; lia) eq_refl). vm_compute in H. discriminate H.
Qed.

Lemma specifier_print_refuted : ~ (forall s : specifier, exists t, specifier_text s = Val t).
Proof.
  intros H. destruct (H (specifier_from [xff])) as [t E]. vm_compute in E. discriminate E.
Qed.

Lemma specifier_example : Utf8 (ascii "ed25519") /\ no_trailing_zero (ascii "ed25519") /\
  aval (specifier_from (ascii "ed25519")) = ascii "ed25519" ++ repeat x00 9.
Proof.
  rewrite <- utf8_spec. split; [reflexivity|]. split; [|reflexivity].
  intros u E. apply (f_equal (fun l => last l x01)) in E. rewrite last_last in E. discriminate E.
Qed.

Lemma unlock_key_roundtrip : forall k (s : rstring),
  Forall (fun c => c <> ":"%byte) (aval (uk_algorithm k)) ->
  unlock_key_text k = Val (vlist (sbytes s)) -> parse_unlock_key s = inl k.
Proof. intros k s H1 H2. now apply parse_unlock_key_text. Qed.

Lemma unlock_key_print : forall k t n, aval (uk_algorithm k) = t ++ repeat x00 n -> no_trailing_zero t ->
  (Utf8 t -> exists h, unlock_key_text k = Val (t ++ ascii ":" ++ h) /\ HexText h (vlist (uk_key k))) /\
  (~ Utf8 t -> unlock_key_text k = Panic UnwrapNone).
Proof.
  intros k t n E H. destruct (specifier_print _ t n E H) as [H1 H2]. unfold unlock_key_text.
  split; intros Hu.
  - destruct (H1 Hu) as [-> _]. exists (hex_encode (vlist (uk_key k))). split; [reflexivity|apply hex_encode_text].
  - now rewrite (H2 Hu).
Qed.

Definition colon_key : unlock_key := MkUnlockKey (specifier_from (ascii "a:b")) (@MkVec 1 _ [x01] eq_refl).

Lemma unlock_key_refuted : ~ (forall k (s : rstring),
  unlock_key_text k = Val (vlist (sbytes s)) -> parse_unlock_key s = inl k).
Proof.
  intros H. specialize (H colon_key (MkStr (@MkVec 1 _ (ascii "a:b:01") eq_refl) eq_refl)).
  assert (E : unlock_key_text colon_key = Val (ascii "a:b:01")) by (vm_compute; reflexivity).
  specialize (H E). vm_compute in H. discriminate H.
Qed.

Lemma unlock_key_print_refuted : ~ (forall k, exists t, unlock_key_text k = Val t).
Proof.
  intros H. destruct (H (MkUnlockKey (specifier_from [xff]) (@MkVec 1 _ [] eq_refl))) as [t E].
  vm_compute in E. discriminate E.
Qed.

Lemma text_examples :
  parse_work (ascii "115792089237316195423570985008687907853269984665640564039457584007913129639936") = None /\
  parse_work (ascii "12x") = None /\
  parse_public_key (ascii "ed25518:" ++ repeat "0"%byte 64) = None /\
  HexText (repeat "0"%byte 128) (aval (arr_of 64 (repeat x00 64) : signature)).
Proof.
  split; [vm_compute; reflexivity|]. split; [reflexivity|]. split; [reflexivity|].
  rewrite arr_of_aval by reflexivity. exact (hex_repeat "0"%byte 0 x00 64 (or_introl eq_refl) eq_refl).
Qed.
