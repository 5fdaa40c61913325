(** C14-C22: text forms and currency arithmetic. Only statements here; SpecText.v says what
    decimal and hexadecimal texts denote and what a currency text is. *)

From Verif Require Import Base Io Spec SpecUtf8 SpecText Model_encoding Model_common Model_v1 Blake2b
  Model_currency Model_consensus Model_text CurrencyProofs TextProofs TextMore CurrencyTotal TextTotal.
Local Open Scope N_scope.

(** ** C14 *)

(** Parsing the printed amount gives the amount back, in both build profiles. *)
Theorem C14_currency_text : forall (p : profile) (c : currency),
  parse_currency p (currency_text c) = Val (inl c).
Proof. exact parse_currency_text. Qed.
Print Assumptions C14_currency_text.

(** The printed form is the decimal number without leading zeros. *)
Theorem C14_printed : forall c : currency,
  digits (currency_text c) /\ dec_value (currency_text c) = uval c /\
  (forall r, currency_text c <> "0"%byte :: r \/ r = []).
Proof. exact currency_text_spec. Qed.
Print Assumptions C14_printed.

Example C14_example :
  currency_text (uwrap 128 340282366920938463463374607431768211455)
    = ascii "340282366920938463463374607431768211455" /\
  currency_text (uwrap 128 0) = ascii "0".
Proof. split; vm_compute; reflexivity. Qed.

(** ** C15 *)

(** A well-formed text whose amount is a whole number of hastings below 2^128 is parsed to
    exactly that amount. *)
Theorem C15_exact_partial : forall p s int frac e,
  CurrencyText s int frac e -> N.of_nat (length frac) <= e -> hastings int frac e < 2 ^ 128 ->
  exists c, parse_currency p s = Val (inl c) /\ uval c = hastings int frac e.
Proof. exact parse_currency_exact'. Qed.
Print Assumptions C15_exact_partial.

(** A text that is not well formed is rejected with an error. *)
Theorem C15_malformed_partial : forall p s, (forall int frac e, ~ CurrencyText s int frac e) ->
  exists err, parse_currency p s = Val (inr err).
Proof. exact parse_currency_malformed. Qed.
Print Assumptions C15_malformed_partial.

(** With overflow checks, whatever is accepted is the denoted amount. *)
Theorem C15_accepted_partial : forall s c, N.of_nat (length s) < 2 ^ 31 ->
  parse_currency Debug s = Val (inl c) ->
  exists int frac e, CurrencyText s int frac e /\ N.of_nat (length frac) <= e /\
    uval c = hastings int frac e.
Proof. exact parse_currency_accepted. Qed.
Print Assumptions C15_accepted_partial.

Example C15_accepted_example : exists c, parse_currency Debug (ascii "0.0005 mS") = Val (inl c) /\
  uval c = 500000000000000000 /\ N.of_nat (length (ascii "0.0005 mS")) < 2 ^ 31.
Proof. eexists. split; [vm_compute; reflexivity|split; reflexivity]. Qed.

(** Full statement, first half: an amount that is not representable is an error. It panics
    with overflow checks... *)
Theorem C15_no_panic_refuted : ~ (forall s, exists r, parse_currency Debug s = Val r).
Proof. exact parse_panics. Qed.
Print Assumptions C15_no_panic_refuted.

(** ... also when the amount has a fraction finer than a hasting... *)
Theorem C15_too_fine_refuted :
  CurrencyText (ascii "0.0000000000000000000000001 SC") (ascii "0") (ascii "0000000000000000000000001") 24 /\
  parse_currency Debug (ascii "0.0000000000000000000000001 SC") = Panic ArithOverflow.
Proof. exact parse_too_fine. Qed.
Print Assumptions C15_too_fine_refuted.

(** ... and without overflow checks it is a wrong amount. *)
Theorem C15_wrong_amount_refuted : ~ (forall s int frac e c,
  CurrencyText s int frac e -> parse_currency Release s = Val (inl c) -> uval c = hastings int frac e).
Proof. exact parse_wrong. Qed.
Print Assumptions C15_wrong_amount_refuted.

(** What every other well-formed text gives: an error when the integer or the fraction part
    alone is too large; otherwise a panic with overflow checks, and without them the amount
    modulo [2^128], ignoring the whole fraction when it is finer than a hasting. *)
Theorem C15_outcome_partial : forall s int frac e, CurrencyText s int frac e ->
  N.of_nat (length s) < 2 ^ 31 ->
  (2 ^ 128 <= dec_value int \/ 2 ^ 128 <= dec_value frac ->
     exists err, forall p, parse_currency p s = Val (inr err)) /\
  (dec_value int < 2 ^ 128 -> dec_value frac < 2 ^ 128 -> N.of_nat (length frac) <= e ->
     2 ^ 128 <= hastings int frac e ->
     parse_currency Debug s = Panic ArithOverflow /\
     exists c, parse_currency Release s = Val (inl c) /\ uval c = hastings int frac e mod 2 ^ 128) /\
  (dec_value int < 2 ^ 128 -> dec_value frac < 2 ^ 128 -> e < N.of_nat (length frac) ->
     parse_currency Debug s = Panic ArithOverflow /\
     exists c, parse_currency Release s = Val (inl c) /\ uval c = (dec_value int * 10 ^ e) mod 2 ^ 128).
Proof. exact parse_currency_outcome. Qed.
Print Assumptions C15_outcome_partial.

Example C15_example :
  CurrencyText (ascii "1.25 KS") (ascii "1") (ascii "25") 27 /\
  hastings (ascii "1") (ascii "25") 27 = 1250000000000000000000000000 /\
  (forall int frac e, ~ CurrencyText (ascii "1..2 KS") int frac e).
Proof. exact currency_examples. Qed.

(** Without overflow checks, a fraction written with one digit too many is lost. *)
Example C15_outcome_example :
  CurrencyText (ascii "1000 TS") (ascii "1000") [] 36 /\
  2 ^ 128 <= hastings (ascii "1000") [] 36 /\ dec_value (ascii "1000") < 2 ^ 128 /\
  CurrencyText (ascii "2.5000000000000 pS") (ascii "2") (ascii "5000000000000") 12 /\
  12 < N.of_nat (length (ascii "5000000000000")) /\
  dec_value (ascii "5000000000000") < 2 ^ 128 /\
  (exists c, parse_currency Release (ascii "2.5000000000000 pS") = Val (inl c) /\ uval c = 2000000000000).
Proof. exact outcome_examples. Qed.

(** ** C16 *)

Theorem C16_checked : forall a b : currency,
  (match checked_add a b with Some c => uval c = uval a + uval b | None => 2 ^ 128 <= uval a + uval b end) /\
  (match checked_sub a b with Some c => uval c + uval b = uval a | None => uval a < uval b end) /\
  (match checked_mul a b with Some c => uval c = uval a * uval b | None => 2 ^ 128 <= uval a * uval b end) /\
  (match checked_div a b with
   | Some c => uval b <> 0 /\ uval b * uval c <= uval a < uval b * (uval c + 1)
   | None => uval b = 0
   end).
Proof. exact checked_all. Qed.
Print Assumptions C16_checked.

(** The operators are exact in both profiles when the result is an amount... *)
Theorem C16_operators_partial : forall p (a b : currency),
  (uval a + uval b < 2 ^ 128 -> exists c, currency_add p a b = Val c /\ uval c = uval a + uval b) /\
  (uval b <= uval a -> exists c, currency_sub p a b = Val c /\ uval c = uval a - uval b) /\
  (uval a * uval b < 2 ^ 128 -> exists c, currency_mul p a b = Val c /\ uval c = uval a * uval b) /\
  (uval b <> 0 -> exists c, currency_div a b = Val c /\ uval b * uval c <= uval a < uval b * (uval c + 1)) /\
  (uval b <> 0 -> exists c, currency_rem a b = Val c /\ uval c < uval b /\ exists q, uval a = q * uval b + uval c).
Proof. exact operators_exact. Qed.
Print Assumptions C16_operators_partial.

(** ... and panic otherwise when overflow checks are on. *)
Theorem C16_debug_partial : forall a b : currency,
  (2 ^ 128 <= uval a + uval b -> currency_add Debug a b = Panic ArithOverflow) /\
  (uval a < uval b -> currency_sub Debug a b = Panic ArithOverflow) /\
  (2 ^ 128 <= uval a * uval b -> currency_mul Debug a b = Panic ArithOverflow) /\
  (uval b = 0 -> currency_div a b = Panic DivByZero /\ currency_rem a b = Panic DivByZero).
Proof. exact operators_debug. Qed.
Print Assumptions C16_debug_partial.

Example C16_debug_example : 2 ^ 128 <= uval (uwrap 128 (2 ^ 128 - 1) : currency) + uval (uwrap 128 1 : currency) /\
  uval (uwrap 128 6 : currency) < uval (uwrap 128 7 : currency) /\
  2 ^ 128 <= uval (uwrap 128 (2 ^ 64) : currency) * uval (uwrap 128 (2 ^ 64) : currency).
Proof. split; [vm_compute; discriminate|]. split; [reflexivity|vm_compute; discriminate]. Qed.

Theorem C16_sum_partial : forall p (l : list currency),
  (fold_right N.add 0 (map uval l) < 2 ^ 128 ->
     exists c, currency_sum p l = Val c /\ uval c = fold_right N.add 0 (map uval l)) /\
  (2 ^ 128 <= fold_right N.add 0 (map uval l) -> currency_sum Debug l = Panic ArithOverflow).
Proof. exact sum_exact. Qed.
Print Assumptions C16_sum_partial.

(** Full statement: never a wrapped amount. Without overflow checks the operators wrap. *)
Theorem C16_release_refuted :
  ~ (forall a b c : currency, currency_add Release a b = Val c -> uval c = uval a + uval b) /\
  ~ (forall a b c : currency, currency_sub Release a b = Val c -> uval c + uval b = uval a) /\
  ~ (forall a b c : currency, currency_mul Release a b = Val c -> uval c = uval a * uval b) /\
  ~ (forall (l : list currency) c, currency_sum Release l = Val c -> uval c = fold_right N.add 0 (map uval l)).
Proof. exact operators_release. Qed.
Print Assumptions C16_release_refuted.

(** Without overflow checks the result is the exact one modulo [2^128]. *)
Theorem C16_wrapping_partial : forall (a b : currency) (l : list currency),
  (exists c, currency_add Release a b = Val c /\ uval c = (uval a + uval b) mod 2 ^ 128) /\
  (exists c, currency_sub Release a b = Val c /\ (uval c + uval b) mod 2 ^ 128 = uval a) /\
  (exists c, currency_mul Release a b = Val c /\ uval c = (uval a * uval b) mod 2 ^ 128) /\
  (exists c, currency_sum Release l = Val c /\ uval c = fold_right N.add 0 (map uval l) mod 2 ^ 128).
Proof. exact operators_wrap. Qed.
Print Assumptions C16_wrapping_partial.

Example C16_example :
  uval (uwrap 128 7 : currency) * uval (uwrap 128 6 : currency) < 2 ^ 128 /\
  fold_right N.add 0 (map uval [uwrap 128 7 : currency; uwrap 128 6]) < 2 ^ 128.
Proof. split; reflexivity. Qed.

(** ** C17 *)

Theorem C17_roundtrip : forall h : hash256, parse_hash (hash_text h) = inl h.
Proof. exact parse_hash_text. Qed.
Print Assumptions C17_roundtrip.

(** The printed form is 64 hexadecimal digits that write the bytes. *)
Theorem C17_printed : forall h : hash256, HexText (hash_text h) (aval h) /\ length (hash_text h) = 64%nat.
Proof. exact hash_text_spec. Qed.
Print Assumptions C17_printed.

Theorem C17_accepts : forall s h,
  parse_hash s = inl h <-> exists body, after_prefix s body /\ HexText body (aval h).
Proof. exact parse_hash_iff. Qed.
Print Assumptions C17_accepts.

Example C17_example :
  after_prefix (ascii "h:" ++ repeat "A"%byte 64) (repeat "A"%byte 64) /\
  HexText (repeat "A"%byte 64) (repeat xaa 32).
Proof. exact hash_examples. Qed.

(** ** C18 *)

Theorem C18_roundtrip : forall a : hash256, parse_address (address_text a) = inl a.
Proof. exact parse_address_text. Qed.
Print Assumptions C18_roundtrip.

(** The printed form is the address followed by the first six bytes of its hash. *)
Theorem C18_printed : forall a : hash256,
  HexText (address_text a) (aval a ++ firstn 6 (blake2b_256 (aval a))) /\ length (address_text a) = 76%nat.
Proof. exact address_text_spec. Qed.
Print Assumptions C18_printed.

Theorem C18_accepts : forall s a, parse_address s = inl a <-> map lower s = address_text a.
Proof. exact parse_address_iff. Qed.
Print Assumptions C18_accepts.

Theorem C18_checksum : forall s data, HexText s data -> length data = 38%nat ->
  skipn 32 data <> firstn 6 (blake2b_256 (firstn 32 data)) -> parse_address s = inr InvalidChecksum.
Proof. exact parse_address_reject. Qed.
Print Assumptions C18_checksum.

Example C18_checksum_example : HexText (repeat "0"%byte 76) (repeat x00 38) /\ length (repeat x00 38) = 38%nat /\
  skipn 32 (repeat x00 38) <> firstn 6 (blake2b_256 (firstn 32 (repeat x00 38))).
Proof.
  split; [|split; [reflexivity|]].
  - apply hex_decode_iff. reflexivity.
  - vm_compute. discriminate.
Qed.

Theorem C18_injective : forall a b, address_text a = address_text b -> a = b.
Proof. exact address_text_inj. Qed.
Print Assumptions C18_injective.

Example C18_example :
  address_text (arr_of 32 (repeat x00 32)) =
    ascii "000000000000000000000000000000000000000000000000000000000000000089eb0d6a8a69" /\
  parse_address (ascii "000000000000000000000000000000000000000000000000000000000000000089eb0d6a8a68") =
    inr InvalidChecksum.
Proof. split; vm_compute; reflexivity. Qed.

(** ** C19 *)

Theorem C19_hash_partial : forall s h,
  hash_literal s = Val h <-> parse_hash s = inl h /\ Forall (fun c => c <> ":"%byte) s.
Proof. exact hash_literal_iff. Qed.
Print Assumptions C19_hash_partial.

Theorem C19_public_key : forall s k, public_key_literal s = Val k <-> parse_public_key s = Some k.
Proof. exact public_key_literal_iff. Qed.
Print Assumptions C19_public_key.

Theorem C19_address_partial : forall s a, parse_address s = inl a -> address_literal s = Val a.
Proof. exact address_literal_agrees. Qed.
Print Assumptions C19_address_partial.

(** Full statement for addresses: the macro accepts wrong checksums. *)
Theorem C19_address_refuted : ~ (forall s a, address_literal s = Val a -> parse_address s = inl a).
Proof. exact address_literal_refuted. Qed.
Print Assumptions C19_address_refuted.

(** Exactly what the address macro accepts: 76 characters of which the first 64 are the
    hexadecimal digits of the address. The others are not looked at. *)
Theorem C19_address_exact_partial : forall s a,
  address_literal s = Val a <-> length s = 76%nat /\ HexText (firstn 64 s) (aval a).
Proof. exact address_literal_iff. Qed.
Print Assumptions C19_address_exact_partial.

(** Full statement for hashes: the macros reject prefixed texts that run-time parsing accepts. *)
Theorem C19_hash_refuted : ~ (forall s h, parse_hash s = inl h -> hash_literal s = Val h).
Proof. exact hash_literal_refuted. Qed.
Print Assumptions C19_hash_refuted.

Example C19_example :
  match hash_literal (repeat "a"%byte 64) with Val _ => True | _ => False end /\
  match public_key_literal (ascii "ed25519:" ++ repeat "0"%byte 64) with Val _ => True | _ => False end /\
  match address_literal (ascii "000000000000000000000000000000000000000000000000000000000000000089eb0d6a8a69") with
  | Val _ => True | _ => False end.
Proof. repeat split. Qed.

(** ** C20 *)

Theorem C20_text_partial : forall t, (length t <= 16)%nat -> Utf8 t -> no_trailing_zero t ->
  specifier_text (specifier_from t) = Val t.
Proof. exact specifier_text_from'. Qed.
Print Assumptions C20_text_partial.

Theorem C20_injective_partial : forall t t', (length t <= 16)%nat -> (length t' <= 16)%nat ->
  no_trailing_zero t -> no_trailing_zero t' -> specifier_from t = specifier_from t' -> t = t'.
Proof. exact specifier_from_inj. Qed.
Print Assumptions C20_injective_partial.

(** Printing a specifier whose bytes, up to the trailing zeros, are UTF-8 and converting back
    gives the specifier; printing panics for every other one. *)
Theorem C20_specifier_partial : forall (s : specifier) t n, aval s = t ++ repeat x00 n -> no_trailing_zero t ->
  (Utf8 t -> specifier_text s = Val t /\ specifier_from t = s) /\
  (~ Utf8 t -> specifier_text s = Panic UnwrapNone).
Proof. exact specifier_print. Qed.
Print Assumptions C20_specifier_partial.

(** Whatever the length of the text: its first 16 bytes, and zeros if there are fewer. *)
Theorem C20_bytes_partial : forall t i, (i < 16)%nat -> nth i (aval (specifier_from t)) x00 = nth i t x00.
Proof. exact specifier_from_nth. Qed.
Print Assumptions C20_bytes_partial.

Theorem C20_text_refuted : ~ (forall t, (length t <= 16)%nat -> Utf8 t -> specifier_text (specifier_from t) = Val t).
Proof. exact specifier_text_refuted. Qed.
Print Assumptions C20_text_refuted.

Theorem C20_print_refuted : ~ (forall s : specifier, exists t, specifier_text s = Val t).
Proof. exact specifier_print_refuted. Qed.
Print Assumptions C20_print_refuted.

Example C20_example : Utf8 (ascii "ed25519") /\ no_trailing_zero (ascii "ed25519") /\
  aval (specifier_from (ascii "ed25519")) = ascii "ed25519" ++ repeat x00 9.
Proof. exact specifier_example. Qed.

(** ** C21 *)

(** Unlock keys whose algorithm has no colon survive, and printing panics only when the
    algorithm is not text. *)
Theorem C21_roundtrip_partial : forall k (s : rstring),
  Forall (fun c => c <> ":"%byte) (aval (uk_algorithm k)) ->
  unlock_key_text k = Val (vlist (sbytes s)) -> parse_unlock_key s = inl k.
Proof. exact unlock_key_roundtrip. Qed.
Print Assumptions C21_roundtrip_partial.

(** Exactly those: when the algorithm has a colon, the printed text is rejected. *)
Theorem C21_printed_partial : forall k (s : rstring), unlock_key_text k = Val (vlist (sbytes s)) ->
  (~ In ":"%byte (aval (uk_algorithm k)) -> parse_unlock_key s = inl k) /\
  (In ":"%byte (aval (uk_algorithm k)) -> exists e, parse_unlock_key s = inr e).
Proof. exact printed_parse. Qed.
Print Assumptions C21_printed_partial.

(** Which texts are accepted, as which keys: everything before the first colon names the
    algorithm, of which the first 16 bytes count. *)
Theorem C21_accepted_partial : forall (s : rstring) k,
  parse_unlock_key s = inl k <->
  exists prefix body, vlist (sbytes s) = prefix ++ ":"%byte :: body /\
    Forall (fun c => c <> ":"%byte) prefix /\ HexText body (vlist (uk_key k)) /\
    forall i, (i < 16)%nat -> nth i (aval (uk_algorithm k)) x00 = nth i prefix x00.
Proof. exact parse_unlock_key_iff. Qed.
Print Assumptions C21_accepted_partial.

Theorem C21_print_partial : forall k t n, aval (uk_algorithm k) = t ++ repeat x00 n -> no_trailing_zero t ->
  (Utf8 t -> exists h, unlock_key_text k = Val (t ++ ascii ":" ++ h) /\ HexText h (vlist (uk_key k))) /\
  (~ Utf8 t -> unlock_key_text k = Panic UnwrapNone).
Proof. exact unlock_key_print. Qed.
Print Assumptions C21_print_partial.

Theorem C21_roundtrip_refuted : ~ (forall k (s : rstring),
  unlock_key_text k = Val (vlist (sbytes s)) -> parse_unlock_key s = inl k).
Proof. exact unlock_key_refuted. Qed.
Print Assumptions C21_roundtrip_refuted.

Theorem C21_print_refuted : ~ (forall k, exists t, unlock_key_text k = Val t).
Proof. exact unlock_key_print_refuted. Qed.
Print Assumptions C21_print_refuted.

Example C21_accepted_example :
  (exists s : rstring, vlist (sbytes s) = ascii "entropy-is-very-long:0aFF" /\
     exists k, parse_unlock_key s = inl k /\ aval (uk_algorithm k) = ascii "entropy-is-very-" /\
       vlist (uk_key k) = [x0a; xff]) /\
  aval (specifier_from (ascii "a:b")) = ascii "a:b" ++ repeat x00 13.
Proof. exact unlock_key_examples. Qed.

Example C21_example :
  unlock_key_text (MkUnlockKey (specifier_from (ascii "ed25519")) (@MkVec 1 _ [x01; xff] eq_refl))
    = Val (ascii "ed25519:01ff") /\
  Forall (fun c => c <> ":"%byte) (aval (specifier_from (ascii "ed25519"))).
Proof. split; [vm_compute; reflexivity|]. vm_compute. repeat constructor; discriminate. Qed.

(** ** C22 *)

Theorem C22_public_key : forall s k,
  parse_public_key s = Some k <-> exists body, s = ascii "ed25519:" ++ body /\ HexText body (aval k).
Proof. exact parse_public_key_iff. Qed.
Print Assumptions C22_public_key.

Theorem C22_public_key_text : forall k, parse_public_key (public_key_text k) = Some k.
Proof. exact parse_public_key_text. Qed.
Print Assumptions C22_public_key_text.

Theorem C22_signature : forall s (g : signature), parse_signature s = inl g <-> HexText s (aval g).
Proof. exact parse_signature_iff. Qed.
Print Assumptions C22_signature.

Theorem C22_signature_text : forall g, parse_signature (signature_text g) = inl g.
Proof. exact parse_signature_text. Qed.
Print Assumptions C22_signature_text.

Theorem C22_work : forall s (w : work), parse_work s = Some w <-> Forall digit s /\ dec_value s = uval w.
Proof. exact parse_work_iff. Qed.
Print Assumptions C22_work.

Theorem C22_work_text : forall w, parse_work (work_text w) = Some w.
Proof. exact parse_work_text. Qed.
Print Assumptions C22_work_text.

(** The same for storage proof leaves, 64 bytes of hexadecimal. *)
Theorem C22_leaf : forall s (l : leaf), parse_leaf s = inl l <-> HexText s (aval l).
Proof. exact parse_leaf_iff. Qed.
Print Assumptions C22_leaf.

Example C22_example :
  parse_work (ascii "115792089237316195423570985008687907853269984665640564039457584007913129639936") = None /\
  parse_work (ascii "12x") = None /\
  parse_public_key (ascii "ed25518:" ++ repeat "0"%byte 64) = None /\
  HexText (repeat "0"%byte 128) (aval (arr_of 64 (repeat x00 64) : signature)).
Proof. exact text_examples. Qed.
