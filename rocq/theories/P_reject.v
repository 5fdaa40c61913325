(** Property C70: which error a rejected text gives. [FirstBad], [AmountParts] and [BadDigits] are in
    SpecReject.v, [HexText], [after_prefix], [blank] and [units] in SpecText.v. Only statements. *)

From Verif Require Import Base SpecText SpecReject Blake2b Model_common Model_v1 Model_currency Model_text RejectProofs
  RejectCurrency.
Local Open Scope N_scope.

(** ** C70 *)

(** Hashes and identifiers: the length is looked at first, then the first character that is not a
    digit is named, with its place after the prefix. *)
Theorem C70_hash : forall s e, parse_hash s = inr e <-> exists body, after_prefix s body /\
  match e with
  | InvalidLength => length body <> 64%nat
  | HexError (InvalidHexCharacter c i) => length body = 64%nat /\ FirstBad body c i
  | _ => False
  end.
Proof. exact hash_error. Qed.
Print Assumptions C70_hash.

Theorem C70_address : forall s e, parse_address s = inr e <->
  match e with
  | InvalidLength => length s <> 76%nat
  | HexError (InvalidHexCharacter c i) => length s = 76%nat /\ FirstBad s c i
  | InvalidChecksum => exists data, HexText s data /\ length data = 38%nat /\
      skipn 32 data <> firstn 6 (blake2b_256 (firstn 32 data))
  | _ => False
  end.
Proof. exact address_error. Qed.
Print Assumptions C70_address.

Theorem C70_leaf : forall s e, parse_leaf s = inr e <->
  match e with
  | InvalidLength => length s <> 128%nat
  | HexError (InvalidHexCharacter c i) => length s = 128%nat /\ FirstBad s c i
  | _ => False
  end.
Proof. exact leaf_error. Qed.
Print Assumptions C70_leaf.

(** Signatures: an odd length is an error of its own, and a wrong even length is found only after
    the digits. *)
Theorem C70_signature : forall s e, parse_signature s = inr e <->
  match e with
  | HexError OddLength => Nat.odd (length s) = true
  | HexError (InvalidHexCharacter c i) => Nat.odd (length s) = false /\ FirstBad s c i
  | InvalidLength => exists data, HexText s data /\ length data <> 64%nat
  | _ => False
  end.
Proof. exact signature_error. Qed.
Print Assumptions C70_signature.

(** Unlock keys: the prefix is missing exactly when there is no colon. *)
Theorem C70_unlock_key : forall (s : rstring) e, parse_unlock_key s = inr e <->
  match e with
  | MissingPrefix => Forall (fun c => c <> ":"%byte) (vlist (sbytes s))
  | HexError x => exists prefix body, vlist (sbytes s) = prefix ++ ":"%byte :: body /\
      Forall (fun c => c <> ":"%byte) prefix /\
      match x with
      | OddLength => Nat.odd (length body) = true
      | InvalidHexCharacter c i => Nat.odd (length body) = false /\ FirstBad body c i
      | InvalidStringLength => False
      end
  | _ => False
  end.
Proof. exact key_error. Qed.
Print Assumptions C70_unlock_key.

Example C70_example :
  FirstBad (ascii "00g0") "g" 2 /\
  parse_hash (ascii "h:" ++ repeat "a"%byte 63 ++ ascii "z") = inr (HexError (InvalidHexCharacter "z" 63)) /\
  parse_signature (ascii "abc") = inr (HexError OddLength) /\
  parse_leaf (ascii "abcd") = inr InvalidLength.
Proof. exact reject_examples. Qed.

(** Amounts. A text is the longest run of digits and dots, and a unit. Hastings are a whole number,
    in which a dot is an invalid digit unless the digits before it are already too large. *)
Theorem C70_currency : forall p s, exists value unit, AmountParts s value unit /\
  forall e, parse_currency p s = Val (inr e) <->
    match e with
    | ParseIntErr x => (unit = [] \/ unit = ascii "H") /\
        match x with
        | IEmpty => value = []
        | IInvalidDigit => exists a b, value = a ++ "."%byte :: b /\ Forall digit a /\ dec_value a < 2 ^ 128
        | IPosOverflow => exists a b, value = a ++ b /\ Forall digit a /\ 2 ^ 128 <= dec_value a
        end
    | InvalidUnit u => u = unit /\ unit <> [] /\ unit <> ascii "H" /\ forall k, ~ In (unit, k) units
    | InvalidFormat m => (exists k, In (unit, k) units) /\
        ((m = "too many decimal points"%string /\
          exists a b c, value = a ++ "."%byte :: b ++ "."%byte :: c) \/
         (m = "invalid integer part"%string /\ Forall digit value /\ BadDigits value) \/
         (m = "invalid integer part"%string /\
          exists int frac, value = int ++ "."%byte :: frac /\ Forall digit int /\ Forall digit frac /\
            (BadDigits int \/ BadDigits frac)))
    end.
Proof. exact currency_errors. Qed.
Print Assumptions C70_currency.

Example C70_currency_example :
  AmountParts (ascii "1.5 XS ") (ascii "1.5") (ascii "XS") /\
  parse_currency Debug (ascii "1.5 XS ") = Val (inr (InvalidUnit (ascii "XS"))) /\
  parse_currency Debug (ascii "1.5.2KS") = Val (inr (InvalidFormat "too many decimal points")) /\
  parse_currency Debug (ascii ".5 KS") = Val (inr (InvalidFormat "invalid integer part")) /\
  parse_currency Debug (ascii "1.5") = Val (inr (ParseIntErr IInvalidDigit)) /\
  parse_currency Debug (ascii "H") = Val (inr (ParseIntErr IEmpty)).
Proof. exact currency_error_examples. Qed.
