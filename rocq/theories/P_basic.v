(** C09-C13: the primitive binary formats. Only statements here; see Spec.v ([le_value],
    [be_value]), SpecUtf8.v ([Utf8]), SpecBasic.v (the integer types) and SpecWire.v. *)

From Verif Require Import Base Io Spec SpecUtf8 SpecWire SpecBasic Model_encoding Model_common BasicProofs RangeProofs RoundProofs.
Local Open Scope N_scope.

(** ** C09 *)

(** Every integer is written as 8 bytes that hold its value, modulo 2^64, in little-endian
    order, and is read back. *)
Theorem C09_layout_partial : forall A val enc dec, IntCodec A val enc dec -> forall a : A,
  length (wbytes (enc a)) = 8%nat /\
  Z.of_N (le_value (wbytes (enc a))) = (val a mod 2 ^ 64)%Z /\
  forall rest, run dec (wbytes (enc a) ++ rest) = ROk a rest.
Proof. exact int_layout. Qed.
Print Assumptions C09_layout_partial.

(** The 64-bit types have no out-of-range encodings: what decode accepts is what it returns. *)
Theorem C09_wide_partial : forall A val dec, WideCodec A val dec ->
  forall bs rest, length bs = 8%nat ->
  exists a : A, run dec (bs ++ rest) = ROk a rest /\ (val a mod 2 ^ 64)%Z = Z.of_N (le_value bs).
Proof. exact wide_exact. Qed.
Print Assumptions C09_wide_partial.

Example C09_wide_example : WideCodec i64 sval decode_i64 /\ length (repeat xfe 8) = 8%nat.
Proof. split; [exact Wide_i64|reflexivity]. Qed.

(** The narrower types do: decode drops the high bytes instead of rejecting them. *)
Theorem C09_out_of_range_refuted : ~ (forall A val enc dec, IntCodec A val enc dec ->
  forall bs (a : A), length bs = 8%nat -> run dec bs = ROk a [] ->
  (val a mod 2 ^ 64)%Z = Z.of_N (le_value bs)).
Proof. exact narrow_refuted. Qed.
Print Assumptions C09_out_of_range_refuted.

Example C09_example :
  IntCodec i16 sval encode_i16 decode_i16 /\
  wbytes (encode_i16 (swrap 16 w16_nz (-2))) = [xfe; xff; xff; xff; xff; xff; xff; xff] /\
  wbytes (encode_u32 (uwrap 32 0x01020304)) = [x04; x03; x02; x01; x00; x00; x00; x00].
Proof. split; [apply Int_i16|split; reflexivity]. Qed.

(** ** C10 *)

Theorem C10_bool : forall b rest,
  run decode_bool (b :: rest) =
  match b with x00 => ROk false rest | x01 => ROk true rest | _ => RErr EInvalidValue end.
Proof. exact bool_tag. Qed.
Print Assumptions C10_bool.

Theorem C10_option : forall A (d : dec A) b rest,
  run (decode_option d) (b :: rest) =
  match b with
  | x00 => ROk None rest
  | x01 => match run d rest with ROk a r => ROk (Some a) r | RErr e => RErr e | RPanic p => RPanic p end
  | _ => RErr EInvalidValue
  end.
Proof. exact option_tag. Qed.
Print Assumptions C10_option.

(** The accepted strings are an 8-byte length and that many bytes of UTF-8. *)
Theorem C10_string_accepts : forall bs s rest,
  run decode_string bs = ROk s rest <->
  exists prefix, bs = prefix ++ vlist (sbytes s) ++ rest /\ length prefix = 8%nat /\
    le_value prefix = N.of_nat (length (vlist (sbytes s))) /\ Utf8 (vlist (sbytes s)).
Proof. exact string_accepts. Qed.
Print Assumptions C10_string_accepts.

(** Every UTF-8 payload is accepted... *)
Theorem C10_string_complete : forall prefix payload rest, length prefix = 8%nat ->
  le_value prefix = N.of_nat (length payload) -> N.of_nat (length payload) <= isize_max ->
  Utf8 payload ->
  exists s, run decode_string (prefix ++ payload ++ rest) = ROk s rest /\ vlist (sbytes s) = payload.
Proof. exact string_complete. Qed.
Print Assumptions C10_string_complete.

(** ... and every other payload is an error. *)
Theorem C10_string_rejects : forall prefix payload rest, length prefix = 8%nat ->
  le_value prefix = N.of_nat (length payload) -> N.of_nat (length payload) <= isize_max ->
  ~ Utf8 payload -> exists e, run decode_string (prefix ++ payload ++ rest) = RErr e.
Proof. exact string_rejects. Qed.
Print Assumptions C10_string_rejects.

(** U+20AC, the euro sign, is UTF-8; an encoded surrogate is not. *)
Example C10_example :
  Utf8 [xe2; x82; xac] /\ ~ Utf8 [xed; xa0; x80] /\ ~ Utf8 [xc0; x80] /\
  le_value [x03; x00; x00; x00; x00; x00; x00; x00] = N.of_nat (length [xe2; x82; xac]).
Proof. exact utf8_examples. Qed.

(** ** C11 *)

Theorem C11_minimal : forall c : currency, exists prefix digits,
  wbytes (encode_v1_currency c) = prefix ++ digits /\ length prefix = 8%nat /\
  le_value prefix = N.of_nat (length digits) /\ be_value digits = uval c /\ hd x01 digits <> x00.
Proof. exact v1_currency_layout'. Qed.
Print Assumptions C11_minimal.

Theorem C11_accepts : forall bs (c : currency) rest,
  run decode_v1_currency bs = ROk c rest <->
  exists prefix digits, bs = prefix ++ digits ++ rest /\ length prefix = 8%nat /\
    le_value prefix = N.of_nat (length digits) /\ (length digits <= 16)%nat /\ uval c = be_value digits.
Proof. exact v1_currency_accepts. Qed.
Print Assumptions C11_accepts.

Theorem C11_rejects : forall prefix rest, length prefix = 8%nat -> 16 < le_value prefix ->
  exists e, run decode_v1_currency (prefix ++ rest) = RErr e.
Proof. exact v1_currency_rejects. Qed.
Print Assumptions C11_rejects.

Example C11_example :
  wbytes (encode_v1_currency (uwrap 128 0x0102)) = [x02; x00; x00; x00; x00; x00; x00; x00; x01; x02] /\
  wbytes (encode_v1_currency (uwrap 128 0)) = repeat x00 8.
Proof. split; reflexivity. Qed.

(** ** C12 *)

Theorem C12_roundtrip : forall (d : duration) rest, (0 <= dur_ns d < 2 ^ 63)%Z ->
  run decode_duration (wbytes (encode_duration d) ++ rest) = ROk d rest.
Proof. exact duration_roundtrip. Qed.
Print Assumptions C12_roundtrip.

Example C12_roundtrip_example : (0 <= dur_ns (MkDur 600000000000 eq_refl) < 2 ^ 63)%Z.
Proof. split; [discriminate|reflexivity]. Qed.

Theorem C12_decode : forall bs rest, length bs = 8%nat ->
  (le_value bs < 2 ^ 63 -> exists d, run decode_duration (bs ++ rest) = ROk d rest /\
     dur_ns d = Z.of_N (le_value bs)) /\
  (2 ^ 63 <= le_value bs -> exists e, run decode_duration (bs ++ rest) = RErr e).
Proof. exact duration_reject. Qed.
Print Assumptions C12_decode.

(** What is written for any duration, also one that does not survive: its nanoseconds modulo 2^64. *)
Theorem C12_layout : forall d : duration, length (wbytes (encode_duration d)) = 8%nat /\
  Z.of_N (le_value (wbytes (encode_duration d))) = (dur_ns d mod 2 ^ 64)%Z.
Proof. exact duration_layout. Qed.
Print Assumptions C12_layout.

(** The durations there are: a whole number of seconds that is an [i64] and less than a second more,
    away from zero. *)
Theorem C12_range : forall z : Z, (exists d, dur_ns d = z) <->
  (- 2 ^ 63 * 10 ^ 9 - 999999999 <= z <= (2 ^ 63 - 1) * 10 ^ 9 + 999999999)%Z.
Proof. exact duration_range. Qed.
Print Assumptions C12_range.

Example C12_example :
  wbytes (encode_duration (MkDur 600000000000 eq_refl)) = [x00; x70; xc9; xb2; x8b; x00; x00; x00].
Proof. reflexivity. Qed.

(** ** C13 *)

(** A timestamp that is a whole number of seconds survives. *)
Theorem C13_roundtrip_partial : forall (t : odt) rest, odt_nanos t = 0 ->
  run decode_odt (wbytes (encode_odt t) ++ rest) = ROk t rest.
Proof. exact timestamp_roundtrip. Qed.
Print Assumptions C13_roundtrip_partial.

Example C13_roundtrip_example : odt_nanos (MkOdt (-86400) 0 eq_refl) = 0.
Proof. reflexivity. Qed.

(** What decode does with every 8-byte string: it reads a signed number of seconds, and
    panics when that is not in the years -9999 to 9999. *)
Theorem C13_decode_partial : forall bs rest, length bs = 8%nat ->
  exists s : i64, (sval s mod 2 ^ 64)%Z = Z.of_N (le_value bs) /\
  ((-377705116800 <= sval s <= 253402300799)%Z ->
     exists t, run decode_odt (bs ++ rest) = ROk t rest /\ odt_secs t = sval s /\ odt_nanos t = 0) /\
  (~ (-377705116800 <= sval s <= 253402300799)%Z -> run decode_odt (bs ++ rest) = RPanic UnwrapNone).
Proof. exact timestamp_reject. Qed.
Print Assumptions C13_decode_partial.

(** Full statement of the rejection: decode returns a value or an error. *)
Theorem C13_rejection_refuted : ~ (forall bs, length bs = 8%nat ->
  (exists t, run decode_odt bs = ROk t []) \/ (exists e, run decode_odt bs = RErr e)).
Proof. exact timestamp_refuted. Qed.
Print Assumptions C13_rejection_refuted.

(** Full statement of the round trip: the fraction of a second is lost. *)
Theorem C13_roundtrip_refuted : ~ (forall t, run decode_odt (wbytes (encode_odt t)) = ROk t []).
Proof. exact timestamp_fraction_refuted. Qed.
Print Assumptions C13_roundtrip_refuted.

(** What is written for any timestamp, and what it is read back as: the start of its second. *)
Theorem C13_layout : forall t : odt, length (wbytes (encode_odt t)) = 8%nat /\
  Z.of_N (le_value (wbytes (encode_odt t))) = (odt_secs t mod 2 ^ 64)%Z.
Proof. exact timestamp_layout. Qed.
Print Assumptions C13_layout.

Theorem C13_rounded_partial : forall (t : odt) rest, exists u,
  run decode_odt (wbytes (encode_odt t) ++ rest) = ROk u rest /\ odt_secs u = odt_secs t /\ odt_nanos u = 0.
Proof. exact timestamp_rounded. Qed.
Print Assumptions C13_rounded_partial.

Example C13_example :
  wbytes (encode_odt (MkOdt (-1) 0 eq_refl)) = repeat xff 8 /\
  length (wbytes (encode_odt (MkOdt 1433600000 0 eq_refl))) = 8%nat.
Proof. split; reflexivity. Qed.
