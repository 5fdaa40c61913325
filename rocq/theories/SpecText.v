(** Specification vocabulary for text forms, independent of the model: what decimal and
    hexadecimal digits denote, and the grammar of currency amounts. *)

From Verif Require Import Base.
Local Open Scope N_scope.

(** ** Decimal *)

(** The ASCII characters 0 to 9. *)
Definition digit (c : byte) : Prop := 48 <= b2n c <= 57.

(** The number written by decimal digits. *)
Definition dec_value (s : bytes) : N := fold_left (fun a c => 10 * a + (b2n c - 48)) s 0.

(** A non-empty run of digits. *)
Definition digits (s : bytes) : Prop := s <> [] /\ Forall digit s.

(** ** Whitespace: the UTF-8 encodings of the Unicode characters U+0009 to U+000D, U+0020,
    U+0085, U+00A0, U+1680, U+2000 to U+200A, U+2028, U+2029, U+202F, U+205F, U+3000. *)
Definition whitespace : list bytes :=
  [ [x09]; [x0a]; [x0b]; [x0c]; [x0d]; [x20]; [xc2; x85]; [xc2; xa0]; [xe1; x9a; x80];
    [xe2; x80; x80]; [xe2; x80; x81]; [xe2; x80; x82]; [xe2; x80; x83]; [xe2; x80; x84];
    [xe2; x80; x85]; [xe2; x80; x86]; [xe2; x80; x87]; [xe2; x80; x88]; [xe2; x80; x89];
    [xe2; x80; x8a]; [xe2; x80; xa8]; [xe2; x80; xa9]; [xe2; x80; xaf]; [xe2; x81; x9f];
    [xe3; x80; x80] ].

Definition blank (s : bytes) : Prop := exists cs, s = concat cs /\ Forall (fun c => In c whitespace) cs.

(** ** Currency amounts *)

(** The units, and the number [e] such that the unit is [10^e] hastings. *)
Definition units : list (bytes * N) :=
  [ (ascii "pS", 12); (ascii "nS", 15); (ascii "uS", 18); (ascii "mS", 21); (ascii "SC", 24);
    (ascii "KS", 27); (ascii "MS", 30); (ascii "GS", 33); (ascii "TS", 36) ].

(** [CurrencyText s int frac e]: [s] is a well-formed amount with integer digits [int],
    fraction digits [frac] (empty when there is no decimal point) and a unit of [10^e]
    hastings. Amounts in hastings (unit H or none) have no fraction. *)
Inductive CurrencyText : bytes -> bytes -> bytes -> N -> Prop :=
| text_hastings : forall int w1 u w2,
    digits int -> blank w1 -> blank w2 -> u = [] \/ u = ascii "H" ->
    CurrencyText (int ++ w1 ++ u ++ w2) int [] 0
| text_integer : forall int w1 u e w2,
    digits int -> blank w1 -> blank w2 -> In (u, e) units ->
    CurrencyText (int ++ w1 ++ u ++ w2) int [] e
| text_fraction : forall int frac w1 u e w2,
    digits int -> digits frac -> blank w1 -> blank w2 -> In (u, e) units ->
    CurrencyText (int ++ ascii "." ++ frac ++ w1 ++ u ++ w2) int frac e.

(** The amount is a whole number of hastings when the fraction has at most [e] digits, and
    then it is: *)
Definition hastings (int frac : bytes) (e : N) : N :=
  dec_value int * 10 ^ e + dec_value frac * 10 ^ (e - N.of_nat (length frac)).

(** ** Hexadecimal *)

(** The value of a hexadecimal digit, in either case. *)
Definition hex_digits_lower : bytes := ascii "0123456789abcdef".
Definition hex_digits_upper : bytes := ascii "0123456789ABCDEF".
Definition hex_digit (c : byte) (v : nat) : Prop :=
  nth_error hex_digits_lower v = Some c \/ nth_error hex_digits_upper v = Some c.

(** [HexText s l]: the text [s] writes the bytes [l], two digits per byte. *)
Inductive HexText : bytes -> bytes -> Prop :=
| hex_nil : HexText [] []
| hex_cons : forall c1 v1 c2 v2 s l b,
    hex_digit c1 v1 -> hex_digit c2 v2 -> b2n b = 16 * N.of_nat v1 + N.of_nat v2 ->
    HexText s l -> HexText (c1 :: c2 :: s) (b :: l).

(** The same text up to letter case. *)
Definition lower (c : byte) : byte := if (65 <=? b2n c) && (b2n c <=? 90) then n2b (b2n c + 32) else c.

(** [body] is [s] without its type prefix, if it has one. *)
Definition after_prefix (s body : bytes) : Prop :=
  (s = body /\ Forall (fun b => b <> ":"%byte) body) \/
  (exists prefix, s = prefix ++ ":"%byte :: body /\ Forall (fun b => b <> ":"%byte) prefix).

(** No trailing NUL. *)
Definition no_trailing_zero (t : bytes) : Prop := forall u, t <> u ++ [x00].
