(** Specification of UTF-8, from the code points (Unicode standard, table 3-6). *)

From Verif Require Import Base.
Local Open Scope N_scope.

(** Unicode scalar values: code points that are not surrogates. *)
Definition scalar (c : N) : Prop := c < 0xD800 \/ 0xE000 <= c < 0x110000.

(** The bytes of one character: 7, 11, 16 or 21 bits. *)
Definition utf8_char (c : N) : bytes :=
  if c <? 0x80 then [n2b c]
  else if c <? 0x800 then [n2b (0xC0 + c / 64); n2b (0x80 + c mod 64)]
  else if c <? 0x10000 then
    [n2b (0xE0 + c / 4096); n2b (0x80 + c / 64 mod 64); n2b (0x80 + c mod 64)]
  else
    [n2b (0xF0 + c / 262144); n2b (0x80 + c / 4096 mod 64); n2b (0x80 + c / 64 mod 64);
     n2b (0x80 + c mod 64)].

(** A byte string is UTF-8 when it is a sequence of characters. *)
Definition Utf8 (s : bytes) : Prop :=
  exists cs, Forall scalar cs /\ s = concat (map utf8_char cs).
