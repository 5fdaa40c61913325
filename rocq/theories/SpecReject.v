(** Specification: why a hexadecimal text is not one. *)

From Verif Require Import Base SpecText.
Local Open Scope N_scope.

(** [c] is the first character of [s] that is not a hexadecimal digit, and [i] characters come
    before it. *)
Definition FirstBad (s : bytes) (c : byte) (i : N) : Prop :=
  exists before after, s = before ++ c :: after /\ i = N.of_nat (length before) /\
    Forall (fun d => exists v, hex_digit d v) before /\ forall v, ~ hex_digit c v.

(** [AmountParts s value unit]: [value] is the longest prefix of [s] of digits and dots, and [unit] is
    what follows, without the whitespace around it. *)
Definition AmountParts (s value unit : bytes) : Prop :=
  exists w1 w2, s = value ++ w1 ++ unit ++ w2 /\ blank w1 /\ blank w2 /\
    Forall (fun c => digit c \/ c = "."%byte) value /\
    (forall c r, w1 ++ unit ++ w2 = c :: r -> ~ digit c /\ c <> "."%byte) /\
    (forall w t, In w whitespace -> unit <> w ++ t /\ unit <> t ++ w).

(** No number of hastings can be read from these digits: there are none or too many. *)
Definition BadDigits (q : bytes) : Prop := q = [] \/ 2 ^ 128 <= dec_value q.
