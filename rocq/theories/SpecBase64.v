(** Specification: base64 text (RFC 4648, section 4). *)

From Verif Require Import Base.
Local Open Scope N_scope.

Definition base64_alphabet : bytes :=
  ascii "ABCDEFGHIJKLMNOPQRSTUVWXYZabcdefghijklmnopqrstuvwxyz0123456789+/".

(** The [k] lowest bits of a number, the highest of them first. *)
Fixpoint bits (k : nat) (n : N) : list bool :=
  match k with O => [] | S k' => N.testbit n (N.of_nat k') :: bits k' n end.

(** [s] is the base64 text of [l]: the bits of the bytes, filled up with less than six zeros, are
    cut into groups of six; each group selects a symbol of the alphabet; and less than four equal
    signs fill up the text to a multiple of four characters. *)
Definition Base64Text (s l : bytes) : Prop :=
  exists groups zeros pads,
    flat_map (fun b => bits 8 (b2n b)) l ++ repeat false zeros = flat_map (bits 6) groups /\
    Forall (fun g => g < 64) groups /\ (zeros < 6)%nat /\
    s = map (fun g => nth (N.to_nat g) base64_alphabet x00) groups ++ repeat "="%byte pads /\
    (pads < 4)%nat /\ (length s mod 4 = 0)%nat.
