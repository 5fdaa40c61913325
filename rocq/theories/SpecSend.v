(** Specification: what was read from JSON, written again or sent to a peer. *)

From Verif Require Import Base Io SpecUtf8 SpecText SpecWire SpecJson SpecFate Model_encoding Model_common Model_v1
  Model_policy Model_v2 Model_json Model_jsontypes Model_jsontext.
Local Open Scope N_scope.

(** What was read can be written and read again when the names of all its keys are text, and writing
    it panics otherwise. *)
Definition RereadByKeys {A} (c : codec A) (d : N) (keys : list unlock_key) (a : A) : Prop :=
  (Forall printable keys -> SurvivesJson c d a) /\ (~ Forall printable keys -> PanicsJson c a).

(** The same for the texts *)
Definition TextRereadByKeys {A} (c : codec A) (keys : list unlock_key) (a : A) : Prop :=
  (Forall printable keys -> forall t, wrote c a t -> from_str c t = JOk a) /\
  (~ Forall printable keys -> exists q, to_string c a = JPanic q /\ to_string_pretty c a = JPanic q).

(** The text of a key is a name without a colon, a colon and hexadecimal digits. Of the name the first
    16 bytes are kept. *)
Definition KeyText (s : bytes) (k : unlock_key) : Prop :=
  exists name h, s = name ++ ":"%byte :: h /\ ~ In ":"%byte name /\ HexText h (vlist (uk_key k)) /\
    aval (uk_algorithm k) = firstn 16 name ++ repeat x00 (16 - length name).

(** Its bytes are read as the same value, whatever follows them. *)
Definition Arrives {A} (enc : A -> wprog) (dec : dec A) (a : A) : Prop :=
  forall rest, run dec (wbytes (enc a) ++ rest) = ROk a rest.
