(** Specifications that do not depend on the modelled code: what round trip, canonicity,
    little-endian, ... mean. Only the reader/writer vocabulary of [Io.v] is used. *)

From Verif Require Import Base Io.
Local Open Scope N_scope.

(** ** Codecs *)

(** Decoding the encoding of any value, followed by anything, gives back the value and
    stops exactly at the end of the encoding. *)
Definition RoundTrip {A} (enc : A -> wprog) (d : dec A) : Prop :=
  forall a rest, run d (wbytes (enc a) ++ rest) = ROk a rest.

(** The same for the values satisfying [P]. *)
Definition RoundTripOn {A} (P : A -> Prop) (enc : A -> wprog) (d : dec A) : Prop :=
  forall a rest, P a -> run d (wbytes (enc a) ++ rest) = ROk a rest.

(** Encodings can be split from what follows in only one way. *)
Definition Unambiguous {A} (enc : A -> wprog) : Prop :=
  forall a b x y, wbytes (enc a) ++ x = wbytes (enc b) ++ y -> a = b /\ x = y.

Definition UnambiguousOn {A} (P : A -> Prop) (enc : A -> wprog) : Prop :=
  forall a b x y, P a -> P b -> wbytes (enc a) ++ x = wbytes (enc b) ++ y -> a = b /\ x = y.

(** Whatever is accepted is exactly an encoding. *)
Definition Canonical {A} (enc : A -> wprog) (d : dec A) : Prop :=
  forall bs a rest, run d bs = ROk a rest -> bs = wbytes (enc a) ++ rest.

(** Input that stops inside an encoding is rejected with an error. *)
Definition RejectsTruncated {A} (enc : A -> wprog) (d : dec A) : Prop :=
  forall a p q, wbytes (enc a) = p ++ q -> q <> [] -> exists e, run d p = RErr e.

Definition RejectsTruncatedOn {A} (P : A -> Prop) (enc : A -> wprog) (d : dec A) : Prop :=
  forall a p q, P a -> wbytes (enc a) = p ++ q -> q <> [] -> exists e, run d p = RErr e.

(** Whatever is accepted satisfies [P]. *)
Definition DecodesInto {A} (P : A -> Prop) (d : dec A) : Prop :=
  forall bs a rest, run d bs = ROk a rest -> P a.

(** The decoder panics only for reasons in [P], whatever the input. *)
Definition PanicsOnly {A} (P : panic -> Prop) (d : dec A) : Prop :=
  forall bs p, run d bs = RPanic p -> P p.

(** The decoder never panics. *)
Definition NeverPanics {A} (d : dec A) : Prop := forall bs p, run d bs <> RPanic p.

(** An encoder that hands every writer error to its caller. *)
Definition Propagates {A} (enc : A -> wprog) : Prop := forall a, propagates (enc a).

(** ** Numbers as byte strings *)

(** The number denoted by a little-endian byte string: byte [i] weighs [256^i]. *)
Fixpoint le_value_from (i : N) (l : bytes) : N :=
  match l with
  | [] => 0
  | b :: r => Byte.to_N b * 256 ^ i + le_value_from (i + 1) r
  end.
Definition le_value (l : bytes) : N := le_value_from 0 l.

(** The number denoted by a big-endian byte string. *)
Definition be_value (l : bytes) : N := fold_left (fun acc b => acc * 256 + Byte.to_N b) l 0.
