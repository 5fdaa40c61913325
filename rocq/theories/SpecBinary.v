(** Specification: what becomes of a value that is serialised and then deserialised. *)

From Verif Require Import Base SpecText Model_json Model_jsontypes.

(** Serialising [a] succeeds and deserialising what was written gives [a]. *)
Definition Kept {A} (c : codec A) (a : A) : Prop := exists j, c_ser c a = JOk j /\ c_de c j = JOk a.

(** Serialising [a] succeeds and deserialising what was written is an error. *)
Definition Lost {A} (c : codec A) (a : A) : Prop := exists j, c_ser c a = JOk j /\ c_de c j = JErr.

(** [HashForms j b]: the document [b] is [j], except that it may write a hash as the array of its 32
    bytes where [j] has the text of 64 hexadecimal digits. Members keep their names and their order. *)
Inductive HashForms : json -> json -> Prop :=
| forms_same : forall j, HashForms j j
| forms_hash : forall t l, HexText t l -> length l = 32%nat ->
    HashForms (JStr t) (JArr (map (fun b => JUint (uwrap 64 (b2n b))) l))
| forms_array : forall l l', Forall2 HashForms l l' -> HashForms (JArr l) (JArr l')
| forms_object : forall l l', Forall2 (fun x y => fst x = fst y /\ HashForms (snd x) (snd y)) l l' ->
    HashForms (JObj l) (JObj l').

(** The two serialisers write [a] in documents that are equal up to the form of hashes, or both
    fail and in the same way. *)
Definition SameUpToHashes {A} (c b : codec A) (a : A) : Prop :=
  match c_ser c a, c_ser b a with
  | JOk j, JOk j' => HashForms j j'
  | JErr, JErr => True
  | JPanic q, JPanic q' => q = q'
  | _, _ => False
  end.

(** Whatever the document, the two deserialisers give the same value, or fail in the same way. *)
Definition SameReading {A} (c b : codec A) : Prop := forall j, c_de c j = c_de b j.
