(** Specification: which JSON documents are read, and as which value. *)

From Verif Require Import Base SpecUtf8 Model_encoding Model_common Model_v1 Model_policy Model_v2 Model_json Model_jsontypes.

(** the document is read as this value *)
Definition reads {A} (c : codec A) (a : A) : json -> Prop := fun j => c_de c j = JOk a.

(** An entry that is looked for: its key, what its value must be, and whether it may be absent. *)
Definition wanted : Type := string * ((json -> Prop) * Prop).
Definition must (k : string) (f : json -> Prop) : wanted := (k, (f, False)).
(** absent when, and only when, the list is empty or there is no value: an empty list can also be given *)
Definition may_list {sz A} (k : string) (f : vec sz A -> json -> Prop) (v : vec sz A) : wanted := (k, (f v, vlist v = [])).
Definition may_option {A} (k : string) (f : option A -> json -> Prop) (o : option A) : wanted := (k, (f o, o = None)).

(** Exactly one entry has this key, and its value is right; or none has, and that is allowed.
    Entries with other keys do not matter, nor does the order. *)
Definition finds (l : list (bytes * json)) (w : wanted) : Prop :=
  let '(k, (f, absent)) := w in
  (exists l1 v l2, l = l1 ++ (ascii k, v) :: l2 /\ ~ In (ascii k) (map fst (l1 ++ l2)) /\ f v) \/
  (~ In (ascii k) (map fst l) /\ absent).

(** The values alone, in order; those missing at the end may be absent. *)
Fixpoint lists (ws : list wanted) (l : list json) : Prop :=
  match ws, l with
  | [], [] => True
  | [], _ :: _ => False
  | (_, (f, _)) :: ws', v :: l' => f v /\ lists ws' l'
  | (_, (_, absent)) :: ws', [] => absent /\ lists ws' []
  end.

(** The reader of a struct: an object with the wanted entries, or an array of the values. *)
Definition StructReader {A} (c : codec A) (ws : A -> list wanted) : Prop :=
  forall a j, c_de c j = JOk a <->
    (exists l, j = JObj l /\ Forall (finds l) (ws a)) \/ (exists l, j = JArr l /\ lists (ws a) l).

(** ** Spend policies and resolutions: of a repeated key the last entry counts, and other keys than
    the known ones are an error. *)

(** the value of the last entry with this key *)
Definition last_is (k : string) (l : list (bytes * json)) (v : json) : Prop :=
  exists l1 l2, l = l1 ++ (ascii k, v) :: l2 /\ ~ In (ascii k) (map fst l2).

Definition some_string (v : json) : Prop := exists s, c_de j_string v = JOk s.

(** The policies in a threshold may be nested [stack] levels deep. *)
Definition PolicyReader (c : codec policy) (inner : codec policy) : Prop :=
  forall x j, c_de c j = JOk x <->
    exists l t v, j = JObj l /\
      (forall k w, In (k, w) l -> (k = ascii "type" /\ some_string w) \/ k = ascii "policy") /\
      last_is "type" l (JStr t) /\ last_is "policy" l v /\
      let v := value_of v in
      match x with
      | PAbove height => t = ascii "above" /\ reads j_u64 height v
      | PAfter time => t = ascii "after" /\ odt_nanos time = 0%N /\
          exists n, reads j_u64 n v /\ (Z.of_N (uval n) = odt_secs time mod 2 ^ 64)%Z
      | PPublicKey k => t = ascii "pk" /\ reads j_public_key k v
      | PHash h => t = ascii "h" /\ reads j_hash h v
      | PThreshold n of => t = ascii "thresh" /\
          let ws := [must "n" (reads j_u8 n); must "of" (reads (j_list inner) of)] in
          ((exists m, v = JObj m /\ Forall (finds m) ws) \/ (exists m, v = JArr m /\ lists ws m))
      | POpaque a => t = ascii "opaque" /\ reads j_address a v
      | PUnlockConditions u => t = ascii "uc" /\ reads j_unlock_conditions u v
      end.

Definition ResolutionReader (p : profile) (c : codec file_contract_resolution) : Prop :=
  forall x j, c_de c j = JOk x <->
    exists l w t v, j = JObj l /\
      (forall k w, In (k, w) l ->
         (k = ascii "parent" /\ exists e, reads (j_file_contract_element p) e w) \/
         (k = ascii "type" /\ some_string w) \/ k = ascii "resolution") /\
      last_is "parent" l w /\ reads (j_file_contract_element p) (fcres_parent x) w /\
      last_is "type" l (JStr t) /\ last_is "resolution" l v /\
      match fcres_resolution x with
      | ResRenewal r => t = ascii "renewal" /\ reads (j_file_contract_renewal p) r (value_of v)
      | ResStorageProof r => t = ascii "storageProof" /\ reads j_v2_storage_proof r (value_of v)
      | ResExpiration => t = ascii "expiration"
      end.
