(** Specification: values of members a type does not know, in JSON texts. *)

From Verif Require Import Base SpecText Model_json Model_jsontypes SpecJson SpecJsonText.
Local Open Scope N_scope.

(** The document with every array and object that is inside [d - 1] others or more replaced by
    [JFloat], a number that no reader of the library accepts *)
Fixpoint cut (d : N) (j : json) : json :=
  match j with
  | JArr l => if d <=? 1 then JFloat else JArr (map (cut (d - 1)) l)
  | JObj l => if d <=? 1 then JFloat else JObj (map (fun kv => (fst kv, cut (d - 1) (snd kv))) l)
  | _ => j
  end.

(** Pieces of a string as in the grammar, but any [\uXXXX] *)
Inductive RoughChar : bytes -> Prop :=
| rough_plain : forall b, 32 <= b2n b -> b <> """"%byte -> b <> "\"%byte -> RoughChar [b]
| rough_short : forall c e, In (c, e) short_escapes -> RoughChar ["\"%byte; e]
| rough_escape : forall n t, HexEscape n t -> RoughChar t.
Definition RoughString (t : bytes) : Prop := exists ps,
  Forall RoughChar ps /\ t = """"%byte :: concat ps ++ [""""%byte].

(** The grammar of JSON texts with such strings; the numbers, spaces and commas are those of
    SpecJsonText.v. *)
Inductive RoughText : bytes -> Prop :=
| rough_null : RoughText (ascii "null")
| rough_true : RoughText (ascii "true")
| rough_false : RoughText (ascii "false")
| rough_number : forall j t, NumText j t -> RoughText t
| rough_string : forall t, RoughString t -> RoughText t
| rough_empty_array : forall w, json_space w -> RoughText (ascii "[" ++ w ++ ascii "]")
| rough_array : forall ts, ts <> [] -> Forall (Padded RoughText) ts -> RoughText (ascii "[" ++ comma_list ts ++ ascii "]")
| rough_empty_object : forall w, json_space w -> RoughText (ascii "{" ++ w ++ ascii "}")
| rough_object : forall ts, ts <> [] ->
    Forall (fun t => exists k v, Padded RoughString k /\ Padded RoughText v /\ t = k ++ ascii ":" ++ v) ts ->
    RoughText (ascii "{" ++ comma_list ts ++ ascii "}").
Definition RoughDocument (t : bytes) : Prop := Padded RoughText t.

(** A text of the member [kv] of an object *)
Definition MemberOf (kv : bytes * json) (t : bytes) : Prop := exists k v,
  Padded (StringText (fst kv)) k /\ Padded (ValueText (snd kv)) v /\ t = k ++ ascii ":" ++ v.

(** No number of the document is outside 64-bit integers. *)
Definition PlainNumbers : json -> Prop := Everywhere (fun j => j <> JFloat) (fun _ => True).

(** ** Texts and the trees they are read into. What can only be skipped is [JFloat]. *)

(** strings with a surrogate that is not paired *)
Definition Unpaired (t : bytes) : Prop := RoughString t /\ forall s, ~ StringText s t.

(** an array or object inside [128 - d] others *)
Definition shown (d : N) (j : json) : json := if d <=? 1 then JFloat else j.

(** the members of an object, unless a key is unpaired ([None]) *)
Fixpoint all_keys (l : list (option bytes * json)) : option (list (bytes * json)) :=
  match l with
  | [] => Some []
  | (k, j) :: l => match k, all_keys l with Some k, Some l => Some ((k, j) :: l) | _, _ => None end
  end.

Inductive SkimText : N -> json -> bytes -> Prop :=
| skim_null : forall d, SkimText d JNull (ascii "null")
| skim_true : forall d, SkimText d (JBool true) (ascii "true")
| skim_false : forall d, SkimText d (JBool false) (ascii "false")
| skim_number : forall d j t, NumText j t -> SkimText d j t
| skim_string : forall d s t, StringText s t -> SkimText d (JStr s) t
| skim_unpaired : forall d t, Unpaired t -> SkimText d JFloat t
| skim_empty_array : forall d w, json_space w -> SkimText d (shown d (JArr [])) (ascii "[" ++ w ++ ascii "]")
| skim_array : forall d l ts, l <> [] -> Forall2 (fun j => Padded (SkimText (d - 1) j)) l ts ->
    SkimText d (shown d (JArr l)) (ascii "[" ++ comma_list ts ++ ascii "]")
| skim_empty_object : forall d w, json_space w -> SkimText d (shown d (JObj [])) (ascii "{" ++ w ++ ascii "}")
| skim_object : forall d l ts, l <> [] ->
    Forall2 (fun kj t => exists k v, Padded (match fst kj with Some s => StringText s | None => Unpaired end) k /\
                                     Padded (SkimText (d - 1) (snd kj)) v /\ t = k ++ ascii ":" ++ v) l ts ->
    SkimText d (match all_keys l with Some m => shown d (JObj m) | None => JFloat end)
      (ascii "{" ++ comma_list ts ++ ascii "}").
Definition SkimDocument (j : json) (t : bytes) : Prop := Padded (SkimText 128 j) t.
