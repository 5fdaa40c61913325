(** Specification: the grammar of JSON texts (RFC 8259), independent of any parser. *)

From Verif Require Import Base SpecText SpecUtf8 Model_json Model_jsontypes.
Local Open Scope N_scope.

(** ** Whitespace *)
Definition json_space (w : bytes) : Prop :=
  Forall (fun b => b = " "%byte \/ b = x0a \/ b = x0d \/ b = x09) w.

(** ** Strings (section 7) *)

(** The two-character escapes: the character and the letter after the backslash. *)
Definition short_escapes : list (byte * byte) :=
  [ (""""%byte, """"%byte); ("\"%byte, "\"%byte); ("/"%byte, "/"%byte); (x08, "b"%byte);
    (x0c, "f"%byte); (x0a, "n"%byte); (x0d, "r"%byte); (x09, "t"%byte) ].

(** [\uXXXX] *)
Definition HexEscape (n : N) (t : bytes) : Prop := exists a b c d va vb vc vd,
  t = ["\"%byte; "u"%byte; a; b; c; d] /\
  hex_digit a va /\ hex_digit b vb /\ hex_digit c vc /\ hex_digit d vd /\
  n = 4096 * N.of_nat va + 256 * N.of_nat vb + 16 * N.of_nat vc + N.of_nat vd.

(** A piece of a string and a text for it. Bytes from 128 on belong to longer characters, which
    stand for themselves. *)
Inductive CharText : bytes -> bytes -> Prop :=
| char_plain : forall b, 32 <= b2n b -> b <> """"%byte -> b <> "\"%byte -> CharText [b] [b]
| char_short : forall c e, In (c, e) short_escapes -> CharText [c] ["\"%byte; e]
| char_escape : forall n t, HexEscape n t -> scalar n -> CharText (utf8_char n) t
| char_pair : forall n hi lo t u, 0x10000 <= n < 0x110000 ->
    hi = 0xD800 + (n - 0x10000) / 1024 -> lo = 0xDC00 + (n - 0x10000) mod 1024 ->
    HexEscape hi t -> HexEscape lo u -> CharText (utf8_char n) (t ++ u).

Definition StringText (s t : bytes) : Prop := exists ps : list (bytes * bytes),
  Forall (fun p => CharText (fst p) (snd p)) ps /\
  s = concat (map fst ps) /\ t = """"%byte :: concat (map snd ps) ++ [""""%byte].

(** ** Numbers (section 6) *)

(** an integer without superfluous zeros *)
Definition IntText (n : N) (t : bytes) : Prop :=
  digits t /\ dec_value t = n /\ (t = ascii "0" \/ hd x00 t <> "0"%byte).

Definition FracText (t : bytes) : Prop := exists d, digits d /\ t = "."%byte :: d.
Definition ExpText (t : bytes) : Prop := exists e sign d,
  (e = "e"%byte \/ e = "E"%byte) /\ (sign = [] \/ sign = ascii "+" \/ sign = ascii "-") /\
  digits d /\ t = e :: sign ++ d.

(** Integers that 64 bits can hold are integers; every other number is [JFloat]. *)
Inductive NumText : json -> bytes -> Prop :=
| num_uint : forall n t, IntText (uval n) t -> NumText (JUint n) t
| num_neg : forall z n t, IntText n t -> sval z = (- Z.of_N n)%Z -> n <> 0 -> NumText (JNeg z) (ascii "-" ++ t)
| num_large : forall n t, IntText n t -> 2 ^ 64 <= n -> NumText JFloat t
| num_small : forall n t, IntText n t -> n = 0 \/ 2 ^ 63 < n -> NumText JFloat (ascii "-" ++ t)
| num_float : forall sign n int frac exp,
    sign = [] \/ sign = ascii "-" -> IntText n int ->
    frac = [] \/ FracText frac -> exp = [] \/ ExpText exp -> frac <> [] \/ exp <> [] ->
    NumText JFloat (sign ++ int ++ frac ++ exp).

(** ** Values *)

(** texts with commas between them *)
Fixpoint comma_list (l : list bytes) : bytes :=
  match l with
  | [] => []
  | [x] => x
  | x :: r => x ++ ascii "," ++ comma_list r
  end.

(** a text with space around it *)
Definition Padded (P : bytes -> Prop) (t : bytes) : Prop := exists w1 v w2,
  json_space w1 /\ json_space w2 /\ P v /\ t = w1 ++ v ++ w2.

Inductive ValueText : json -> bytes -> Prop :=
| text_null : ValueText JNull (ascii "null")
| text_true : ValueText (JBool true) (ascii "true")
| text_false : ValueText (JBool false) (ascii "false")
| text_number : forall j t, NumText j t -> ValueText j t
| text_string : forall s t, StringText s t -> ValueText (JStr s) t
| text_empty_array : forall w, json_space w -> ValueText (JArr []) (ascii "[" ++ w ++ ascii "]")
| text_array : forall l ts, l <> [] -> Forall2 (fun j => Padded (ValueText j)) l ts ->
    ValueText (JArr l) (ascii "[" ++ comma_list ts ++ ascii "]")
| text_empty_object : forall w, json_space w -> ValueText (JObj []) (ascii "{" ++ w ++ ascii "}")
| text_object : forall l ts, l <> [] ->
    Forall2 (fun kv t => exists k v, Padded (StringText (fst kv)) k /\ Padded (ValueText (snd kv)) v /\
                                     t = k ++ ascii ":" ++ v) l ts ->
    ValueText (JObj l) (ascii "{" ++ comma_list ts ++ ascii "}").

(** [t] is a text of the document [j]. *)
Definition DocumentText (j : json) (t : bytes) : Prop := Padded (ValueText j) t.

(** ** Documents *)

(** All scalars of the document satisfy [L], all its strings and keys [S]. *)
Inductive Everywhere (L : json -> Prop) (S : bytes -> Prop) : json -> Prop :=
| every_null : L JNull -> Everywhere L S JNull
| every_bool : forall b, L (JBool b) -> Everywhere L S (JBool b)
| every_uint : forall n, L (JUint n) -> Everywhere L S (JUint n)
| every_neg : forall z, L (JNeg z) -> Everywhere L S (JNeg z)
| every_float : L JFloat -> Everywhere L S JFloat
| every_str : forall s, S s -> Everywhere L S (JStr s)
| every_arr : forall l, Forall (Everywhere L S) l -> Everywhere L S (JArr l)
| every_obj : forall l, Forall (fun kv => S (fst kv) /\ Everywhere L S (snd kv)) l -> Everywhere L S (JObj l).

(** all strings and keys are UTF-8 *)
Definition Utf8Doc : json -> Prop := Everywhere (fun _ => True) Utf8.

(** [JNeg] stands for negative numbers *)
Definition SignedDoc : json -> Prop :=
  Everywhere (fun j => match j with JNeg z => (sval z < 0)%Z | _ => True end) (fun _ => True).

(** no number but unsigned integers, and UTF-8 *)
Definition PlainDoc : json -> Prop :=
  Everywhere (fun j => match j with JNeg _ | JFloat => False | _ => True end) Utf8.

(** ** The library's types *)

(** The types with a JSON form, and the lists and options of them. The build profile [p] and the
    stack only matter for reading. *)
Inductive LibraryJson : forall A, codec A -> Prop :=
| lib_bool : LibraryJson _ j_bool
| lib_u8 : LibraryJson _ j_u8
| lib_u64 : LibraryJson _ j_u64
| lib_string : LibraryJson _ j_string
| lib_base64 : LibraryJson _ j_base64
| lib_vec_base64 : LibraryJson _ j_vec_base64
| lib_odt : LibraryJson _ j_odt
| lib_timestamps : LibraryJson _ j_timestamps
| lib_duration : LibraryJson _ j_duration
| lib_hash : LibraryJson _ j_hash
| lib_address : LibraryJson _ j_address
| lib_leaf : LibraryJson _ j_leaf
| lib_public_key : LibraryJson _ j_public_key
| lib_signature : LibraryJson _ j_signature
| lib_work : LibraryJson _ j_work
| lib_specifier : LibraryJson _ j_specifier
| lib_unlock_key : LibraryJson _ j_unlock_key
| lib_currency : forall p, LibraryJson _ (j_currency p)
| lib_chain_index : LibraryJson _ j_chain_index
| lib_siacoin_output : forall p, LibraryJson _ (j_siacoin_output p)
| lib_siafund_output : LibraryJson _ j_siafund_output
| lib_state_element : LibraryJson _ j_state_element
| lib_unlock_conditions : LibraryJson _ j_unlock_conditions
| lib_v1_siacoin_input : LibraryJson _ j_v1_siacoin_input
| lib_v1_siafund_input : LibraryJson _ j_v1_siafund_input
| lib_v1_file_contract : forall p, LibraryJson _ (j_v1_file_contract p)
| lib_v1_file_contract_revision : forall p, LibraryJson _ (j_v1_file_contract_revision p)
| lib_v1_storage_proof : LibraryJson _ j_v1_storage_proof
| lib_covered_fields : LibraryJson _ j_covered_fields
| lib_transaction_signature : LibraryJson _ j_transaction_signature
| lib_v1_transaction : forall p, LibraryJson _ (j_v1_transaction p)
| lib_block : forall p, LibraryJson _ (j_block p)
| lib_policy : forall stack, LibraryJson _ (j_policy stack)
| lib_satisfied_policy : forall stack, LibraryJson _ (j_satisfied_policy stack)
| lib_attestation : LibraryJson _ j_attestation
| lib_v2_file_contract : forall p, LibraryJson _ (j_v2_file_contract p)
| lib_siacoin_element : forall p, LibraryJson _ (j_siacoin_element p)
| lib_siafund_element : forall p, LibraryJson _ (j_siafund_element p)
| lib_file_contract_element : forall p, LibraryJson _ (j_file_contract_element p)
| lib_chain_index_element : LibraryJson _ j_chain_index_element
| lib_v2_siacoin_input : forall p stack, LibraryJson _ (j_v2_siacoin_input p stack)
| lib_v2_siafund_input : forall p stack, LibraryJson _ (j_v2_siafund_input p stack)
| lib_v2_file_contract_revision : forall p, LibraryJson _ (j_v2_file_contract_revision p)
| lib_file_contract_renewal : forall p, LibraryJson _ (j_file_contract_renewal p)
| lib_v2_storage_proof : LibraryJson _ j_v2_storage_proof
| lib_contract_resolution : forall p, LibraryJson _ (j_contract_resolution p)
| lib_file_contract_resolution : forall p, LibraryJson _ (j_file_contract_resolution p)
| lib_v2_transaction : forall p stack, LibraryJson _ (j_v2_transaction p stack)
| lib_element_accumulator : LibraryJson _ j_element_accumulator
| lib_hardfork_dev_addr : LibraryJson _ j_hardfork_dev_addr
| lib_hardfork_tax : LibraryJson _ j_hardfork_tax
| lib_hardfork_storage_proof : LibraryJson _ j_hardfork_storage_proof
| lib_hardfork_oak : LibraryJson _ j_hardfork_oak
| lib_hardfork_asic : LibraryJson _ j_hardfork_asic
| lib_hardfork_foundation : LibraryJson _ j_hardfork_foundation
| lib_hardfork_v2 : LibraryJson _ j_hardfork_v2
| lib_network : forall p, LibraryJson _ (j_network p)
| lib_state : forall p, LibraryJson _ (j_state p)
| lib_chain_state : forall p, LibraryJson _ (j_chain_state p)
| lib_list : forall A (c : codec A), LibraryJson A c -> LibraryJson (list A) (j_list c)
| lib_vec : forall A sz (c : codec A), LibraryJson A c -> LibraryJson (vec sz A) (j_vec sz c)
| lib_option : forall A (c : codec A), LibraryJson A c -> LibraryJson (option A) (j_option c).
Arguments LibraryJson {A}.
