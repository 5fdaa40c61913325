(** Model: how [serde_json::from_str] (serde_json 1.0.134, pinned in Cargo.lock) treats the values
    of members a type does not know. [Deserializer::ignore_value] skips them: it checks their
    syntax, but does not count how deeply they are nested, does not pair surrogates in their strings
    and keys, and computes no number. Model_jsontext.v holds them to the rules of the other values.

    Here a text is read into a tree in which [JFloat], which no reader accepts, stands for what only
    skipping accepts: brackets nested too deeply, strings with a lone surrogate, objects with such a
    key. The readers of the types then do not see it in members they do not know, and fail
    elsewhere. This is exact for the types whose readers go through the text itself. Spend policies
    and contract resolutions are first read into a [serde_json::Value], which nothing is skipped in:
    for those inside other types this model accepts more than the program (Model_jsontext.v is
    exact there). *)

From Verif Require Import Base Io Model_currency Model_text Model_json Model_jsontypes Model_jsontext.
Local Open Scope N_scope.

(** [SliceRead::ignore_str] and [ignore_escape], after the opening quote: what follows the closing
    quote. *)
Fixpoint skip_str (s : bytes) : option bytes :=
  match s with
  | [] => None
  | b :: r =>
    if Byte.eqb b """" then Some r
    else if Byte.eqb b "\" then
      match r with
      | [] => None
      | e :: r1 =>
        if Byte.eqb e "u" then
          match r1 with
          | h0 :: h1 :: h2 :: h3 :: r2 =>
            match hex4 h0 h1 h2 h3 with Some _ => skip_str r2 | None => None end
          | _ => None
          end
        else match short_escape e with Some _ => skip_str r1 | None => None end
      end
    else if b2n b <? 32 then None
    else skip_str r
  end.

(** A string, or [None] where only skipping accepts it *)
Definition lenient_str (s : bytes) : option (option bytes * bytes) :=
  match parse_str s with
  | Some (t, r) => Some (Some t, r)
  | None => match skip_str s with Some r => Some (None, r) | None => None end
  end.

(** [deserialize_any] where it succeeds and [ignore_value] otherwise. [ignore_value] keeps the open
    brackets in a vector; here it is recursive like the other. *)
Fixpoint lenient_value (fuel : nat) (depth : N) (s : bytes) {struct fuel} : option (json * bytes) :=
  match fuel with
  | O => None
  | S f =>
    match skip_ws s with
    | [] => None
    | b :: r =>
      if Byte.eqb b "n" then
        match parse_ident (ascii "ull") r with Some r' => Some (JNull, r') | None => None end
      else if Byte.eqb b "t" then
        match parse_ident (ascii "rue") r with Some r' => Some (JBool true, r') | None => None end
      else if Byte.eqb b "f" then
        match parse_ident (ascii "alse") r with Some r' => Some (JBool false, r') | None => None end
      else if Byte.eqb b "-" then parse_number false r
      else if is_digit b then parse_number true (b :: r)
      else if Byte.eqb b """" then
        match lenient_str r with
        | Some (Some t, r') => Some (JStr t, r')
        | Some (None, r') => Some (JFloat, r')
        | None => None
        end
      else if Byte.eqb b "[" then
        match lenient_elements f (depth - 1) true r with
        | Some (l, r') => Some (if depth - 1 =? 0 then JFloat else JArr l, r')
        | None => None
        end
      else if Byte.eqb b "{" then
        match lenient_members f (depth - 1) true r with
        | Some (Some l, r') => Some (if depth - 1 =? 0 then JFloat else JObj l, r')
        | Some (None, r') => Some (JFloat, r')
        | None => None
        end
      else None
    end
  end
with lenient_elements (fuel : nat) (depth : N) (first : bool) (s : bytes) {struct fuel} :
    option (list json * bytes) :=
  match fuel with
  | O => None
  | S f =>
    let element r :=
      match lenient_value f depth r with
      | Some (j, r') =>
        match lenient_elements f depth false r' with Some (l, r'') => Some (j :: l, r'') | None => None end
      | None => None
      end in
    match skip_ws s with
    | [] => None
    | b :: r =>
      if Byte.eqb b "]" then Some ([], r)
      else if first then element (b :: r)
      else if Byte.eqb b "," then
        match skip_ws r with
        | c :: r' => if Byte.eqb c "]" then None else element (c :: r')
        | [] => None
        end
      else None
    end
  end
with lenient_members (fuel : nat) (depth : N) (first : bool) (s : bytes) {struct fuel} :
    option (option (list (bytes * json)) * bytes) :=
  match fuel with
  | O => None
  | S f =>
    let member r :=
      match r with
      | b :: r =>
        if Byte.eqb b """" then
          match lenient_str r with
          | None => None
          | Some (k, r1) =>
            match skip_ws r1 with
            | [] => None
            | c :: r2 =>
              if Byte.eqb c ":" then
                match lenient_value f depth r2 with
                | Some (j, r') =>
                  match lenient_members f depth false r' with
                  | Some (l, r'') =>
                    Some (match k, l with Some k, Some l => Some ((k, j) :: l) | _, _ => None end, r'')
                  | None => None
                  end
                | None => None
                end
              else None
            end
          end
        else None
      | [] => None
      end in
    match skip_ws s with
    | [] => None
    | b :: r =>
      if Byte.eqb b "}" then Some (Some [], r)
      else if first then member (b :: r)
      else if Byte.eqb b "," then member (skip_ws r)
      else None
    end
  end.

Definition lenient_document (s : bytes) : option json :=
  match lenient_value (2 * length s) text_depth_limit s with
  | Some (j, r) => match skip_ws r with [] => Some j | _ => None end
  | None => None
  end.

(** [serde_json::from_str] *)
Definition from_str_skipping {A} (c : codec A) (s : bytes) : jres A :=
  jbind (jopt (lenient_document s)) (c_de c).

(** [serde::de::IgnoredAny]: every value is skipped. It is how the derived readers of the library
    (e.g. sia/src/types/common.rs:149-153, [ChainIndex]) take a member they do not know. It is not
    serialised. *)
Definition j_ignored : codec unit := MkCodec (fun _ => JErr) (fun _ => JOk tt).
