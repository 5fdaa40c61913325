(** Model of the text layer under the library's JSON: [serde_json::to_string],
    [serde_json::to_string_pretty] and [serde_json::from_str] (serde_json 1.0.134, pinned in
    Cargo.lock), on the trees of Model_json.v. A [&str] is its UTF-8 bytes.

    Simplifications. A number that is not an integer of 64 bits is [JFloat], also one too large
    for a double: serde_json refuses the latter, and so does every reader of the library with
    either, except where any value will do (a member the type does not know, the body of an
    expiration, a member given again later). The library writes no such number; [print] writes [JFloat] as 0.0. The whole text is
    read before the reader of the type starts. serde_json skips the value of a member the type
    does not know; the model holds it to the rules of the other values, while serde_json then
    neither counts nesting nor pairs surrogates. *)

From Verif Require Import Base Io Model_currency Model_text Model_json Model_jsontypes.
Local Open Scope N_scope.

(** ** Writing *)

(** serde_json [ESCAPE] and [CharEscape]: the bytes written for one byte of a string *)
Definition escape_byte (b : byte) : bytes :=
  if Byte.eqb b """" then ["\"%byte; """"%byte]
  else if Byte.eqb b "\" then ["\"%byte; "\"%byte]
  else if Byte.eqb b x08 then ["\"%byte; "b"%byte]
  else if Byte.eqb b x09 then ["\"%byte; "t"%byte]
  else if Byte.eqb b x0a then ["\"%byte; "n"%byte]
  else if Byte.eqb b x0c then ["\"%byte; "f"%byte]
  else if Byte.eqb b x0d then ["\"%byte; "r"%byte]
  else if b2n b <? 32 then
    ["\"%byte; "u"%byte; "0"%byte; "0"%byte; hex_char (b2n b / 16); hex_char (b2n b mod 16)]
  else [b].

(** serde_json [format_escaped_str] *)
Definition print_string (s : bytes) : bytes := """"%byte :: flat_map escape_byte s ++ [""""%byte].

(** The elements of an array or the members of an object, with what comes between two. *)
Fixpoint join_with (sep : bytes) (l : list bytes) : bytes :=
  match l with
  | [] => []
  | [x] => x
  | x :: r => x ++ sep ++ join_with sep r
  end.

Definition print_scalar (j : json) : bytes :=
  match j with
  | JNull => ascii "null"
  | JBool true => ascii "true"
  | JBool false => ascii "false"
  | JUint n => dec_text (uval n)
  | JNeg z => "-"%byte :: dec_text (Z.to_N (- sval z))
  | JFloat => ascii "0.0"
  | JStr s => print_string s
  | JArr _ | JObj _ => []
  end.

(** [CompactFormatter] *)
Fixpoint print (j : json) : bytes :=
  match j with
  | JArr l => ascii "[" ++ join_with (ascii ",") (map print l) ++ ascii "]"
  | JObj l =>
    ascii "{" ++
    join_with (ascii ",") (map (fun kv => print_string (fst kv) ++ ascii ":" ++ print (snd kv)) l) ++
    ascii "}"
  | _ => print_scalar j
  end.

(** [PrettyFormatter] with two spaces, at nesting [n] *)
Definition new_line (n : nat) : bytes := x0a :: concat (repeat (ascii "  ") n).
Fixpoint print_pretty_at (n : nat) (j : json) : bytes :=
  match j with
  | JArr [] => ascii "[]"
  | JObj [] => ascii "{}"
  | JArr l =>
    ascii "[" ++ join_with (ascii ",") (map (fun x => new_line (S n) ++ print_pretty_at (S n) x) l) ++
    new_line n ++ ascii "]"
  | JObj l =>
    ascii "{" ++
    join_with (ascii ",") (map (fun kv =>
      new_line (S n) ++ print_string (fst kv) ++ ascii ": " ++ print_pretty_at (S n) (snd kv)) l) ++
    new_line n ++ ascii "}"
  | _ => print_scalar j
  end.
Definition print_pretty (j : json) : bytes := print_pretty_at 0 j.

(** ** Reading *)

(** [Deserializer::parse_whitespace] *)
Definition is_ws (b : byte) : bool :=
  Byte.eqb b " " || Byte.eqb b x0a || Byte.eqb b x09 || Byte.eqb b x0d.
Fixpoint skip_ws (s : bytes) : bytes :=
  match s with
  | b :: r => if is_ws b then skip_ws r else s
  | [] => []
  end.

(** [Deserializer::parse_ident] *)
Fixpoint parse_ident (w s : bytes) : option bytes :=
  match w with
  | [] => Some s
  | c :: w' =>
    match s with
    | b :: r => if Byte.eqb b c then parse_ident w' r else None
    | [] => None
    end
  end.

(** [decode_four_hex_digits] *)
Definition hex4 (a b c d : byte) : option N :=
  match decode_hex_char a, decode_hex_char b, decode_hex_char c, decode_hex_char d with
  | Some a, Some b, Some c, Some d =>
    Some (N.lor (N.lor (N.shiftl a 12) (N.shiftl b 8)) (N.lor (N.shiftl c 4) d))
  | _, _, _, _ => None
  end.

(** [push_wtf8_codepoint] *)
Definition push_codepoint (n : N) : bytes :=
  if n <=? 0x7F then [n2b n]
  else if n <=? 0x7FF then
    [n2b (N.lor (N.land (N.shiftr n 6) 31) 192); n2b (N.lor (N.land n 63) 128)]
  else if n <=? 0xFFFF then
    [n2b (N.lor (N.land (N.shiftr n 12) 15) 224); n2b (N.lor (N.land (N.shiftr n 6) 63) 128);
     n2b (N.lor (N.land n 63) 128)]
  else
    [n2b (N.lor (N.land (N.shiftr n 18) 7) 240); n2b (N.lor (N.land (N.shiftr n 12) 63) 128);
     n2b (N.lor (N.land (N.shiftr n 6) 63) 128); n2b (N.lor (N.land n 63) 128)].

(** [parse_escape] without the unicode case *)
Definition short_escape (e : byte) : option byte :=
  if Byte.eqb e """" then Some """"%byte
  else if Byte.eqb e "\" then Some "\"%byte
  else if Byte.eqb e "/" then Some "/"%byte
  else if Byte.eqb e "b" then Some x08
  else if Byte.eqb e "f" then Some x0c
  else if Byte.eqb e "n" then Some x0a
  else if Byte.eqb e "r" then Some x0d
  else if Byte.eqb e "t" then Some x09
  else None.

Definition push (c : bytes) (o : option (bytes * bytes)) : option (bytes * bytes) :=
  match o with Some (s, r) => Some (c ++ s, r) | None => None end.

(** [SliceRead::parse_str_bytes], [parse_escape] and [parse_unicode_escape], after the opening
    quote: the string and what follows the closing quote. *)
Fixpoint parse_str (s : bytes) : option (bytes * bytes) :=
  match s with
  | [] => None
  | b :: r =>
    if Byte.eqb b """" then Some ([], r)
    else if Byte.eqb b "\" then
      match r with
      | [] => None
      | e :: r1 =>
        if Byte.eqb e "u" then
          match r1 with
          | h0 :: h1 :: h2 :: h3 :: r2 =>
            match hex4 h0 h1 h2 h3 with
            | None => None
            | Some n =>
              if (0xDC00 <=? n) && (n <=? 0xDFFF) then None
              else if (0xD800 <=? n) && (n <=? 0xDBFF) then
                match r2 with
                | c0 :: c1 :: k0 :: k1 :: k2 :: k3 :: r3 =>
                  if Byte.eqb c0 "\" && Byte.eqb c1 "u" then
                    match hex4 k0 k1 k2 k3 with
                    | None => None
                    | Some m =>
                      if (0xDC00 <=? m) && (m <=? 0xDFFF) then
                        push (push_codepoint (N.lor (N.shiftl (n - 0xD800) 10) (m - 0xDC00) + 0x10000))
                             (parse_str r3)
                      else None
                    end
                  else None
                | _ => None
                end
              else push (push_codepoint n) (parse_str r2)
            end
          | _ => None
          end
        else
          match short_escape e with
          | Some c => push [c] (parse_str r1)
          | None => None
          end
      end
    else if b2n b <? 32 then None
    else push [b] (parse_str r)
  end.

(** The loop of [parse_integer]; [None] once the number does not fit 64 bits
    ([parse_long_integer]). *)
Fixpoint int_loop (acc : option N) (s : bytes) : option N * bytes :=
  match s with
  | b :: r =>
    if is_digit b then
      int_loop (match acc with
                | Some a =>
                  let d := b2n b - 48 in
                  if (2 ^ 64 - 1) / 10 <=? a then
                    if ((2 ^ 64 - 1) / 10 <? a) || ((2 ^ 64 - 1) mod 10 <? d) then None
                    else Some (a * 10 + d)
                  else Some (a * 10 + d)
                | None => None
                end) r
    else (acc, s)
  | [] => (acc, [])
  end.

Fixpoint skip_digits (s : bytes) : bytes :=
  match s with
  | b :: r => if is_digit b then skip_digits r else s
  | [] => []
  end.

(** one digit or more *)
Definition some_digits (s : bytes) : option bytes :=
  match s with
  | b :: r => if is_digit b then Some (skip_digits r) else None
  | [] => None
  end.

(** [parse_exponent], after the letter *)
Definition parse_exponent (s : bytes) : option bytes :=
  match s with
  | b :: r => if Byte.eqb b "+" || Byte.eqb b "-" then some_digits r else some_digits s
  | [] => None
  end.

Definition is_exponent (b : byte) : bool := Byte.eqb b "e" || Byte.eqb b "E".

(** The end of [parse_number]: an integer. [(significand as i64).wrapping_neg()] that is not
    negative makes a float. *)
Definition integer_value (positive : bool) (acc : option N) : json :=
  match acc with
  | None => JFloat
  | Some n =>
    if positive then JUint (uwrap 64 n)
    else
      let neg := swrap 64 w64_nz (- Z.of_N n) in
      if (0 <=? sval neg)%Z then JFloat else JNeg neg
  end.

(** [parse_number], [parse_decimal]: what follows the integer [acc] *)
Definition finish_number (positive : bool) (acc : option N) (s : bytes) : option (json * bytes) :=
  match s with
  | b :: r =>
    if Byte.eqb b "." then
      match some_digits r with
      | Some (e :: r') =>
        if is_exponent e then
          match parse_exponent r' with Some r'' => Some (JFloat, r'') | None => None end
        else Some (JFloat, e :: r')
      | Some [] => Some (JFloat, [])
      | None => None
      end
    else if is_exponent b then
      match parse_exponent r with Some r' => Some (JFloat, r') | None => None end
    else Some (integer_value positive acc, s)
  | [] => Some (integer_value positive acc, s)
  end.

(** [parse_integer]: no digit may follow a leading zero *)
Definition parse_number (positive : bool) (s : bytes) : option (json * bytes) :=
  match s with
  | b :: r =>
    if Byte.eqb b "0" then
      match r with
      | d :: _ => if is_digit d then None else finish_number positive (Some 0) r
      | [] => finish_number positive (Some 0) r
      end
    else if is_digit b then
      let '(acc, r') := int_loop (Some (b2n b - 48)) r in finish_number positive acc r'
    else None
  | [] => None
  end.

(** [Deserializer::deserialize_any], with [remaining_depth]; [SeqAccess::next_element_seed] and
    [MapAccess::next_key_seed] up to the closing bracket, [first] before the first element. Each
    call uses up one unit of [fuel]; [parse_document] gives enough. *)
Fixpoint parse_value (fuel : nat) (depth : N) (s : bytes) {struct fuel} : option (json * bytes) :=
  match fuel with
  | O => None
  | S f =>
    match skip_ws s with
    | [] => None
    | b :: r =>
      if Byte.eqb b "n" then
        match parse_ident (ascii "ull") r with Some r' => Some (JNull, r') | None => None end
      else if Byte.eqb b "t" then
        match parse_ident (ascii "rue") r with Some r' => Some (JBool true, r') | None => None end
      else if Byte.eqb b "f" then
        match parse_ident (ascii "alse") r with Some r' => Some (JBool false, r') | None => None end
      else if Byte.eqb b "-" then parse_number false r
      else if is_digit b then parse_number true (b :: r)
      else if Byte.eqb b """" then
        match parse_str r with Some (t, r') => Some (JStr t, r') | None => None end
      else if Byte.eqb b "[" then
        if depth - 1 =? 0 then None
        else match parse_elements f (depth - 1) true r with Some (l, r') => Some (JArr l, r') | None => None end
      else if Byte.eqb b "{" then
        if depth - 1 =? 0 then None
        else match parse_members f (depth - 1) true r with Some (l, r') => Some (JObj l, r') | None => None end
      else None
    end
  end
with parse_elements (fuel : nat) (depth : N) (first : bool) (s : bytes) {struct fuel} :
    option (list json * bytes) :=
  match fuel with
  | O => None
  | S f =>
    let element r :=
      match parse_value f depth r with
      | Some (j, r') =>
        match parse_elements f depth false r' with Some (l, r'') => Some (j :: l, r'') | None => None end
      | None => None
      end in
    match skip_ws s with
    | [] => None
    | b :: r =>
      if Byte.eqb b "]" then Some ([], r)
      else if first then element (b :: r)
      else if Byte.eqb b "," then
        match skip_ws r with
        | c :: r' => if Byte.eqb c "]" then None else element (c :: r')
        | [] => None
        end
      else None
    end
  end
with parse_members (fuel : nat) (depth : N) (first : bool) (s : bytes) {struct fuel} :
    option (list (bytes * json) * bytes) :=
  match fuel with
  | O => None
  | S f =>
    let member r :=
      match r with
      | b :: r =>
        if Byte.eqb b """" then
          match parse_str r with
          | None => None
          | Some (k, r1) =>
            match skip_ws r1 with
            | [] => None
            | c :: r2 =>
              if Byte.eqb c ":" then
                match parse_value f depth r2 with
                | Some (j, r') =>
                  match parse_members f depth false r' with
                  | Some (l, r'') => Some ((k, j) :: l, r'')
                  | None => None
                  end
                | None => None
                end
              else None
            end
          end
        else None
      | [] => None
      end in
    match skip_ws s with
    | [] => None
    | b :: r =>
      if Byte.eqb b "}" then Some ([], r)
      else if first then member (b :: r)
      else if Byte.eqb b "," then member (skip_ws r)
      else None
    end
  end.

(** [from_str] up to the reader of the type: one value, then [Deserializer::end] *)
Definition parse_document (s : bytes) : option json :=
  match parse_value (2 * length s) text_depth_limit s with
  | Some (j, r) => match skip_ws r with [] => Some j | _ => None end
  | None => None
  end.

(** ** The functions a user calls *)

Local Open Scope jres_scope.

(** [serde_json::to_string]: a text too long for memory cannot be built. *)
Definition checked_text (t : bytes) : jres bytes :=
  if N.of_nat (length t) <=? isize_max then JOk t else JPanic CapacityOverflow.
Definition to_string {A} (c : codec A) (a : A) : jres bytes :=
  j <- c_ser c a ;; checked_text (print j).
(** [serde_json::to_string_pretty] *)
Definition to_string_pretty {A} (c : codec A) (a : A) : jres bytes :=
  j <- c_ser c a ;; checked_text (print_pretty j).
(** [serde_json::from_str] *)
Definition from_str {A} (c : codec A) (s : bytes) : jres A :=
  j <- jopt (parse_document s) ;; c_de c j.
