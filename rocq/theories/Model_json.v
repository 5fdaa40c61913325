(** Model of the JSON layer: what [#[derive(Serialize, Deserialize)]] and the hand-written
    implementations do on JSON values.

    A JSON document is a tree. Trees are turned into text and text into trees in
    Model_jsontext.v; here only the nesting limit of texts appears ([text_depth_limit]). A string
    is given by its bytes; every string read from a text is valid UTF-8, so the readers below reject other
    byte strings, which do not occur. *)

From Verif Require Import Base Blake2b Io Model_encoding Model_currency Model_common Model_v1
  Model_policy Model_v2 Model_consensus Model_text.
Local Open Scope N_scope.

(** ** Trees *)

(** [JUint] is a number written as a non-negative integer that fits 64 bits, [JNeg] a negative
    integer that fits 64 bits and [JFloat] any other number. *)
Inductive json : Type :=
| JNull
| JBool (b : bool)
| JUint (n : u64)
| JNeg (z : i64)
| JFloat
| JStr (s : bytes)
| JArr (l : list json)
| JObj (l : list (bytes * json)).

(** Result of serialising or deserialising. The text of an error is not modelled. *)
Inductive jres (A : Type) : Type :=
| JOk (a : A)
| JErr
| JPanic (p : panic).
Arguments JOk {A} a.
Arguments JErr {A}.
Arguments JPanic {A} p.

Definition jbind {A B} (m : jres A) (f : A -> jres B) : jres B :=
  match m with JOk a => f a | JErr => JErr | JPanic p => JPanic p end.

Declare Scope jres_scope.
Delimit Scope jres_scope with jres.
Notation "x <- m ;; f" := (jbind m (fun x => f))
  (at level 61, m at next level, right associativity) : jres_scope.
Local Open Scope jres_scope.

Definition jser (A : Type) : Type := A -> jres json.
Definition jde (A : Type) : Type := json -> jres A.

(** [map_err(serde::de::Error::custom)] *)
Definition jopt {A} (o : option A) : jres A := match o with Some a => JOk a | None => JErr end.
Definition jsum {A E} (o : A + E) : jres A := match o with inl a => JOk a | inr _ => JErr end.
Definition joutcome {A} (o : outcome A) : jres A := match o with Val a => JOk a | Panic p => JPanic p end.

Definition jmap {A B} (f : A -> jres B) : list A -> jres (list B) :=
  fix go l :=
    match l with
    | [] => JOk []
    | a :: r => b <- f a ;; l' <- go r ;; JOk (b :: l')
    end.

(** ** [serde_json::Value]: objects are sorted maps, the last of several equal keys stays *)

(** the order of [String]: lexicographic on bytes *)
Fixpoint bytes_compare (a b : bytes) : comparison :=
  match a, b with
  | [], [] => Eq
  | [], _ => Lt
  | _, [] => Gt
  | x :: a', y :: b' => match N.compare (b2n x) (b2n y) with Eq => bytes_compare a' b' | c => c end
  end.

(** [BTreeMap::insert] *)
Fixpoint map_insert (k : bytes) (v : json) (m : list (bytes * json)) : list (bytes * json) :=
  match m with
  | [] => [(k, v)]
  | (k', v') :: r =>
    match bytes_compare k k' with
    | Eq => (k, v) :: r
    | Lt => (k, v) :: m
    | Gt => (k', v') :: map_insert k v r
    end
  end.

Definition map_of (l : list (bytes * json)) : list (bytes * json) :=
  fold_left (fun m kv => map_insert (fst kv) (snd kv) m) l [].

(** [serde_json::Value::deserialize] on a document, and [serde_json::to_value] on what a value
    serialises to *)
Fixpoint value_of (j : json) : json :=
  match j with
  | JArr l => JArr (map value_of l)
  | JObj l => JObj (map_of (map (fun kv => (fst kv, value_of (snd kv))) l))
  | _ => j
  end.

(** Nesting depth, and the depth from which on [serde_json::from_str] gives up with an error
    (serde_json: [remaining_depth: 128]). *)
Fixpoint json_depth (j : json) : N :=
  match j with
  | JArr l => 1 + fold_right (fun x m => N.max (json_depth x) m) 0 l
  | JObj l => 1 + fold_right (fun kv m => N.max (json_depth (snd kv)) m) 0 l
  | _ => 0
  end.
Definition text_depth_limit : N := 128.

(** [serde_json::from_str] on the text of [j] *)
Definition from_text {A} (de : jde A) (j : json) : jres A :=
  if json_depth j <? text_depth_limit then de j else JErr.

(** ** Primitive types *)

Definition ser_bool : jser bool := fun b => JOk (JBool b).
Definition de_bool : jde bool := fun j => match j with JBool b => JOk b | _ => JErr end.

Definition ser_u64 : jser u64 := fun n => JOk (JUint n).
Definition de_u64 : jde u64 := fun j => match j with JUint n => JOk n | _ => JErr end.

Definition ser_u8 : jser u8 := fun b => JOk (JUint (uwrap 64 (b2n b))).
Definition de_u8 : jde u8 := fun j =>
  match j with
  | JUint n => if uval n <? 256 then JOk (n2b (uval n)) else JErr
  | _ => JErr
  end.

(** [String]: a string too long for memory cannot be built. *)
Definition ser_text (t : bytes) : jres json :=
  if N.of_nat (length t) <=? isize_max then JOk (JStr t) else JPanic CapacityOverflow.
Definition ser_string : jser rstring := fun s => JOk (JStr (vlist (sbytes s))).
Definition de_string : jde rstring := fun j =>
  match j with
  | JStr t => v <- jopt (vec_of 1 t) ;; jopt (rstring_of v)
  | _ => JErr
  end.

(** [String::deserialize] followed by a parser of [&str] *)
Definition de_text {A} (parse : bytes -> jres A) : jde A := fun j =>
  s <- de_string j ;; parse (vlist (sbytes s)).

(** [Vec<T>]: growing beyond the memory bound panics. *)
Definition ser_list {A} (ser : jser A) : jser (list A) := fun l => l' <- jmap ser l ;; JOk (JArr l').
Definition de_list {A} (de : jde A) : jde (list A) := fun j =>
  match j with JArr l => jmap de l | _ => JErr end.
Definition ser_vec {sz A} (ser : jser A) : jser (vec sz A) := fun v => ser_list ser (vlist v).
Definition de_vec {A} sz (de : jde A) : jde (vec sz A) := fun j =>
  l <- de_list de j ;;
  match vec_of sz l with Some v => JOk v | None => JPanic CapacityOverflow end.

(** [Option<T>] *)
Definition ser_option {A} (ser : jser A) : jser (option A) := fun o =>
  match o with Some a => ser a | None => JOk JNull end.
Definition de_option {A} (de : jde A) : jde (option A) := fun j =>
  match j with JNull => JOk None | _ => a <- de j ;; JOk (Some a) end.

(** ** Derived structs *)

(** A field: its name in JSON, its serialiser, [skip_serializing_if], its deserialiser and
    the value given by [#[serde(default)]], if any. *)
Record field (A : Type) : Type := MkField {
  f_name : bytes;
  f_ser : jser A;
  f_skip : A -> bool;
  f_de : jde A;
  f_default : option A }.
Arguments MkField {A}.
Arguments f_name {A}.
Arguments f_ser {A}.
Arguments f_skip {A}.
Arguments f_de {A}.
Arguments f_default {A}.

(** The fields of a struct in declaration order; the struct is the tuple of its fields. *)
Inductive fields : Type -> Type :=
| FNil : fields unit
| FCons : forall A R, field A -> fields R -> fields (A * R).
Arguments FCons {A R}.

Fixpoint ser_fields {T} (fs : fields T) : T -> jres (list (bytes * json)) :=
  match fs with
  | FNil => fun _ => JOk []
  | FCons f r => fun t =>
    if f_skip f (fst t) then ser_fields r (snd t)
    else v <- f_ser f (fst t) ;; l <- ser_fields r (snd t) ;; JOk ((f_name f, v) :: l)
  end.

(** [Serialize] as derived: an object with the fields in declaration order *)
Definition ser_struct {T} (fs : fields T) : jser T := fun t => l <- ser_fields fs t ;; JOk (JObj l).

(** Whether the value of key [k] deserialises, for the field with this name. *)
Fixpoint check_entry {T} (fs : fields T) (k : bytes) (v : json) : option (jres unit) :=
  match fs with
  | FNil => None
  | FCons f r =>
    if bytes_eqb k (f_name f) then Some (_ <- f_de f v ;; JOk tt) else check_entry r k v
  end.

Definition seen_before (k : bytes) (seen : list bytes) : bool := existsb (bytes_eqb k) seen.

(** [visit_map] goes through the entries in the order of the document: unknown keys are ignored,
    a repeated key is an error, and the first value that fails decides the result. *)
Fixpoint check_entries {T} (fs : fields T) (seen : list bytes) (l : list (bytes * json)) : jres unit :=
  match l with
  | [] => JOk tt
  | (k, v) :: r =>
    match check_entry fs k v with
    | None => check_entries fs seen r
    | Some c => if seen_before k seen then JErr else (_ <- c ;; check_entries fs (k :: seen) r)
    end
  end.

Fixpoint find_entry (k : bytes) (l : list (bytes * json)) : option json :=
  match l with
  | [] => None
  | (k', v) :: r => if bytes_eqb k' k then Some v else find_entry k r
  end.

Fixpoint collect_fields {T} (fs : fields T) (l : list (bytes * json)) : jres T :=
  match fs with
  | FNil => JOk tt
  | FCons f r =>
    a <- (match find_entry (f_name f) l with
          | Some v => f_de f v
          | None => jopt (f_default f)
          end) ;;
    t <- collect_fields r l ;; JOk (a, t)
  end.

(** [visit_seq]: a JSON array gives the fields by position. *)
Fixpoint collect_seq {T} (fs : fields T) (l : list json) : jres T :=
  match fs with
  | FNil => match l with [] => JOk tt | _ => JErr end
  | FCons f r =>
    match l with
    | v :: l' => a <- f_de f v ;; t <- collect_seq r l' ;; JOk (a, t)
    | [] => a <- jopt (f_default f) ;; t <- collect_seq r [] ;; JOk (a, t)
    end
  end.

(** [Deserialize] as derived *)
Definition de_struct {T} (fs : fields T) : jde T := fun j =>
  match j with
  | JObj l => _ <- check_entries fs [] l ;; collect_fields fs l
  | JArr l => collect_seq fs l
  | _ => JErr
  end.

Notation "f #: r" := (FCons f r) (at level 60, right associativity).

(** ** Base64: the [STANDARD] engine of the base64 crate (0.22) — padding required, unused bits zero *)

Definition b64_alphabet : bytes :=
  ascii "ABCDEFGHIJKLMNOPQRSTUVWXYZabcdefghijklmnopqrstuvwxyz0123456789+/".
Definition b64_symbol (n : N) : byte := nth (N.to_nat n) b64_alphabet x00.
Definition b64_value (c : byte) : option N :=
  if in_range 65 90 c then Some (b2n c - 65)
  else if in_range 97 122 c then Some (b2n c - 71)
  else if in_range 48 57 c then Some (b2n c + 4)
  else if Byte.eqb c "+" then Some 62
  else if Byte.eqb c "/" then Some 63
  else None.

Fixpoint b64_encode (l : bytes) : bytes :=
  match l with
  | [] => []
  | [a] =>
    [b64_symbol (b2n a / 4); b64_symbol (b2n a mod 4 * 16); "="%byte; "="%byte]
  | [a; b] =>
    [b64_symbol (b2n a / 4); b64_symbol (b2n a mod 4 * 16 + b2n b / 16);
     b64_symbol (b2n b mod 16 * 4); "="%byte]
  | a :: b :: c :: r =>
    b64_symbol (b2n a / 4) :: b64_symbol (b2n a mod 4 * 16 + b2n b / 16) ::
    b64_symbol (b2n b mod 16 * 4 + b2n c / 64) :: b64_symbol (b2n c mod 64) :: b64_encode r
  end.

(** Any error is [None]. *)
Fixpoint b64_decode (s : bytes) : option bytes :=
  match s with
  | [] => Some []
  | s0 :: s1 :: s2 :: s3 :: r =>
    match b64_value s0, b64_value s1 with
    | Some v0, Some v1 =>
      match b64_value s2, b64_value s3 with
      | Some v2, Some v3 =>
        match b64_decode r with
        | Some l => Some (n2b (v0 * 4 + v1 / 16) :: n2b (v1 mod 16 * 16 + v2 / 4) ::
                          n2b (v2 mod 4 * 64 + v3) :: l)
        | None => None
        end
      | Some v2, None =>
        if Byte.eqb s3 "=" && (match r with [] => true | _ => false end) && (v2 mod 4 =? 0)
        then Some [n2b (v0 * 4 + v1 / 16); n2b (v1 mod 16 * 16 + v2 / 4)] else None
      | None, _ =>
        if Byte.eqb s2 "=" && Byte.eqb s3 "=" && (match r with [] => true | _ => false end) && (v1 mod 16 =? 0)
        then Some [n2b (v0 * 4 + v1 / 16)] else None
      end
    | _, _ => None
    end
  | _ => None
  end.

(** utils.rs:7-10 *)
Definition ser_base64 {sz} : jser (vec sz u8) := fun v => ser_text (b64_encode (vlist v)).
(** utils.rs:12-17. The decoded bytes are shorter than the text, so the vector exists. *)
Definition de_base64 : jde (vec 1 u8) := de_text (fun t =>
  d <- jopt (b64_decode t) ;;
  match vec_of 1 d with Some v => JOk v | None => JPanic CapacityOverflow end).

(** utils.rs:86-103 *)
Definition ser_vec_base64 : jser (vec 24 (vec 1 u8)) := ser_vec ser_base64.
(** All strings are read before the first is decoded. *)
Definition de_vec_base64 : jde (vec 24 (vec 1 u8)) := fun j =>
  strings <- de_list de_string j ;;
  l <- jmap (fun s : rstring =>
         d <- jopt (b64_decode (vlist (sbytes s))) ;;
         match vec_of 1 d with Some v => JOk v | None => JPanic CapacityOverflow end) strings ;;
  match vec_of 24 l with Some v => JOk v | None => JPanic CapacityOverflow end.

(** ** RFC 3339 timestamps: the [time] crate (0.3.37) *)

Local Open Scope Z_scope.

Definition leap_year (y : Z) : bool :=
  (y mod 4 =? 0) && (negb (y mod 100 =? 0) || (y mod 400 =? 0)).

(** days of month [m] (1 to 12) in year [y] *)
Definition month_days (y m : Z) : Z :=
  if (m =? 2) then (if leap_year y then 29 else 28)
  else if (m =? 4) || (m =? 6) || (m =? 9) || (m =? 11) then 30 else 31.

(** days from the start of year [y] to the start of month [m] *)
Definition days_before_month (y m : Z) : Z :=
  nth (Z.to_nat (m - 1)) [0; 31; 59; 90; 120; 151; 181; 212; 243; 273; 304; 334] 0 +
  (if (2 <? m) && leap_year y then 1 else 0).

(** days from 0000-01-01 to the start of year [y], in the proleptic Gregorian calendar *)
Definition days_before_year (y : Z) : Z :=
  365 * y + (y + 3) / 4 - (y + 99) / 100 + (y + 399) / 400.

(** Days from 1970-01-01 to the given day. *)
Definition days_of_date (y m d : Z) : Z :=
  days_before_year y + days_before_month y m + (d - 1) - 719528.

(** The date of a day counted from 1970-01-01 ([Date::from_julian_day] and
    [Date::to_calendar_date]; the algorithm is the usual one on 400-year eras of years that
    start in March). *)
Definition date_of_days (z : Z) : Z * Z * Z :=
  let z := z + 719468 in
  let era := z / 146097 in
  let doe := z mod 146097 in
  let yoe := (doe - doe / 1460 + doe / 36524 - doe / 146096) / 365 in
  let doy := doe - (365 * yoe + yoe / 4 - yoe / 100) in
  let mp := (5 * doy + 2) / 153 in
  let d := doy - (153 * mp + 2) / 5 + 1 in
  let m := if mp <? 10 then mp + 3 else mp - 9 in
  (yoe + era * 400 + (if m <=? 2 then 1 else 0), m, d).

Local Open Scope N_scope.

Definition digit_char (d : N) : byte := n2b (48 + d).

(** [n] with at least [k] digits, for [n] below [10^k] *)
Fixpoint pad_digits (k : nat) (n : N) : bytes :=
  match k with
  | O => []
  | S k' => pad_digits k' (n / 10) ++ [digit_char (n mod 10)]
  end.

(** the fraction without trailing zeros *)
Fixpoint strip_char_zeros (l : bytes) : bytes :=
  match l with
  | b :: r => if Byte.eqb b "0" then strip_char_zeros r else l
  | [] => []
  end.
Definition trim_fraction (l : bytes) : bytes := rev (strip_char_zeros (rev l)).

(** [OffsetDateTime::format(&Rfc3339)] of a timestamp in UTC: an error for years outside
    0 to 9999. *)
Definition rfc3339_text (t : odt) : option bytes :=
  let '(y, m, d) := date_of_days (odt_secs t / 86400) in
  let s := Z.to_N (odt_secs t mod 86400) in
  if ((y <? 0) || (9999 <? y))%Z then None
  else Some (
    pad_digits 4 (Z.to_N y) ++ ascii "-" ++ pad_digits 2 (Z.to_N m) ++ ascii "-" ++
    pad_digits 2 (Z.to_N d) ++ ascii "T" ++
    pad_digits 2 (s / 3600) ++ ascii ":" ++ pad_digits 2 (s / 60 mod 60) ++ ascii ":" ++
    pad_digits 2 (s mod 60) ++
    (if odt_nanos t =? 0 then [] else ascii "." ++ trim_fraction (pad_digits 9 (odt_nanos t))) ++
    ascii "Z").

(** exactly [k] digits *)
Definition digit_value (b : byte) : option N := if in_range 48 57 b then Some (b2n b - 48) else None.
Fixpoint take_digits (k : nat) (acc : N) (s : bytes) : option (N * bytes) :=
  match k with
  | O => Some (acc, s)
  | S k' =>
    match s with
    | b :: r => match digit_value b with Some d => take_digits k' (acc * 10 + d) r | None => None end
    | [] => None
    end
  end.

Definition take_char (c : byte) (s : bytes) : option bytes :=
  match s with b :: r => if Byte.eqb b c then Some r else None | [] => None end.

(** further digits of the fraction; the weight of a digit after the ninth is zero *)
Fixpoint take_fraction (value weight : N) (s : bytes) : N * bytes :=
  match s with
  | b :: r =>
    match digit_value b with
    | Some d => take_fraction (value + d * weight) (weight / 10) r
    | None => (value, s)
    end
  | [] => (value, [])
  end.

Definition oand {A B} (o : option A) (f : A -> option B) : option B :=
  match o with Some a => f a | None => None end.

Definition parse_fraction (s : bytes) : option (N * bytes) :=
  match take_char "." s with
  | None => Some (0, s)
  | Some r =>
    match r with
    | b :: _ => match digit_value b with Some _ => Some (take_fraction 0 100000000 r) | None => None end
    | [] => None
    end
  end.

(** the offset from UTC in seconds *)
Definition parse_offset (s : bytes) : option (Z * bytes) :=
  match s with
  | b :: r =>
    if Byte.eqb b "Z" || Byte.eqb b "z" then Some (0%Z, r)
    else if Byte.eqb b "+" || Byte.eqb b "-" then
      oand (take_digits 2 0 r) (fun '(h, r) =>
      oand (take_char ":" r) (fun r =>
      oand (take_digits 2 0 r) (fun '(m, r) =>
      if (h <=? 25) && (m <=? 59) then
        let o := (Z.of_N h * 3600 + Z.of_N m * 60)%Z in
        Some (if Byte.eqb b "-" then (- o)%Z else o, r)
      else None)))
    else None
  | [] => None
  end.

(** A timestamp of the model: seconds since 1970 and nanoseconds. Rust also keeps the offset, so
    it can represent a time whose UTC form is outside the years -9999 to 9999; the model treats
    such a text as an error. *)
Definition mk_odt (secs : Z) (nanos : N) : option odt :=
  match bool_dec ((ts_min <=? secs)%Z && (secs <=? ts_max)%Z && (nanos <? 1000000000)) true with
  | left h => Some (MkOdt secs nanos h)
  | right _ => None
  end.

(** [OffsetDateTime::parse(_, &Rfc3339)]; any error is [None]. A leap second stands for the last
    nanosecond of a month in UTC. *)
Definition parse_rfc3339 (s : bytes) : option odt :=
  oand (take_digits 4 0 s) (fun '(y, s) =>
  oand (take_char "-" s) (fun s =>
  oand (take_digits 2 0 s) (fun '(mo, s) =>
  oand (take_char "-" s) (fun s =>
  oand (take_digits 2 0 s) (fun '(d, s) =>
  oand (match s with _ :: r => Some r | [] => None end) (fun s =>
  oand (take_digits 2 0 s) (fun '(h, s) =>
  oand (take_char ":" s) (fun s =>
  oand (take_digits 2 0 s) (fun '(mi, s) =>
  oand (take_char ":" s) (fun s =>
  oand (take_digits 2 0 s) (fun '(sec, s) =>
  oand (parse_fraction s) (fun '(nanos, s) =>
  oand (parse_offset s) (fun '(off, s) =>
  let leap := sec =? 60 in
  let sec := if leap then 59 else sec in
  let nanos := if leap then 999999999 else nanos in
  let y := Z.of_N y in let mo := Z.of_N mo in let d := Z.of_N d in
  if negb (match s with [] => true | _ => false end) then None
  else if negb ((1 <=? mo)%Z && (mo <=? 12)%Z && (1 <=? d)%Z && (d <=? month_days y mo)%Z) then None
  else if negb ((h <=? 23) && (mi <=? 59) && (sec <=? 59)) then None
  else
    let secs := (days_of_date y mo d * 86400 + Z.of_N (h * 3600 + mi * 60 + sec) - off)%Z in
    if leap && negb (let '(y', m', d') := date_of_days (secs / 86400) in
                     ((secs mod 86400 =? 86399) && (d' =? month_days y' m'))%Z) then None
    else mk_odt secs nanos))))))))))))).

(** [time::serde::rfc3339] *)
Definition ser_odt : jser odt := fun t =>
  match rfc3339_text t with Some s => JOk (JStr s) | None => JErr end.
Definition de_odt : jde odt := de_text (fun s => jopt (parse_rfc3339 s)).

(** utils.rs:27-40 *)
Definition ser_timestamps : jser (farr 11 odt) := fun a => ser_list ser_odt (flist a).

(** utils.rs:59-73, with the timestamps read so far in reverse. *)
Fixpoint read_timestamps (acc : list odt) (l : list json) : jres (list odt) :=
  match l with
  | [] => JOk (rev acc ++ repeat unix_epoch (11 - length acc))
  | j :: r =>
    value <- de_string j ;;
    if Nat.leb 11 (length acc) then JErr
    else t <- jopt (parse_rfc3339 (vlist (sbytes value))) ;; read_timestamps (t :: acc) r
  end.
Definition de_timestamps : jde (farr 11 odt) := fun j =>
  match j with
  | JArr l => ts <- read_timestamps [] l ;; jopt (farr_of 11 ts)
  | _ => JErr
  end.

(** utils.rs:110-117 *)
Definition ser_duration : jser duration := fun d =>
  JOk (JUint (whole_nanoseconds_u64 d)).
Definition de_duration : jde duration := fun j =>
  nanos <- de_u64 j ;;
  JOk (nanoseconds (swrap 64 w64_nz (Z.of_N (uval nanos)))).
