(** Model of the arithmetic and the text form of sia/src/types/currency.rs. *)

From Verif Require Import Base Io Model_encoding Model_common.
Local Open Scope N_scope.

(** ** Decimal numbers, as the Rust standard library reads and writes them *)

Definition is_digit (b : byte) : bool := in_range 48 57 b.
Definition digit_val (b : byte) : N := b2n b - 48.

(** [core::num::IntErrorKind] *)
Inductive int_error : Type := IEmpty | IInvalidDigit | IPosOverflow.

(** The digit loop of [from_str_radix(_, 10)]: the digit is checked before the overflow. *)
Fixpoint parse_digits (w : N) (acc : N) (s : bytes) : N + int_error :=
  match s with
  | [] => inl acc
  | c :: r =>
    if is_digit c then
      let acc' := acc * 10 + digit_val c in
      if acc' <? 2 ^ w then parse_digits w acc' r else inr IPosOverflow
    else inr IInvalidDigit
  end.

(** [str::parse::<uW>()]: a leading [+] is accepted, except alone; a leading [-] is not. *)
Definition parse_uint (w : N) (s : bytes) : uint w + int_error :=
  let go s := match parse_digits w 0 s with inl n => inl (uwrap w n) | inr e => inr e end in
  match s with
  | [] => inr IEmpty
  | [c] => if is_digit c then go s else inr IInvalidDigit
  | c :: r => if Byte.eqb c "+" then go r else go s
  end.

(** [Display] of unsigned integers: decimal digits without leading zeros. *)
Fixpoint dec_text_fuel (fuel : nat) (n : N) (acc : bytes) : bytes :=
  match fuel with
  | O => acc
  | S f =>
    let acc' := n2b (48 + n mod 10) :: acc in
    if n / 10 =? 0 then acc' else dec_text_fuel f (n / 10) acc'
  end.
Definition dec_text (n : N) : bytes := dec_text_fuel (S (N.to_nat (N.log2 n))) n [].

(** ** Whitespace *)

(** [char::is_whitespace] (Unicode [White_Space]) on the UTF-8 encoding: the number of bytes
    of the whitespace character at the head of [s], 0 if there is none. *)
Definition ws_len (s : bytes) : nat :=
  match s with
  | b0 :: r =>
    if in_range 0x09 0x0D b0 || in_range 0x20 0x20 b0 then 1%nat else
    match r with
    | b1 :: r2 =>
      if in_range 0xC2 0xC2 b0 && (in_range 0x85 0x85 b1 || in_range 0xA0 0xA0 b1) then 2%nat else
      match r2 with
      | b2 :: _ =>
        if (in_range 0xE1 0xE1 b0 && in_range 0x9A 0x9A b1 && in_range 0x80 0x80 b2)
           || (in_range 0xE2 0xE2 b0 && in_range 0x80 0x80 b1
               && (in_range 0x80 0x8A b2 || in_range 0xA8 0xA9 b2 || in_range 0xAF 0xAF b2))
           || (in_range 0xE2 0xE2 b0 && in_range 0x81 0x81 b1 && in_range 0x9F 0x9F b2)
           || (in_range 0xE3 0xE3 b0 && in_range 0x80 0x80 b1 && in_range 0x80 0x80 b2)
        then 3%nat else 0%nat
      | [] => 0%nat
      end
    | [] => 0%nat
    end
  | [] => 0%nat
  end.

(** [str::trim_start] *)
Fixpoint trim_start_fuel (fuel : nat) (s : bytes) : bytes :=
  match fuel with
  | O => s
  | S f => match ws_len s with O => s | k => trim_start_fuel f (skipn k s) end
  end.
Definition trim_start (s : bytes) : bytes := trim_start_fuel (length s) s.

(** The number of bytes of the whitespace character at the end of the string whose reversed
    bytes are [s]. No UTF-8 encoding of a character ends with another one's, so trying the
    three lengths in turn finds the last character. *)
Definition ws_len_rev (s : bytes) : nat :=
  match s with
  | b0 :: r =>
    if Nat.eqb (ws_len [b0]) 1 then 1%nat else
    match r with
    | b1 :: r2 =>
      if Nat.eqb (ws_len [b1; b0]) 2 then 2%nat else
      match r2 with
      | b2 :: _ => if Nat.eqb (ws_len [b2; b1; b0]) 3 then 3%nat else 0%nat
      | [] => 0%nat
      end
    | [] => 0%nat
    end
  | [] => 0%nat
  end.

Fixpoint trim_rev_fuel (fuel : nat) (s : bytes) : bytes :=
  match fuel with
  | O => s
  | S f => match ws_len_rev s with O => s | k => trim_rev_fuel f (skipn k s) end
  end.

(** [str::trim_end], [str::trim] *)
Definition trim_end (s : bytes) : bytes := rev (trim_rev_fuel (length s) (rev s)).
Definition trim (s : bytes) : bytes := trim_end (trim_start s).

(** [str::split(c)] for a one-byte character: always at least one part. *)
Fixpoint split_on (c : byte) (s : bytes) : list bytes :=
  match s with
  | [] => [[]]
  | b :: r =>
    if Byte.eqb b c then [] :: split_on c r
    else match split_on c r with
         | p :: ps => (b :: p) :: ps
         | [] => [[b]]
         end
  end.

(** ** Arithmetic *)

(** currency.rs:150-152, 154-156 *)
Definition currency_new (n : N) : currency := uwrap 128 n.
Definition currency_zero : currency := uwrap 128 0.

(** [10u128.pow(e)]: exponentiation by squaring, whose intermediate values never exceed the
    result. [10^e] is a multiple of [2^128] for [e >= 128]. *)
Definition pow10 (p : profile) (e : u32) : outcome u128 :=
  match p with
  | Debug => if uval e <? 39 then Val (uwrap 128 (10 ^ uval e)) else Panic ArithOverflow
  | Release => Val (if uval e <? 128 then uwrap 128 (10 ^ uval e) else uwrap 128 0)
  end.

(** currency.rs:223-225 *)
Definition siacoins (p : profile) (n : u64) : outcome currency :=
  obind (pow10 p (uwrap 32 24)) (fun k => u_mul p (uwrap 128 (uval n)) k).

(** currency.rs:227-245 *)
Definition checked_add (a b : currency) : option currency :=
  if uval a + uval b <? 2 ^ 128 then Some (uwrap 128 (uval a + uval b)) else None.
Definition checked_sub (a b : currency) : option currency :=
  if uval b <=? uval a then Some (uwrap 128 (uval a - uval b)) else None.
Definition checked_mul (a b : currency) : option currency :=
  if uval a * uval b <? 2 ^ 128 then Some (uwrap 128 (uval a * uval b)) else None.
Definition checked_div (a b : currency) : option currency :=
  if uval b =? 0 then None else Some (uwrap 128 (uval a / uval b)).

(** currency.rs:248-278, 286-292 *)
Definition currency_add (p : profile) (a b : currency) : outcome currency := u_add p a b.
Definition currency_sub (p : profile) (a b : currency) : outcome currency := u_sub p a b.
Definition currency_mul (p : profile) (a b : currency) : outcome currency := u_mul p a b.
Definition currency_div (a b : currency) : outcome currency := u_div a b.
Definition currency_rem (a b : currency) : outcome currency := u_rem a b.

(** currency.rs:280-284 *)
Definition currency_sum (p : profile) (l : list currency) : outcome currency :=
  fold_left (fun acc c => obind acc (fun s => currency_add p s c)) l (Val currency_zero).

(** ** Text *)

(** [Display] through [Deref<Target = u128>] (currency.rs:118-123). *)
Definition currency_text (c : currency) : bytes := dec_text (uval c).

(** currency.rs:294-299 *)
Inductive currency_error : Type :=
| ParseIntErr (e : int_error)
| InvalidUnit (unit : bytes)
| InvalidFormat (msg : string).

(** [i32] arithmetic, checked in [Debug] and wrapping in [Release]. *)
Definition i32_arith (p : profile) (z : Z) : outcome Z :=
  match p with
  | Debug => if (- 2 ^ 31 <=? z)%Z && (z <? 2 ^ 31)%Z then Val z else Panic ArithOverflow
  | Release => Val (swrap_Z 32 z)
  end.

(** [z as u32] *)
Definition as_u32 (z : Z) : u32 := uwrap 32 (Z.to_N (z mod 2 ^ 32)).

(** currency.rs:171-182 *)
Definition scaling_factor (unit : bytes) : option Z :=
  let is s := if list_eq_dec Byte.byte_eq_dec unit (ascii s) then true else false in
  if is "pS"%string then Some (-12)%Z else
  if is "nS"%string then Some (-9)%Z else
  if is "uS"%string then Some (-6)%Z else
  if is "mS"%string then Some (-3)%Z else
  if is "SC"%string then Some 0%Z else
  if is "KS"%string then Some 3%Z else
  if is "MS"%string then Some 6%Z else
  if is "GS"%string then Some 9%Z else
  if is "TS"%string then Some 12%Z else None.

(** [s.find(|c| !c.is_ascii_digit() && c != '.').unwrap_or(s.len())] then [split_at]: the
    longest prefix of digits and dots, and the rest. Bytes of non-ASCII characters are
    neither digits nor dots, so the index is on a character boundary. *)
Fixpoint span_value (s : bytes) : bytes * bytes :=
  match s with
  | [] => ([], [])
  | c :: r =>
    if is_digit c || Byte.eqb c "." then let '(v, u) := span_value r in (c :: v, u)
    else ([], s)
  end.

(** currency.rs:158-208. [parts] has one or two elements when the match below is reached;
    [frac.len() as i32] truncates. *)
Definition parse_currency (p : profile) (s : bytes) : outcome (currency + currency_error) :=
  let '(value, unit) := span_value s in
  let value := trim value in
  let unit := trim unit in
  if (match unit with [] => true | _ => false end)
     || (if list_eq_dec Byte.byte_eq_dec unit (ascii "H") then true else false) then
    match parse_uint 128 value with
    | inl v => Val (inl v)
    | inr e => Val (inr (ParseIntErr e))
    end
  else
    match scaling_factor unit with
    | None => Val (inr (InvalidUnit unit))
    | Some scale =>
      match split_on "." value with
      | int :: frac =>
        match frac with
        | _ :: _ :: _ => Val (inr (InvalidFormat "too many decimal points"))
        | _ =>
          match parse_uint 128 int with
          | inr _ => Val (inr (InvalidFormat "invalid integer part"))
          | inl integer_part =>
            match (match frac with
                   | f :: _ => parse_uint 128 f
                   | [] => inl (uwrap 128 0)
                   end) with
            | inr _ => Val (inr (InvalidFormat "invalid integer part"))
            | inl fraction_part =>
              let frac_digits :=
                match frac with f :: _ => swrap_Z 32 (Z.of_nat (length f)) | [] => 0%Z end in
              obind (i32_arith p (24 + scale)%Z) (fun e1 =>
              obind (pow10 p (as_u32 e1)) (fun k1 =>
              obind (u_mul p integer_part k1) (fun integer =>
              obind (i32_arith p (24 - frac_digits)%Z) (fun d =>
              obind (i32_arith p (d + scale)%Z) (fun e2 =>
              obind (pow10 p (as_u32 e2)) (fun k2 =>
              obind (u_mul p fraction_part k2) (fun fraction =>
              obind (u_add p integer fraction) (fun r => Val (inl r)))))))))
            end
          end
        end
      | [] => Panic IndexOutOfBounds
      end
    end.
