(** Model of the text forms: macros.rs, types/common.rs, types/specifier.rs, types/v1.rs
    ([UnlockKey]), types/work.rs and signing.rs. A [&str] is its UTF-8 bytes. *)

From Verif Require Import Base Io Model_encoding Model_common Blake2b Model_currency Model_v1
  Model_consensus.
Local Open Scope N_scope.

(** ** Hexadecimal: the [hex] crate (0.4) *)

(** [hex::FromHexError] *)
Inductive hex_error : Type :=
| InvalidHexCharacter (c : byte) (index : N)
| OddLength
| InvalidStringLength.

Definition hex_char (n : N) : byte := n2b (if n <? 10 then 48 + n else 87 + n).

(** [hex::encode]: two lower-case digits per byte *)
Fixpoint hex_encode (l : bytes) : bytes :=
  match l with
  | [] => []
  | b :: r => hex_char (b2n b / 16) :: hex_char (b2n b mod 16) :: hex_encode r
  end.

(** macros.rs:108-115 [decode_hex_char]; the [hex] crate's [val] accepts the same digits. *)
Definition decode_hex_char (c : byte) : option N :=
  if in_range 48 57 c then Some (b2n c - 48) else
  if in_range 97 102 c then Some (b2n c - 97 + 10) else
  if in_range 65 70 c then Some (b2n c - 65 + 10) else None.

(** The loop of [hex::decode] and [hex::decode_to_slice], at character [i]. *)
Fixpoint hex_pairs (i : N) (s : bytes) : bytes + hex_error :=
  match s with
  | hi :: lo :: r =>
    match decode_hex_char hi with
    | None => inr (InvalidHexCharacter hi i)
    | Some h =>
      match decode_hex_char lo with
      | None => inr (InvalidHexCharacter lo (i + 1))
      | Some l =>
        match hex_pairs (i + 2) r with
        | inl t => inl (n2b (h * 16 + l) :: t)
        | inr e => inr e
        end
      end
    end
  | _ => inl []
  end.

(** [hex::decode] *)
Definition hex_decode (s : bytes) : bytes + hex_error :=
  if Nat.odd (length s) then inr OddLength else hex_pairs 0 s.

(** [hex::decode_to_slice] with a slice of [n] bytes *)
Definition hex_decode_to_slice (n : nat) (s : bytes) : bytes + hex_error :=
  if Nat.odd (length s) then inr OddLength
  else if negb (Nat.eqb (Nat.div2 (length s)) n) then inr InvalidStringLength
  else hex_pairs 0 s.

(** common.rs:202-211 *)
Inductive hex_parse_error : Type :=
| MissingPrefix
| InvalidLength
| InvalidPrefix
| InvalidChecksum
| HexError (e : hex_error).

(** [str::split_once(c)] for an ASCII character *)
Fixpoint split_once (c : byte) (s : bytes) : option (bytes * bytes) :=
  match s with
  | [] => None
  | b :: r =>
    if Byte.eqb b c then Some ([], r)
    else match split_once c r with Some (x, y) => Some (b :: x, y) | None => None end
  end.

(** ** 32-byte hashes and identifiers *)

(** macros.rs:60-64 *)
Definition hash_text (h : hash256) : bytes := hex_encode (aval h).

(** macros.rs:43-57 *)
Definition parse_hash (s : bytes) : hash256 + hex_parse_error :=
  let s := match split_once ":" s with Some (_, suffix) => suffix | None => s end in
  if negb (Nat.eqb (length s) 64) then inr InvalidLength
  else match hex_decode_to_slice 32 s with
       | inl data => inl (arr_of 32 data)
       | inr e => inr (HexError e)
       end.

(** common.rs:161-165 *)
Definition chain_index_text (c : chain_index) : bytes :=
  dec_text (uval (ci_height c)) ++ ascii ":" ++ hex_encode (aval (ci_id c)).

(** ** Addresses *)

(** common.rs:284-298 *)
Definition address_text (a : hash256) : bytes :=
  hex_encode (aval a ++ firstn 6 (blake2b_256 (aval a))).

Definition bytes_eqb (a b : bytes) : bool := if list_eq_dec Byte.byte_eq_dec a b then true else false.

(** common.rs:241-262 *)
Definition parse_address (s : bytes) : hash256 + hex_parse_error :=
  if negb (Nat.eqb (length s) 76) then inr InvalidLength
  else match hex_decode_to_slice 38 s with
       | inr e => inr (HexError e)
       | inl data =>
         if bytes_eqb (firstn 6 (blake2b_256 (firstn 32 data))) (skipn 32 data)
         then inl (arr_of 32 (firstn 32 data))
         else inr InvalidChecksum
       end.

(** common.rs:271-277: [copy_from_slice] panics when the lengths differ. *)
Definition address_from_slice (val : bytes) : outcome hash256 :=
  if Nat.eqb (length val) 32 then Val (arr_of 32 val) else Panic AssertFailed.

(** ** Leaves *)

(** common.rs:362-366 *)
Definition leaf_text (l : leaf) : bytes := hex_encode (aval l).

(** common.rs:346-354 *)
Definition parse_leaf (s : bytes) : leaf + hex_parse_error :=
  if negb (Nat.eqb (length s) 128) then inr InvalidLength
  else match hex_decode_to_slice 64 s with
       | inl data => inl (arr_of 64 data)
       | inr e => inr (HexError e)
       end.

(** ** Specifiers *)

(** specifier.rs:34-43 *)
Definition specifier_from (s : bytes) : specifier :=
  let src := firstn 16 s in arr_of 16 (src ++ repeat x00 (16 - length src)).

(** specifier.rs:47-53: the bytes up to the last non-zero one *)
Fixpoint drop_zeros (l : bytes) : bytes :=
  match l with
  | b :: r => if Byte.eqb b x00 then drop_zeros r else l
  | [] => []
  end.
Definition trim_zeros (l : bytes) : bytes := rev (drop_zeros (rev l)).

(** specifier.rs:45-57, with [to_string], which panics when [fmt] fails *)
Definition specifier_text (s : specifier) : outcome bytes :=
  let t := trim_zeros (aval s) in
  if utf8_valid t then Val t else Panic UnwrapNone.

(** ** Unlock keys *)

(** v1.rs:59-63 *)
Definition unlock_key_text (k : unlock_key) : outcome bytes :=
  obind (specifier_text (uk_algorithm k)) (fun a =>
  Val (a ++ ascii ":" ++ hex_encode (vlist (uk_key k)))).

(** v1.rs:65-75. A [&str] has at most [isize::MAX] bytes, so the decoded vector exists. *)
Definition parse_unlock_key (s : rstring) : unlock_key + hex_parse_error :=
  match split_once ":" (vlist (sbytes s)) with
  | None => inr MissingPrefix
  | Some (prefix, key_str) =>
    match hex_decode key_str with
    | inr e => inr (HexError e)
    | inl key =>
      match vec_of 1 key with
      | Some v => inl (MkUnlockKey (specifier_from prefix) v)
      | None => inr InvalidLength
      end
    end
  end.

(** ** Public keys, signatures *)

(** signing.rs:39-43 *)
Definition public_key_text (k : hash256) : bytes := ascii "ed25519:" ++ hex_encode (aval k).

(** [str::strip_prefix] *)
Fixpoint strip_prefix (p s : bytes) : option bytes :=
  match p, s with
  | [], _ => Some s
  | a :: p', b :: s' => if Byte.eqb a b then strip_prefix p' s' else None
  | _ :: _, [] => None
  end.

(** signing.rs:23-37; any error is [None] *)
Definition parse_public_key (s : bytes) : option hash256 :=
  match strip_prefix (ascii "ed25519:") s with
  | None => None
  | Some r =>
    match hex_decode_to_slice 32 r with
    | inl data => Some (arr_of 32 data)
    | inr _ => None
    end
  end.

(** signing.rs:175-179, 116-120 *)
Definition signature_text (s : signature) : bytes := hex_encode (aval s).

(** signing.rs:145-154 *)
Definition parse_signature (s : bytes) : signature + hex_parse_error :=
  match hex_decode s with
  | inr e => inr (HexError e)
  | inl data => if Nat.eqb (length data) 64 then inl (arr_of 64 data) else inr InvalidLength
  end.

(** ** Work: the [uint] crate (0.10) *)

Definition work_text (w : work) : bytes := dec_text (uval w).

(** [U256::from_dec_str]: any error is [None]; the empty text is zero. *)
Definition parse_work (s : bytes) : option work :=
  match parse_digits 256 0 s with
  | inl n => Some (uwrap 256 n)
  | inr _ => None
  end.

(** ** Literals *)

(** macros.rs:118-140 on the first 64 bytes of [s], which has at least 64 *)
Definition decode_hex_256 (s : bytes) : outcome hash256 :=
  match hex_pairs 0 (firstn 64 s) with
  | inl data => Val (arr_of 32 data)
  | inr _ => Panic AssertFailed
  end.

(** macros.rs:151-159. A panic in a [const] is a compile error. *)
Definition address_literal (s : bytes) : outcome hash256 :=
  if negb (Nat.eqb (length s) 76) then Panic AssertFailed else decode_hex_256 s.

(** macros.rs:169-177 and 187-268: hash_256!, siacoin_id!, siafund_id!, contract_id!,
    transaction_id!, block_id! *)
Definition hash_literal (s : bytes) : outcome hash256 :=
  if negb (Nat.eqb (length s) 64) then Panic AssertFailed else decode_hex_256 s.

(** macros.rs:277-302 *)
Definition public_key_literal (s : bytes) : outcome hash256 :=
  if negb (Nat.eqb (length s) 72) then Panic AssertFailed
  else if negb (bytes_eqb (firstn 8 s) (ascii "ed25519:")) then Panic AssertFailed
  else decode_hex_256 (skipn 8 s).
