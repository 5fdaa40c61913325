(** [sia/src/seed.rs]: seeds, recovery phrases and derived keys, and the parts of the [bip39]
    crate (2.1.0, sia/Cargo.toml:18) they use. Texts are UTF-8 byte strings.

    Not modelled: the Unicode tables behind the compatibility decomposition (NFKD). It is a
    function given to [from_mnemonic], and the theorems ask of it only that it leaves ASCII text
    unchanged. *)

From Verif Require Import Base Blake2b Sha2 Bip39Words Model_common Model_signing.
Local Open Scope N_scope.

(** ** bip39 *)

(** [k] bits of [n], most significant first. *)
Fixpoint bits (k : nat) (n : N) : list bool :=
  match k with
  | O => []
  | S k' => N.testbit n (N.of_nat k') :: bits k' n
  end.

(** The number with these bits, most significant first. *)
Definition of_bits (l : list bool) : N :=
  fold_left (fun (a : N) (b : bool) => 2 * a + (if b then 1 else 0)) l 0.

Definition byte_bits (l : bytes) : list bool := flat_map (fun b => bits 8 (b2n b)) l.

(** The first [n] groups of [k] bits. *)
Fixpoint groups (k n : nat) (l : list bool) : list (list bool) :=
  match n with
  | O => []
  | S n' => firstn k l :: groups k n' (skipn k l)
  end.

Inductive bip39_error : Type :=
| BadEntropyBitCount | BadWordCount | UnknownWord | InvalidChecksum.

(** [Mnemonic::from_entropy_in]: the indices of the words. *)
Definition from_entropy_in (entropy : bytes) : list N + bip39_error :=
  let nb_bytes := length entropy in
  if negb (Nat.eqb (nb_bytes * 8 mod 32) 0) then inr BadEntropyBitCount
  else if (Nat.ltb (nb_bytes * 8) 128 || Nat.ltb 256 (nb_bytes * 8))%bool then inr BadEntropyBitCount
  else
    let all := byte_bits entropy ++ firstn (nb_bytes / 4) (byte_bits (sha256 entropy)) in
    inl (map of_bits (groups 11 (nb_bytes * 3 / 4) all)).

(** [Display for Mnemonic]: the words with single spaces between them. *)
Fixpoint join_words (ws : list bytes) : bytes :=
  match ws with
  | [] => []
  | [w] => w
  | w :: r => w ++ " "%byte :: join_words r
  end.
Definition mnemonic_text (idx : list N) : bytes :=
  join_words (map (fun i => nth (N.to_nat i) word_list []) idx).

(** The number of bytes of the white-space character at the head of a text, 0 if there is none
    ([char::is_whitespace]: the Unicode property White_Space). *)
Definition ws_len (l : bytes) : nat :=
  match l with
  | x09 :: _ | x0a :: _ | x0b :: _ | x0c :: _ | x0d :: _ | x20 :: _ => 1%nat
  | xc2 :: x85 :: _ | xc2 :: xa0 :: _ => 2%nat
  | xe1 :: x9a :: x80 :: _ => 3%nat
  | xe2 :: x80 :: b :: _ =>
    if ((0x80 <=? b2n b) && (b2n b <=? 0x8A) || (b2n b =? 0xA8) || (b2n b =? 0xA9)
        || (b2n b =? 0xAF))%bool
    then 3%nat else 0%nat
  | xe2 :: x81 :: x9f :: _ => 3%nat
  | xe3 :: x80 :: x80 :: _ => 3%nat
  | _ => 0%nat
  end.

(** [str::split_whitespace]; [skip] bytes belong to a white-space character already seen, [cur] is
    the current word, reversed. *)
Fixpoint split_ws (skip : nat) (cur : bytes) (l : bytes) : list bytes :=
  let flush := match cur with [] => [] | _ => [rev cur] end in
  match l with
  | [] => flush
  | b :: r =>
    match skip with
    | S skip' => split_ws skip' cur r
    | O =>
      match ws_len l with
      | S k => flush ++ split_ws k [] r
      | O => split_ws 0 (b :: cur) r
      end
    end
  end.
Definition split_whitespace (s : bytes) : list bytes := split_ws 0 [] s.

(** [Language::find_word]: a binary search in the crate, the first position here; the list is
    sorted and has no duplicates. *)
Fixpoint find_from (i : N) (w : bytes) (l : list bytes) : option N :=
  match l with
  | [] => None
  | x :: r => if list_eq_dec Byte.byte_eq_dec x w then Some i else find_from (N.succ i) w r
  end.
Definition find_word (w : bytes) : option N := find_from 0 w word_list.

Fixpoint find_words (ws : list bytes) : option (list N) :=
  match ws with
  | [] => Some []
  | w :: r =>
    match find_word w, find_words r with Some i, Some is => Some (i :: is) | _, _ => None end
  end.

(** [Mnemonic::to_entropy]; also the entropy computed while parsing. The crate shifts the words
    through a register; here their bits are put one after the other. *)
Definition word_bits (idx : list N) : list bool := flat_map (bits 11) idx.
Definition to_entropy (idx : list N) : bytes :=
  map (fun g => n2b (of_bits g)) (groups 8 (length idx / 3 * 4) (word_bits idx)).

(** [Mnemonic::parse_in_normalized]. *)
Definition parse_in_normalized (s : bytes) : list N + bip39_error :=
  let ws := split_whitespace s in
  let nb_words := length ws in
  if (Nat.ltb nb_words 12 || negb (Nat.eqb (nb_words mod 3) 0) || Nat.ltb 24 nb_words)%bool
  then inr BadWordCount
  else
    match find_words ws with
    | None => inr UnknownWord
    | Some idx =>
      let entropy := to_entropy idx in
      let nb_bytes := length entropy in
      let check := firstn (nb_bytes / 4) (byte_bits (sha256 entropy)) in
      if list_eq_dec Bool.bool_dec (firstn (nb_bytes / 4) (skipn (8 * nb_bytes) (word_bits idx))) check
      then inl idx
      else inr InvalidChecksum
    end.

(** ** seed.rs *)

(** seed.rs:6 [Seed([u8; 16])], :21-23 [Seed::new]. *)
Definition seed : Type := arr 16.

(** seed.rs:8-12. *)
Inductive seed_error : Type := SeedMnemonicError | SeedInvalidLength.

(** seed.rs:25-35 [Seed::from_mnemonic]; [nfkd] is the normalisation done by
    [Mnemonic::parse_in]. *)
Definition from_mnemonic (nfkd : bytes -> bytes) (s : bytes) : seed + seed_error :=
  match parse_in_normalized (nfkd s) with
  | inr _ => inr SeedMnemonicError
  | inl m =>
    let buf := to_entropy m in
    if negb (Nat.eqb (length buf) 16) then inr SeedInvalidLength
    else inl (arr_of 16 (firstn 16 buf))
  end.

(** seed.rs:37-41 [Seed::to_mnemonic]. *)
Definition to_mnemonic (s : seed) : outcome bytes :=
  match from_entropy_in (aval s) with
  | inr _ => Panic UnwrapNone
  | inl m => Val (mnemonic_text m)
  end.

(** seed.rs:43-45 [Seed::as_bytes]. *)
Definition seed_as_bytes (s : seed) : bytes := aval s.

(** seed.rs:48-62 [Seed::private_key]. *)
Definition seed_private_key (s : seed) (index : u64) : private_key :=
  let entropy := hash (aval s) in
  let key_seed := hash (aval entropy ++ le_bytes 8 (uval index)) in
  sk_from_hash key_seed.
