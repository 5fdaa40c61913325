(** Recovery phrases as BIP39 defines them, words of a text, and the input of key derivation. *)

From Verif Require Import Base Blake2b Sha2 Bip39Words SpecUtf8.
Local Open Scope N_scope.

(** ** Phrases *)

(** The entropy followed by the first [|e| / 4] bits of its SHA-256 hash, as one number. *)
Definition phrase_number (e : bytes) : N :=
  let cs := N.of_nat (length e) / 4 in
  2 ^ cs * from_be e + from_be (sha256 e) / 2 ^ (256 - cs).

(** Three words for four bytes: the digits of that number in base 2048, most significant first,
    each standing for the word at that position of the list. *)
Definition phrase_words (e : bytes) : list bytes :=
  let k := (3 * length e / 4)%nat in
  map (fun i => nth (N.to_nat (phrase_number e / 2048 ^ N.of_nat (k - 1 - i) mod 2048)) word_list [])
      (seq 0 k).

(** ** Words of a text *)

(** the Unicode property White_Space *)
Definition white (c : N) : Prop :=
  9 <= c <= 13 \/ c = 32 \/ c = 133 \/ c = 160 \/ c = 5760 \/ 8192 <= c <= 8202 \/
  c = 8232 \/ c = 8233 \/ c = 8239 \/ c = 8287 \/ c = 12288.

(** [Words cs ws]: [ws] are the longest runs of characters of [cs] that are not white space. *)
Inductive Words : list N -> list (list N) -> Prop :=
| W_nil : Words [] []
| W_white : forall c cs ws, white c -> Words cs ws -> Words (c :: cs) ws
| W_word : forall w cs ws, w <> [] -> Forall (fun c => ~ white c) w ->
    (forall c r, cs = c :: r -> white c) -> Words cs ws -> Words (w ++ cs) (w :: ws).

Definition utf8 (cs : list N) : bytes := concat (map utf8_char cs).

(** seven-bit text *)
Definition ascii_only (s : bytes) : Prop := Forall (fun b => b2n b < 128) s.

(** ** Key derivation *)

(** The hash of the seed followed by the index as eight little-endian bytes. *)
Definition derived_input (seed : bytes) (index : N) : bytes :=
  blake2b_256 seed ++ le_bytes 8 index.

(** The seed of the derived key. *)
Definition derived_seed (seed : bytes) (index : N) : bytes :=
  blake2b_256 (derived_input seed index).
