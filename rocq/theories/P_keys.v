(** Properties C47 and C48: seeds, recovery phrases, derived keys and signatures. Phrases are
    specified in SpecSeed.v (BIP39), signatures in SpecSign.v (RFC 8032) over the curve of
    SpecCurve.v. [nfkd] is the Unicode normalisation of the bip39 crate, which is not modelled: the
    theorems hold for every function, or for every function that leaves seven-bit text alone. *)

From Coq Require Import ZArith.
From Verif Require Import Base Blake2b Sha2 Fp SpecCurve Model_common Model_ed25519 Model_signing
  Model_seed Bip39Words SpecUtf8 SpecMerkle SpecSign SpecSeed Samples SigningProofs SeedProofs.
Local Open Scope N_scope.

(** ** C47 *)

(** The phrase of a seed: the twelve words of BIP39, separated by single spaces. *)
Theorem C47_phrase : forall s, exists t, to_mnemonic s = Val t /\
  t ++ [" "%byte] = concat (map (fun w => w ++ [" "%byte]) (phrase_words (aval s))).
Proof. exact phrase_text. Qed.
Print Assumptions C47_phrase.

Theorem C47_phrase_words : forall s : seed,
  length (phrase_words (aval s)) = 12%nat /\ Forall (fun w => In w word_list) (phrase_words (aval s)).
Proof. exact phrase_words_in_list. Qed.
Print Assumptions C47_phrase_words.

(** Every seed is restored from its phrase. *)
Theorem C47_roundtrip : forall nfkd, (forall t, ascii_only t -> nfkd t = t) ->
  forall s, exists t, to_mnemonic s = Val t /\ from_mnemonic nfkd t = inl s.
Proof. exact seed_roundtrip. Qed.
Print Assumptions C47_roundtrip.

(** The restored seed derives the same keys. *)
Theorem C47_restored_keys : forall nfkd, (forall t, ascii_only t -> nfkd t = t) -> forall s t,
  to_mnemonic s = Val t ->
  exists s', from_mnemonic nfkd t = inl s' /\
    forall i, seed_private_key s' i = seed_private_key s i.
Proof. exact restored_keys. Qed.
Print Assumptions C47_restored_keys.

(** Exactly the texts whose words are the phrase of a seed are accepted, with that seed. *)
Theorem C47_accepts : forall nfkd t cs ws s, Forall scalar cs -> nfkd t = utf8 cs -> Words cs ws ->
  from_mnemonic nfkd t = inl s <-> map utf8 ws = phrase_words (aval s).
Proof. exact accepts_words. Qed.
Print Assumptions C47_accepts.

(** The words of a text exist. *)
Theorem C47_words_exist : forall cs, exists ws, Words cs ws.
Proof. exact words_exist. Qed.
Print Assumptions C47_words_exist.

(** The phrases of longer entropies are refused with the error of their own. *)
Theorem C47_invalid_length : forall nfkd t cs ws,
  Forall scalar cs -> nfkd t = utf8 cs -> Words cs ws ->
  from_mnemonic nfkd t = inr SeedInvalidLength <->
  exists e, (length e = 20 \/ length e = 24 \/ length e = 28 \/ length e = 32)%nat /\
    map utf8 ws = phrase_words e.
Proof. exact length_words. Qed.
Print Assumptions C47_invalid_length.

(** No two entropies share a phrase. *)
Theorem C47_phrases_differ : forall e e',
  In (length e) [16; 20; 24; 28; 32]%nat -> In (length e') [16; 20; 24; 28; 32]%nat ->
  phrase_words e = phrase_words e' -> e = e'.
Proof. exact phrases_differ. Qed.
Print Assumptions C47_phrases_differ.

(** The bytes of a derived key. *)
Theorem C47_derived_key : forall s i,
  sk_as_bytes (seed_private_key s i) =
  derived_seed (aval s) (uval i) ++ point_bytes (public_point (derived_seed (aval s) (uval i))).
Proof. exact key_bytes. Qed.
Print Assumptions C47_derived_key.

(** Equal derived keys: the same seed and index, unless the hash function collides. *)
Theorem C47_derivation_binds : forall s i s' i',
  seed_private_key s i = seed_private_key s' i' ->
  (s = s' /\ i = i') \/
  Collision [aval s; derived_input (aval s) (uval i)] [aval s'; derived_input (aval s') (uval i')].
Proof. exact private_key_binds. Qed.
Print Assumptions C47_derivation_binds.

(** Under one seed, different indices hash different bytes. *)
Theorem C47_inputs_differ : forall (s : seed) (i i' : u64),
  derived_input (aval s) (uval i) = derived_input (aval s) (uval i') -> i = i'.
Proof. exact inputs_differ. Qed.
Print Assumptions C47_inputs_differ.

(** Equal public keys: the same secret scalar. *)
Theorem C47_public_keys : forall s i s' i',
  sk_public_key (seed_private_key s i) = sk_public_key (seed_private_key s' i') ->
  secret_scalar (derived_seed (aval s) (uval i)) = secret_scalar (derived_seed (aval s') (uval i')).
Proof. exact public_keys_scalar. Qed.
Print Assumptions C47_public_keys.

Definition demo_seed : seed := arr_of 16 (map n2b [0; 1; 2; 3; 4; 5; 6; 7; 8; 9; 10; 11; 12; 13; 14; 15]).

Example C47_example :
  to_mnemonic demo_seed = Val (ascii
    "abandon amount liar amount expire adjust cage candy arch gather drum buyer"%string) /\
  from_mnemonic (fun t => t) (ascii
    "  abandon amount liar amount expire adjust cage candy
arch gather drum buyer "%string) = inl demo_seed /\
  from_mnemonic (fun t => t) (ascii
    "abandon amount liar amount expire adjust cage candy arch gather drum drum"%string)
    = inr SeedMnemonicError.
Proof. repeat split; vm_compute; reflexivity. Qed.

(** ** C48 *)

(** A signature verifies under the public key of the private key that made it. *)
Theorem C48_sign_verify : forall seed h,
  pk_verify (sk_public_key (from_seed seed)) h (sign_hash (from_seed seed) h) = Val true.
Proof. exact sign_verify. Qed.
Print Assumptions C48_sign_verify.

(** For keys read from 64 bytes: when the second half is the public key of the first. *)
Theorem C48_sign_verify_bytes_partial : forall b h,
  skipn 32 (aval b) = point_bytes (public_point (firstn 32 (aval b))) ->
  pk_verify (sk_public_key (sk_from_bytes b)) h (sign_hash (sk_from_bytes b) h) = Val true.
Proof. exact sign_verify_bytes. Qed.
Print Assumptions C48_sign_verify_bytes_partial.

(** Nothing checks the second half: it may not even be a point, and then checking a signature
    made with the key panics. *)
Theorem C48_sign_verify_bytes_refuted : exists b, forall h,
  pk_verify (sk_public_key (sk_from_bytes b)) h (sign_hash (sk_from_bytes b) h) = Panic UnwrapNone.
Proof. exact sign_verify_bytes_refuted. Qed.
Print Assumptions C48_sign_verify_bytes_refuted.

(** If it is a point [A], the signature verifies exactly when the own point and [A] agree after
    multiplication by the challenges of the two keys. *)
Theorem C48_bytes_key_verify : forall b h A, key_of (skipn 32 (aval b)) A ->
  let own := public_point (firstn 32 (aval b)) in
  let r := firstn 32 (aval (sign_hash (sk_from_bytes b) h)) in
  pk_verify (sk_public_key (sk_from_bytes b)) h (sign_hash (sk_from_bytes b) h) = Val true <->
  pmul (challenge_of r (point_bytes own) (aval h)) own =
  pmul (challenge_of r (skipn 32 (aval b)) (aval h)) A.
Proof. exact bytes_key_verify. Qed.
Print Assumptions C48_bytes_key_verify.

(** The public key and the signature are those of RFC 8032. *)
Theorem C48_public_key : forall seed,
  aval (sk_public_key (from_seed seed)) = point_bytes (public_point (aval seed)).
Proof. exact from_seed_public_key. Qed.
Print Assumptions C48_public_key.

Theorem C48_signature : forall k h,
  aval (sign_hash k h) = rfc_sign (firstn 32 (aval k)) (aval h).
Proof. exact sign_hash_spec. Qed.
Print Assumptions C48_signature.

Theorem C48_key_bytes : forall seed,
  sk_as_bytes (from_seed seed) = aval seed ++ point_bytes (public_point (aval seed)) /\
  sk_from_hash seed = from_seed seed /\
  sk_from_bytes (from_seed seed) = from_seed seed.
Proof. exact from_seed_bytes. Qed.
Print Assumptions C48_key_bytes.

(** Verification accepts exactly the signatures that satisfy the equation of RFC 8032. *)
Theorem C48_verify : forall pk h sig A, key_of (aval pk) A ->
  (pk_verify pk h sig = Val true <-> rfc_accepts (aval pk) A (aval h) (aval sig)) /\
  (pk_verify pk h sig = Val false <-> ~ rfc_accepts (aval pk) A (aval h) (aval sig)).
Proof. exact pk_verify_spec. Qed.
Print Assumptions C48_verify.

(** The point of a public key is unique. *)
Theorem C48_key_point_unique : forall b P Q, length b = 32%nat -> key_of b P -> key_of b Q -> P = Q.
Proof. exact Ed25519Proofs.key_of_inj. Qed.
Print Assumptions C48_key_point_unique.

(** A boolean is returned exactly when the public key stands for a point of the curve. *)
Theorem C48_total_partial : forall pk h sig,
  (exists b, pk_verify pk h sig = Val b) <-> exists A, key_of (aval pk) A.
Proof. exact pk_verify_total. Qed.
Print Assumptions C48_total_partial.

(** For every other public key the call panics, whatever the hash and the signature. *)
Theorem C48_panics : forall pk h sig,
  pk_verify pk h sig = Panic UnwrapNone <-> forall A, ~ key_of (aval pk) A.
Proof. exact pk_verify_panic. Qed.
Print Assumptions C48_panics.

Theorem C48_total_refuted : exists pk, forall h sig, pk_verify pk h sig = Panic UnwrapNone.
Proof. exact verify_panics. Qed.
Print Assumptions C48_total_refuted.

(** Two accepted signatures of one hash that share [R] are equal: [S] cannot be altered. *)
Theorem C48_not_malleable : forall pk h sig sig',
  pk_verify pk h sig = Val true -> pk_verify pk h sig' = Val true ->
  firstn 32 (aval sig) = firstn 32 (aval sig') -> sig = sig'.
Proof. exact verify_unique. Qed.
Print Assumptions C48_not_malleable.

(** One signature for two hashes: their challenges are equal. *)
Theorem C48_two_hashes : forall seed h h' sig,
  pk_verify (sk_public_key (from_seed seed)) h sig = Val true ->
  pk_verify (sk_public_key (from_seed seed)) h' sig = Val true ->
  let r := firstn 32 (aval sig) in
  let a := aval (sk_public_key (from_seed seed)) in
  challenge_of r a (aval h) = challenge_of r a (aval h').
Proof. exact accepts_two_hashes. Qed.
Print Assumptions C48_two_hashes.

(** Two seeds with one public key have one secret scalar. *)
Theorem C48_public_key_binds : forall s s',
  sk_public_key (from_seed s) = sk_public_key (from_seed s') ->
  secret_scalar (aval s) = secret_scalar (aval s').
Proof. exact public_key_scalar. Qed.
Print Assumptions C48_public_key_binds.

(** RFC 8032, 7.1: the public key of the first test. *)
Definition rfc_key : arr 32 := arr_of 32 (map n2b
  [0x9d; 0x61; 0xb1; 0x9d; 0xef; 0xfd; 0x5a; 0x60; 0xba; 0x84; 0x4a; 0xf4; 0x92; 0xec; 0x2c; 0xc4;
   0x44; 0x49; 0xc5; 0x69; 0x7b; 0x32; 0x69; 0x19; 0x70; 0x3b; 0xac; 0x03; 0x1c; 0xae; 0x7f; 0x60]).

Example C48_example :
  map b2n (aval (sk_public_key (from_seed rfc_key))) =
  [0xd7; 0x5a; 0x98; 0x01; 0x82; 0xb1; 0x0a; 0xb7; 0xd5; 0x4b; 0xfe; 0xd3; 0xc9; 0x64; 0x07; 0x3a;
   0x0e; 0xe1; 0x72; 0xf3; 0xda; 0xa6; 0x23; 0x25; 0xaf; 0x02; 0x1a; 0x68; 0xf7; 0x07; 0x51; 0x1a].
Proof. vm_compute. reflexivity. Qed.

(** The bytes of the neutral element stand for a point; so verification returns a boolean. *)
Example C48_point_example : key_of (aval (arr_of 32 (map n2b (1 :: repeat 0 31)))) pzero.
Proof.
  split; [exact CurveProofs.pzero_on_curve|]. split; [vm_compute; reflexivity|].
  intros H. exfalso. now apply H.
Qed.
