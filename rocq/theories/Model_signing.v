(** [sia/src/signing.rs]: keys and signatures (the text forms are in Model_text.v). *)

From Verif Require Import Base Model_common Model_ed25519.
Local Open Scope N_scope.

(** signing.rs:10-11 [PublicKey([u8; 32])]. [Signature] (:113-114) is in Model_common.v. *)
Definition public_key : Type := hash256.

(** signing.rs:50-57 [PublicKey::verify]. *)
Definition pk_verify (pk : public_key) (sig_hash : hash256) (sig : signature) : outcome bool :=
  match vk_from_bytes pk return outcome bool with
  | None => Panic UnwrapNone
  | Some vk => Val (dalek_verify vk (aval sig_hash) sig)
  end.

(** signing.rs:67-68 [PrivateKey([u8; 64])]. *)
Definition private_key : Type := arr 64.

(** signing.rs:71-74 [PrivateKey::from_seed]. *)
Definition from_seed (seed : arr 32) : private_key := keypair_bytes seed.

(** signing.rs:76-80 [PrivateKey::public_key]. *)
Definition sk_public_key (k : private_key) : public_key := arr_of 32 (skipn 32 (aval k)).

(** signing.rs:82-85 [PrivateKey::sign_hash]. *)
Definition sign_hash (k : private_key) (h : hash256) : signature :=
  dalek_sign (arr_of 32 (firstn 32 (aval k))) (aval h).

(** signing.rs:87-89 [PrivateKey::as_bytes]. *)
Definition sk_as_bytes (k : private_key) : bytes := aval k.

(** signing.rs:92-96 [From<[u8; 64]> for PrivateKey]. *)
Definition sk_from_bytes (b : arr 64) : private_key := b.

(** signing.rs:98-102 [From<Hash256> for PrivateKey]. *)
Definition sk_from_hash (h : hash256) : private_key := from_seed h.
