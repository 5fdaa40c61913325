(** Model of the conversions, defaults and constructors that only wrap a value. *)

From Verif Require Import Base Io Model_encoding Model_common Model_v1 Model_policy.
Local Open Scope N_scope.

(** work.rs:11-15 [Work::from(&[u8; 32])]; the [uint] crate's [from_big_endian]. *)
Definition work_of_bytes (bytes : arr 32) : work := uwrap 256 (from_be (aval bytes)).

(** currency.rs:15: the derived [Ord], on the one field. *)
Definition currency_cmp (c d : currency) : comparison := N.compare (uval c) (uval d).

(** currency.rs:15: the derived [Default]. *)
Definition currency_default : currency := uwrap 128 0.

(** macros.rs:98-102 [default] of the hash types, signing.rs:157-161 of [Signature]. *)
Definition hash_default : hash256 := arr_of 32 (repeat x00 32).
Definition signature_default : arr 64 := arr_of 64 (repeat x00 64).

(** spendpolicy.rs:105-122, 138-141. *)
Definition policy_above (height : u64) : policy := PAbove height.
Definition policy_after (timestamp : odt) : policy := PAfter timestamp.
Definition policy_public_key (pk : arr 32) : policy := PPublicKey pk.
Definition policy_hash (h : hash256) : policy := PHash h.
Definition policy_unlock_conditions (uc : unlock_conditions) : policy := PUnlockConditions uc.

(** v1.rs:256-263; the other fields have the default, an empty list. *)
Definition covered_whole_transaction : covered_fields :=
  let none := @MkVec 8 usize [] eq_refl in
  MkCf true none none none none none none none none none none.
