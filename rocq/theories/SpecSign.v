(** Ed25519 signatures as RFC 8032 (section 5.1) defines them, over the points of SpecCurve.v.
    Only the decoding of public keys differs from the RFC: see [key_of]. *)

From Coq Require Import ZArith.
From Verif Require Import Base Sha2 Fp SpecCurve.
Local Open Scope N_scope.

(** the canonical representative of a field element *)
Definition rep_of (a : F) : N := Z.to_N (fz a).

(** 5.1.2: 32 bytes, little-endian, of [y]; the top bit is the lowest bit of [x] *)
Definition point_bytes (P : point) : bytes :=
  let (x, y) := P in le_bytes 32 (rep_of y + 2 ^ 255 * (rep_of x mod 2)).

(** The bytes [b] stand for the point [P]. As in 5.1.3, except that [y] may be given by any
    number below [2^255] in its class and that the top bit is ignored when [x = 0]. *)
Definition key_of (b : bytes) (P : point) : Prop :=
  let (x, y) := P in
  on_curve P /\
  rep_of y = (from_le b mod 2 ^ 255) mod (2 ^ 255 - 19) /\
  (x <> f0 -> rep_of x mod 2 = from_le b / 2 ^ 255).

(** 5.1.5: bits 3 to 253 of the first half of the hash, with bit 254 set *)
Definition secret_scalar (seed : bytes) : N :=
  let n := from_le (firstn 32 (sha512 seed)) in
  2 ^ 254 + 8 * (n / 8 mod 2 ^ 251).

Definition public_point (seed : bytes) : point := pmul (secret_scalar seed) base.

(** 5.1.6 and 5.1.7: the challenge *)
Definition challenge_of (r a msg : bytes) : N := from_le (sha512 (r ++ a ++ msg)) mod ed_L.

(** 5.1.6 *)
Definition rfc_sign (seed msg : bytes) : bytes :=
  let a := point_bytes (public_point seed) in
  let r := from_le (sha512 (skipn 32 (sha512 seed) ++ msg)) mod ed_L in
  let rb := point_bytes (pmul r base) in
  let k := challenge_of rb a msg in
  rb ++ le_bytes 32 ((r + k * secret_scalar seed) mod ed_L).

(** 5.1.7, with the bytes of [R] compared and without the cofactor: [S < L] and
    [R = [S]B - [k]A]. *)
Definition rfc_accepts (a : bytes) (A : point) (msg sig : bytes) : Prop :=
  let r := firstn 32 sig in
  let s := from_le (skipn 32 sig) in
  s < ed_L /\
  r = point_bytes (padd (pmul s base) (pneg (pmul (challenge_of r a msg) A))).
