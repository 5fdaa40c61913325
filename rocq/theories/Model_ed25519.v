(** Ed25519 as the crates [ed25519-dalek] 2.1.1 and [curve25519-dalek] 4.1.3 compute it. The crates
    are dependencies (sia/Cargo.toml:20), not part of the repository. They are modelled function by
    function at the level of points and scalars. Simplifications: field elements are integers modulo
    [2^255 - 19] instead of limbs; the constant-time multiplication tables and the non-adjacent forms
    are replaced by double-and-add, which gives the same point. *)

From Coq Require Import ZArith.
From Verif Require Import Base Sha2 Fp SpecCurve.
Local Open Scope N_scope.

(** ** Field elements and scalars *)

(** [FieldElement::as_bytes]: the canonical little-endian form. *)
Definition f_to_N (a : F) : N := Z.to_N (fz a).

(** [FieldElement::is_negative]: the lowest bit of the canonical form. *)
Definition f_is_negative (a : F) : bool := Z.odd (fz a).

(** [constants::SQRT_M1]. *)
Definition sqrt_m1 : F :=
  fmk 19681161376707505956807079304988542015446066515923890162744021073123829784752.

(** [(p - 5) / 8], the exponent of [FieldElement::pow_p58]. *)
Definition p58 : positive := Z.to_pos ((fp - 5) / 8).

(** [FieldElement::sqrt_ratio_i]: a non-negative root of [u / v] and whether it is one. *)
Definition sqrt_ratio_i (u v : F) : bool * F :=
  let v3 := fmul (fmul v v) v in
  let v7 := fmul (fmul v3 v3) v in
  let r := fmul (fmul u v3) (fpow (fmul u v7) p58) in
  let check := fmul v (fmul r r) in
  let correct_sign := feqb check u in
  let flipped_sign := feqb check (fopp u) in
  let flipped_sign_i := feqb check (fmul (fopp u) sqrt_m1) in
  let r := if (flipped_sign || flipped_sign_i)%bool then fmul sqrt_m1 r else r in
  let r := if f_is_negative r then fopp r else r in
  ((correct_sign || flipped_sign)%bool, r).

(** [Scalar::from_bytes_mod_order] and [Scalar::from_bytes_mod_order_wide]. *)
Definition scalar_mod_order (b : bytes) : N := from_le b mod ed_L.

(** [Scalar::from_canonical_bytes]. *)
Definition scalar_canonical (b : bytes) : option N :=
  if from_le b <? ed_L then Some (from_le b) else None.

(** [clamp_integer]. *)
Definition clamp_integer (b : arr 32) : bytes :=
  let l := aval b in
  n2b (N.land (b2n (nth 0 l x00)) 248) :: firstn 30 (skipn 1 l) ++
  [n2b (N.lor (N.land (b2n (nth 31 l x00)) 127) 64)].

(** ** Points *)

(** [EdwardsPoint]: extended coordinates. *)
Record ext : Type := MkExt { eX : F; eY : F; eZ : F; eT : F }.

(** [EdwardsPoint::identity]. *)
Definition ext_zero : ext := MkExt f0 f1 f1 f0.

(** [&EdwardsPoint + &EdwardsPoint]: through [ProjectiveNielsPoint] and [CompletedPoint]. *)
Definition ext_plus (p q : ext) : ext :=
  let mm := fmul (fsub (eY p) (eX p)) (fsub (eY q) (eX q)) in
  let pp := fmul (fadd (eY p) (eX p)) (fadd (eY q) (eX q)) in
  let tt2d := fmul (fmul (eT p) (fadd ed_d ed_d)) (eT q) in
  let zz2 := fmul (eZ p) (fadd (eZ q) (eZ q)) in
  let x := fsub pp mm in
  let y := fadd pp mm in
  let z := fadd zz2 tt2d in
  let t := fsub zz2 tt2d in
  MkExt (fmul x t) (fmul z y) (fmul t z) (fmul x y).

(** [-EdwardsPoint]. *)
Definition ext_neg (p : ext) : ext := MkExt (fopp (eX p)) (eY p) (eZ p) (fopp (eT p)).

(** Multiplication by a scalar ([EdwardsPoint * Scalar], [mul_base]); double-and-add here. *)
Fixpoint ext_pmul (k : positive) (p : ext) : ext :=
  match k with
  | xH => p
  | xO k' => let q := ext_pmul k' p in ext_plus q q
  | xI k' => let q := ext_pmul k' p in ext_plus p (ext_plus q q)
  end.
Definition ext_mul (n : N) (p : ext) : ext :=
  match n with N0 => ext_zero | Npos k => ext_pmul k p end.

(** [constants::ED25519_BASEPOINT_POINT]. *)
Definition ext_base : ext := MkExt base_x base_y f1 (fmul base_x base_y).

(** [EdwardsPoint::compress]. *)
Definition ext_compress (p : ext) : arr 32 :=
  let recip := finv (eZ p) in
  let x := fmul (eX p) recip in
  let y := fmul (eY p) recip in
  arr_of 32 (le_bytes 32 (f_to_N y + if f_is_negative x then 2 ^ 255 else 0)).

(** [CompressedEdwardsY::decompress], steps 1 and 2: the root, then its sign. *)
Definition decompress_xy (sign : bool) (y : F) : option ext :=
  let yy := fmul y y in
  let '(ok, r) := sqrt_ratio_i (fsub yy f1) (fadd (fmul ed_d yy) f1) in
  if ok then
    let x := if sign then fopp r else r in Some (MkExt x y f1 (fmul x y))
  else None.

(** [CompressedEdwardsY::decompress]: the top bit is the sign of [x]; the other bits are [y],
    which need not be below [2^255 - 19]. *)
Definition ext_decompress (b : arr 32) : option ext :=
  let n := from_le (aval b) in
  decompress_xy (N.testbit n 255) (fmk (Z.of_N (n mod 2 ^ 255))).

(** ** Keys and signatures *)

(** [VerifyingKey]: the compressed bytes and the point. *)
Record verifying_key : Type := MkVk { vk_bytes : arr 32; vk_point : ext }.

(** [VerifyingKey::from_bytes]. *)
Definition vk_from_bytes (b : arr 32) : option verifying_key :=
  match ext_decompress b return option verifying_key with Some p => Some (MkVk b p) | None => None end.

(** [ExpandedSecretKey::from_bytes(Sha512(seed))]: scalar and prefix. *)
Definition expanded_scalar_bytes (seed : arr 32) : bytes :=
  clamp_integer (arr_of 32 (firstn 32 (sha512 (aval seed)))).
Definition expanded_scalar (seed : arr 32) : N := scalar_mod_order (expanded_scalar_bytes seed).
Definition expanded_prefix (seed : arr 32) : bytes := skipn 32 (sha512 (aval seed)).

(** [VerifyingKey::from(&ExpandedSecretKey)]: [clamp_and_mul_base], which does not reduce. *)
Definition vk_of_seed (seed : arr 32) : verifying_key :=
  let p := ext_mul (from_le (expanded_scalar_bytes seed)) ext_base in
  MkVk (ext_compress p) p.

(** [SigningKey::to_keypair_bytes]. *)
Definition keypair_bytes (seed : arr 32) : arr 64 :=
  arr_of 64 (aval seed ++ aval (vk_bytes (vk_of_seed seed))).

(** [compute_challenge]. *)
Definition challenge (r_bytes : bytes) (vk : verifying_key) (msg : bytes) : N :=
  scalar_mod_order (sha512 (r_bytes ++ aval (vk_bytes vk) ++ msg)).

(** [SigningKey::sign], that is [ExpandedSecretKey::raw_sign]. *)
Definition dalek_sign (seed : arr 32) (msg : bytes) : arr 64 :=
  let vk := vk_of_seed seed in
  let r := scalar_mod_order (sha512 (expanded_prefix seed ++ msg)) in
  let r_bytes := aval (ext_compress (ext_mul r ext_base)) in
  let k := challenge r_bytes vk msg in
  let s := (k * expanded_scalar seed + r) mod ed_L in
  arr_of 64 (r_bytes ++ le_bytes 32 s).

(** [VerifyingKey::verify], that is [raw_verify]: the scalar must be canonical, the cofactor is
    not cleared, and [R] is compared as bytes. *)
Definition dalek_verify (vk : verifying_key) (msg : bytes) (sig : arr 64) : bool :=
  let r_bytes := firstn 32 (aval sig) in
  match scalar_canonical (skipn 32 (aval sig)) with
  | None => false
  | Some s =>
    let k := challenge r_bytes vk msg in
    let minus_a := ext_neg (vk_point vk) in
    let expected := ext_plus (ext_mul k minus_a) (ext_mul s ext_base) in
    if list_eq_dec Byte.byte_eq_dec (aval (ext_compress expected)) r_bytes then true else false
  end.
