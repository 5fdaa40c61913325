(** Machine-level vocabulary of the model: bytes, fixed-width integers, fixed-size
    arrays, [Vec], [String], build profiles and outcomes.

    Rust values are represented by types, not by predicates: a [u64] is a natural
    number together with a boolean proof that it is below [2^64], and so on. The
    proofs are equalities in [bool], hence irrelevant without any axiom. *)

From Coq Require Export Strings.Byte String.
From Coq Require Export NArith ZArith Lia Bool List.
From Coq Require Export ZifyBool ZifyNat ZifyN.
From Coq Require Eqdep_dec.
Export ListNotations.
Local Open Scope N_scope.

(** ** Bytes *)

(** Rust's [u8]. *)
Definition u8 : Type := byte.
Definition bytes : Type := list byte.

Definition b2n (b : byte) : N := Byte.to_N b.

(** The byte with the value [n mod 256] (Rust: [n as u8]). *)
Definition n2b (n : N) : byte :=
  match Byte.of_N (n mod 256) with Some b => b | None => x00 end.

(** ASCII text as bytes (Rust: [b"..."], or [str::as_bytes] of a literal). *)
Definition ascii (s : string) : bytes := list_byte_of_string s.

(** ** Build profiles.
    The workspace ([Cargo.toml]) sets no [overflow-checks], so [cargo build] checks
    integer overflow and [cargo build --release] wraps. *)
Inductive profile : Type := Debug | Release.

(** Why a Rust thread panics or aborts. *)
Inductive panic : Type :=
| CapacityOverflow      (* Vec::with_capacity(len) with len * size_of::<T>() > isize::MAX *)
| UnwrapNone            (* unwrap() / expect() on Err or None *)
| ArithOverflow         (* integer overflow with overflow checks on *)
| DivByZero             (* integer division or remainder by zero *)
| StackOverflow         (* recursion deeper than the thread's stack *)
| IndexOutOfBounds      (* slice index out of range *)
| AssertFailed          (* assert! or an explicit panic! *)
| Unreachable.          (* marks states the model proves impossible *)

(** Result of a computation that may panic. *)
Inductive outcome (A : Type) : Type :=
| Val (a : A)
| Panic (p : panic).
Arguments Val {A} a.
Arguments Panic {A} p.

Definition obind {A B} (m : outcome A) (f : A -> outcome B) : outcome B :=
  match m with Val a => f a | Panic p => Panic p end.

(** ** Fixed-width unsigned integers *)

Record uint (w : N) : Type := MkUint { uval : N; uval_ok : (uval <? 2 ^ w) = true }.
Arguments MkUint {w} uval uval_ok.
Arguments uval {w} u.
Arguments uval_ok {w} u.

Definition u16 := uint 16.
Definition u32 := uint 32.
Definition u64 := uint 64.
Definition u128 := uint 128.
Definition u256 := uint 256.
(** 64-bit targets. *)
Definition usize := uint 64.

Lemma uint_eq : forall w (a b : uint w), uval a = uval b -> a = b.
Proof.
  intros w [x hx] [y hy] H; cbn in H; subst y; f_equal.
  apply Eqdep_dec.UIP_dec, bool_dec.
Qed.

Lemma uint_lt : forall w (a : uint w), uval a < 2 ^ w.
Proof. intros w [x hx]; cbn; now apply N.ltb_lt. Qed.

Lemma uwrap_ok : forall w n, (n mod 2 ^ w <? 2 ^ w) = true.
Proof.
  intros; apply N.ltb_lt, N.mod_lt, N.pow_nonzero; discriminate.
Qed.

(** Conversion with truncation, Rust's [n as uW] from a wider unsigned type. *)
Definition uwrap (w n : N) : uint w := MkUint (n mod 2 ^ w) (uwrap_ok w n).

Lemma uwrap_id : forall w (a : uint w), uwrap w (uval a) = a.
Proof.
  intros; apply uint_eq; cbn; apply N.mod_small, uint_lt.
Qed.

Lemma uwrap_small : forall w n, n < 2 ^ w -> uval (uwrap w n) = n.
Proof. intros; cbn; now apply N.mod_small. Qed.

Definition uint_eqb {w} (a b : uint w) : bool := uval a =? uval b.

Lemma uint_eqb_eq : forall w (a b : uint w), uint_eqb a b = true <-> a = b.
Proof.
  intros; unfold uint_eqb; rewrite N.eqb_eq; split; [apply uint_eq | now intros ->].
Qed.

(** [+], [-], [*] on unsigned integers: checked in [Debug], wrapping in [Release]. *)
Definition u_add (p : profile) {w} (a b : uint w) : outcome (uint w) :=
  let r := uval a + uval b in
  match p with
  | Debug => if r <? 2 ^ w then Val (uwrap w r) else Panic ArithOverflow
  | Release => Val (uwrap w r)
  end.

Definition u_mul (p : profile) {w} (a b : uint w) : outcome (uint w) :=
  let r := uval a * uval b in
  match p with
  | Debug => if r <? 2 ^ w then Val (uwrap w r) else Panic ArithOverflow
  | Release => Val (uwrap w r)
  end.

Definition u_sub (p : profile) {w} (a b : uint w) : outcome (uint w) :=
  if uval b <=? uval a then Val (uwrap w (uval a - uval b))
  else match p with
       | Debug => Panic ArithOverflow
       | Release => Val (uwrap w (2 ^ w + uval a - uval b))
       end.

(** [/] and [%] panic on a zero divisor in both profiles. *)
Definition u_div {w} (a b : uint w) : outcome (uint w) :=
  if uval b =? 0 then Panic DivByZero else Val (uwrap w (uval a / uval b)).

Definition u_rem {w} (a b : uint w) : outcome (uint w) :=
  if uval b =? 0 then Panic DivByZero else Val (uwrap w (uval a mod uval b)).

(** ** Fixed-width signed integers, two's complement *)

Record sint (w : N) : Type :=
  MkSint { sval : Z;
           sval_ok : ((- 2 ^ (Z.of_N w - 1) <=? sval) && (sval <? 2 ^ (Z.of_N w - 1)))%Z = true }.
Arguments MkSint {w} sval sval_ok.
Arguments sval {w} s.
Arguments sval_ok {w} s.

Definition i16 := sint 16.
Definition i32 := sint 32.
Definition i64 := sint 64.
Definition i128 := sint 128.

Lemma sint_eq : forall w (a b : sint w), sval a = sval b -> a = b.
Proof.
  intros w [x hx] [y hy] H; cbn in H; subst y; f_equal.
  apply Eqdep_dec.UIP_dec, bool_dec.
Qed.

Lemma sint_range : forall w (a : sint w),
  (- 2 ^ (Z.of_N w - 1) <= sval a < 2 ^ (Z.of_N w - 1))%Z.
Proof. intros w [x hx]; cbn; lia. Qed.

(** The two's complement reading of the low [w] bits of [z]. *)
Definition swrap_Z (w : N) (z : Z) : Z :=
  let m := (z mod 2 ^ Z.of_N w)%Z in
  if (m <? 2 ^ (Z.of_N w - 1))%Z then m else (m - 2 ^ Z.of_N w)%Z.

Lemma swrap_ok : forall w z, w <> 0 ->
  ((- 2 ^ (Z.of_N w - 1) <=? swrap_Z w z) && (swrap_Z w z <? 2 ^ (Z.of_N w - 1)))%Z = true.
Proof.
  intros w z Hw; unfold swrap_Z.
  assert (Hp : (2 ^ Z.of_N w = 2 * 2 ^ (Z.of_N w - 1))%Z).
  { rewrite <- Z.pow_succ_r by lia; f_equal; lia. }
  assert (0 < 2 ^ (Z.of_N w - 1))%Z by (apply Z.pow_pos_nonneg; lia).
  pose proof (Z.mod_pos_bound z (2 ^ Z.of_N w) ltac:(lia)).
  destruct (Z.ltb_spec (z mod 2 ^ Z.of_N w) (2 ^ (Z.of_N w - 1))); lia.
Qed.

Lemma w16_nz : 16 <> 0. Proof. discriminate. Qed.
Lemma w32_nz : 32 <> 0. Proof. discriminate. Qed.
Lemma w64_nz : 64 <> 0. Proof. discriminate. Qed.
Lemma w128_nz : 128 <> 0. Proof. discriminate. Qed.

(** Conversion with truncation to a signed type (Rust: [z as iW]). *)
Definition swrap (w : N) (hw : w <> 0) (z : Z) : sint w :=
  MkSint (swrap_Z w z) (swrap_ok w z hw).

Lemma swrap_Z_id : forall w z,
  w <> 0 -> (- 2 ^ (Z.of_N w - 1) <= z < 2 ^ (Z.of_N w - 1))%Z -> swrap_Z w z = z.
Proof.
  intros w z Hw Hz; unfold swrap_Z.
  assert (Hp : (2 ^ Z.of_N w = 2 * 2 ^ (Z.of_N w - 1))%Z).
  { rewrite <- Z.pow_succ_r by lia; f_equal; lia. }
  destruct (Z.leb_spec 0 z).
  - rewrite Z.mod_small by lia. destruct (Z.ltb_spec z (2 ^ (Z.of_N w - 1))); lia.
  - replace (z mod 2 ^ Z.of_N w)%Z with (z + 2 ^ Z.of_N w)%Z.
    + destruct (Z.ltb_spec (z + 2 ^ Z.of_N w) (2 ^ (Z.of_N w - 1))); lia.
    + rewrite <- (Z.mod_small (z + 2 ^ Z.of_N w) (2 ^ Z.of_N w)) by lia.
      rewrite <- (Z.mul_1_l (2 ^ Z.of_N w)) at 1. now rewrite Z.mod_add by lia.
Qed.

(** [x as u64] for a signed [x]: sign extension, then reinterpretation. *)
Definition s_as_u64 {w} (x : sint w) : u64 := uwrap 64 (Z.to_N (sval x mod 2 ^ 64)).

(** ** Fixed-size byte arrays: Rust's [[u8; N]] *)

Record arr (n : nat) : Type := MkArr { aval : bytes; aval_ok : Nat.eqb (length aval) n = true }.
Arguments MkArr {n} aval aval_ok.
Arguments aval {n} a.
Arguments aval_ok {n} a.

Lemma arr_eq : forall n (a b : arr n), aval a = aval b -> a = b.
Proof.
  intros n [x hx] [y hy] H; cbn in H; subst y; f_equal.
  apply Eqdep_dec.UIP_dec, bool_dec.
Qed.

Lemma arr_len : forall n (a : arr n), length (aval a) = n.
Proof. intros n [x hx]; cbn; now apply Nat.eqb_eq. Qed.

Lemma arr_of_ok : forall n (l : bytes),
  Nat.eqb (length (firstn n (l ++ repeat x00 n))) n = true.
Proof.
  intros; apply Nat.eqb_eq; rewrite firstn_length, app_length, repeat_length; lia.
Qed.

(** An array from a list of bytes; used only on lists of exactly the right length
    (other lists are cut or zero-padded so that the function is total). *)
Definition arr_of (n : nat) (l : bytes) : arr n :=
  MkArr (firstn n (l ++ repeat x00 n)) (arr_of_ok n l).

Lemma arr_of_aval : forall n (l : bytes), length l = n -> aval (arr_of n l) = l.
Proof.
  intros n l H; cbn. rewrite firstn_app, H, Nat.sub_diag; cbn.
  rewrite app_nil_r. rewrite <- H. apply firstn_all.
Qed.

Lemma arr_of_id : forall n (a : arr n), arr_of n (aval a) = a.
Proof. intros; apply arr_eq, arr_of_aval, arr_len. Qed.

(** ** [Vec<T>] *)

Definition isize_max : N := 2 ^ 63 - 1.

(** A [Vec<T>] whose element type has size [sz] bytes: its allocation is at most
    [isize::MAX] bytes, as Rust guarantees for every vector. The sizes used in the model
    are those of a 64-bit target; they only determine from which length on
    [Vec::with_capacity] panics. *)
Record vec (sz : N) (A : Type) : Type :=
  MkVec { vlist : list A;
          vec_ok : (N.of_nat (length vlist) * sz <=? isize_max) &&
                   (N.of_nat (length vlist) <=? isize_max) = true }.
Arguments MkVec {sz A} vlist vec_ok.
Arguments vlist {sz A} v.
Arguments vec_ok {sz A} v.

Lemma vec_eq : forall sz A (a b : vec sz A), vlist a = vlist b -> a = b.
Proof.
  intros sz A [x hx] [y hy] H; cbn in H; subst y; f_equal.
  apply Eqdep_dec.UIP_dec, bool_dec.
Qed.

(** The vector with the given elements, if Rust can allocate it. *)
Definition vec_of {A} (sz : N) (l : list A) : option (vec sz A) :=
  match bool_dec ((N.of_nat (length l) * sz <=? isize_max) &&
                  (N.of_nat (length l) <=? isize_max)) true with
  | left h => Some (MkVec l h)
  | right _ => None
  end.

Lemma vec_of_vlist : forall sz A (v : vec sz A), vec_of sz (vlist v) = Some v.
Proof.
  intros sz A v; unfold vec_of.
  destruct (bool_dec _ true) as [h|h].
  - f_equal; now apply vec_eq.
  - destruct h, v; assumption.
Qed.

Lemma vec_of_some : forall sz A (l : list A) v, vec_of sz l = Some v -> vlist v = l.
Proof.
  intros sz A l v; unfold vec_of. destruct (bool_dec _ true); [|discriminate].
  now intros [= <-].
Qed.

Lemma vec_of_ok : forall sz A (l : list A),
  N.of_nat (length l) * sz <= isize_max -> N.of_nat (length l) <= isize_max ->
  exists v, vec_of sz l = Some v /\ vlist v = l.
Proof.
  intros sz A l H1 H2; unfold vec_of.
  destruct (bool_dec _ true) as [h|h].
  - now exists (MkVec l h).
  - destruct h. rewrite andb_true_iff, !N.leb_le; auto.
Qed.

(** [Vec::new()]. *)
Definition vec_nil {sz A} : vec sz A := MkVec nil eq_refl.

Lemma vec_bounds : forall sz A (v : vec sz A),
  N.of_nat (length (vlist v)) * sz <= isize_max /\ N.of_nat (length (vlist v)) <= isize_max.
Proof.
  intros sz A [l h]; cbn. rewrite andb_true_iff, !N.leb_le in h; exact h.
Qed.

(** ** UTF-8 and [String] *)

(** Well-formed UTF-8, the test done by [String::from_utf8] / [str::from_utf8]
    (Unicode standard, table 3-7). *)
Definition is_cont (b : byte) : bool := (0x80 <=? b2n b) && (b2n b <=? 0xBF).

Definition in_range (lo hi : N) (b : byte) : bool := (lo <=? b2n b) && (b2n b <=? hi).

Fixpoint utf8_valid (l : bytes) : bool :=
  match l with
  | [] => true
  | b0 :: r0 =>
    if b2n b0 <=? 0x7F then utf8_valid r0 else
    match r0 with
    | [] => false
    | b1 :: r1 =>
      if in_range 0xC2 0xDF b0 then is_cont b1 && utf8_valid r1 else
      match r1 with
      | [] => false
      | b2 :: r2 =>
        if in_range 0xE0 0xE0 b0 then in_range 0xA0 0xBF b1 && is_cont b2 && utf8_valid r2 else
        if in_range 0xE1 0xEC b0 then is_cont b1 && is_cont b2 && utf8_valid r2 else
        if in_range 0xED 0xED b0 then in_range 0x80 0x9F b1 && is_cont b2 && utf8_valid r2 else
        if in_range 0xEE 0xEF b0 then is_cont b1 && is_cont b2 && utf8_valid r2 else
        match r2 with
        | [] => false
        | b3 :: r3 =>
          if in_range 0xF0 0xF0 b0 then
            in_range 0x90 0xBF b1 && is_cont b2 && is_cont b3 && utf8_valid r3 else
          if in_range 0xF1 0xF3 b0 then
            is_cont b1 && is_cont b2 && is_cont b3 && utf8_valid r3 else
          if in_range 0xF4 0xF4 b0 then
            in_range 0x80 0x8F b1 && is_cont b2 && is_cont b3 && utf8_valid r3 else
          false
        end
      end
    end
  end.

(** Rust's [String]: a [Vec<u8>] holding well-formed UTF-8. *)
Record rstring : Type := MkStr { sbytes : vec 1 byte; sbytes_ok : utf8_valid (vlist sbytes) = true }.

Lemma rstring_eq : forall a b : rstring, vlist (sbytes a) = vlist (sbytes b) -> a = b.
Proof.
  intros [x hx] [y hy] H; cbn in H. apply vec_eq in H; subst y; f_equal.
  apply Eqdep_dec.UIP_dec, bool_dec.
Qed.

(** [String::from_utf8]. *)
Definition rstring_of (v : vec 1 byte) : option rstring :=
  match bool_dec (utf8_valid (vlist v)) true with
  | left h => Some (MkStr v h)
  | right _ => None
  end.

Lemma rstring_of_id : forall s, rstring_of (sbytes s) = Some s.
Proof.
  intros s; unfold rstring_of. destruct (bool_dec _ true) as [h|h].
  - f_equal; now apply rstring_eq.
  - destruct h, s; assumption.
Qed.

Lemma rstring_of_some : forall v s, rstring_of v = Some s -> sbytes s = v.
Proof.
  intros v s; unfold rstring_of. destruct (bool_dec _ true); [|discriminate].
  now intros [= <-].
Qed.

(** ** Endianness *)

(** [n] as [k] little-endian bytes (Rust: [to_le_bytes]). *)
Fixpoint le_bytes (k : nat) (n : N) : bytes :=
  match k with
  | O => []
  | S k' => n2b n :: le_bytes k' (n / 256)
  end.

(** Rust: [from_le_bytes]. *)
Fixpoint from_le (l : bytes) : N :=
  match l with
  | [] => 0
  | b :: r => b2n b + 256 * from_le r
  end.

(** Rust: [to_be_bytes] and [from_be_bytes]. *)
Definition be_bytes (k : nat) (n : N) : bytes := rev (le_bytes k n).
Definition from_be (l : bytes) : N := from_le (rev l).

Lemma b2n_lt : forall b, b2n b < 256.
Proof. intros b; unfold b2n. pose proof (Byte.to_N_bounded b). lia. Qed.

Lemma b2n_n2b : forall n, b2n (n2b n) = n mod 256.
Proof.
  intros n; unfold b2n, n2b.
  destruct (Byte.of_N (n mod 256)) eqn:E.
  - now apply Byte.to_of_N.
  - apply Byte.of_N_None_iff in E. pose proof (N.mod_lt n 256 ltac:(discriminate)). lia.
Qed.

Lemma n2b_b2n : forall b, n2b (b2n b) = b.
Proof.
  intros b; unfold n2b. rewrite N.mod_small by apply b2n_lt.
  unfold b2n. now rewrite Byte.of_to_N.
Qed.

Lemma b2n_inj : forall a b, b2n a = b2n b -> a = b.
Proof. intros a b H. now rewrite <- (n2b_b2n a), H, n2b_b2n. Qed.

Lemma le_bytes_length : forall k n, length (le_bytes k n) = k.
Proof. induction k; intros; cbn; auto. Qed.

Lemma from_le_lt : forall l, from_le l < 256 ^ N.of_nat (length l).
Proof.
  induction l as [|b l IH]; cbn [from_le length].
  - reflexivity.
  - rewrite Nat2N.inj_succ, N.pow_succ_r by apply N.le_0_l.
    pose proof (b2n_lt b). lia.
Qed.

Lemma from_le_le_bytes : forall k n, from_le (le_bytes k n) = n mod 256 ^ N.of_nat k.
Proof.
  induction k as [|k IH]; intros n.
  - cbn [le_bytes from_le]. change (256 ^ N.of_nat 0) with 1. symmetry; apply N.mod_1_r.
  - cbn [le_bytes from_le]. rewrite IH, b2n_n2b.
    rewrite Nat2N.inj_succ, N.pow_succ_r by apply N.le_0_l.
    rewrite N.mod_mul_r; [reflexivity|discriminate|].
    apply N.pow_nonzero; discriminate.
Qed.

Lemma le_bytes_from_le : forall l, le_bytes (length l) (from_le l) = l.
Proof.
  induction l as [|b l IH]; cbn [length from_le le_bytes]; auto.
  f_equal.
  - apply b2n_inj. rewrite b2n_n2b.
    rewrite N.mul_comm, N.mod_add by discriminate. apply N.mod_small, b2n_lt.
  - rewrite N.mul_comm, N.div_add by discriminate.
    rewrite N.div_small by apply b2n_lt. rewrite N.add_0_l. exact IH.
Qed.

Lemma be_bytes_length : forall k n, length (be_bytes k n) = k.
Proof. intros; unfold be_bytes; now rewrite rev_length, le_bytes_length. Qed.

Lemma from_be_be_bytes : forall k n, from_be (be_bytes k n) = n mod 256 ^ N.of_nat k.
Proof. intros; unfold from_be, be_bytes; now rewrite rev_involutive, from_le_le_bytes. Qed.

Lemma be_bytes_from_be : forall l, be_bytes (length l) (from_be l) = l.
Proof.
  intros; unfold from_be, be_bytes.
  rewrite <- (rev_length l), le_bytes_from_le. apply rev_involutive.
Qed.

Lemma from_le_app : forall a b,
  from_le (a ++ b) = from_le a + 256 ^ N.of_nat (length a) * from_le b.
Proof.
  induction a as [|x a IH]; intros b; cbn [app from_le length].
  - change (256 ^ N.of_nat 0) with 1. lia.
  - rewrite IH, Nat2N.inj_succ, N.pow_succ_r by apply N.le_0_l. lia.
Qed.

Lemma from_le_zeros : forall k, from_le (repeat x00 k) = 0.
Proof. induction k; cbn [repeat from_le]; [reflexivity|]. rewrite IHk. reflexivity. Qed.
