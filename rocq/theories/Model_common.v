(** Model of the binary codecs of sia/src/types/currency.rs, specifier.rs, work.rs,
    common.rs and signing.rs.

    Convention: for [#[derive(SiaEncode, SiaDecode)]] (sia_derive/src/lib.rs:6-100) and
    [#[derive(V1SiaEncode, V1SiaDecode)]] (sia_derive/src/lib.rs:102-190) the generated
    code encodes the fields one after the other in declaration order and decodes them in
    the same order. When every field has the same v1 and v2 encoding, one definition
    models both traits. Every named field of these structs is [pub], so the visibility
    filter of sia_derive/src/lib.rs:16-21 and 63-69 drops nothing. *)

From Verif Require Import Base Io Model_encoding.
Local Open Scope N_scope.
Local Open Scope dec_scope.

(** ** Currency — currency.rs:16 *)
Definition currency : Type := u128.

(** currency.rs:80-84: index of the first non-zero byte, 16 if there is none. *)
Fixpoint first_nonzero (l : bytes) : nat :=
  match l with
  | [] => O
  | b :: r => if Byte.eqb b x00 then S (first_nonzero r) else O
  end.

(** currency.rs:77-87 *)
Definition encode_v1_currency (c : currency) : wprog :=
  let currency_buf := be_bytes 16 (uval c) in
  encode_slice encode_u8 (skipn (first_nonzero currency_buf) currency_buf).

(** currency.rs:89-99 *)
Definition decode_v1_currency : dec currency :=
  len <- decode_usize ;;
  if 16 <? uval len then DErr EInvalidLength
  else
    let k := N.to_nat (uval len) in
    DRead k EIo (fun bs => DRet (uwrap 128 (from_be (repeat x00 (16 - k) ++ bs)))).

(** currency.rs:101-106 *)
Definition encode_currency (c : currency) : wprog := write_all (le_bytes 16 (uval c)).

(** currency.rs:108-114 *)
Definition decode_currency : dec currency :=
  DRead 16 EIo (fun bs => DRet (uwrap 128 (from_le bs))).

(** currency.rs:131-136 *)
Definition currency_try_into_u64 (c : currency) : option u64 :=
  if uval c <? 2 ^ 64 then Some (uwrap 64 (uval c)) else None.

(** ** Specifier — specifier.rs:10-22 (derived codecs of the byte array) *)
Definition specifier : Type := arr 16.
Definition encode_specifier (s : specifier) : wprog := encode_arr s.
Definition decode_specifier : dec specifier := decode_arr 16.

(** specifier.rs:59-72, [specifier!]: the text padded with zeros. The compile-time
    assertion [len <= 16] is met by every use. *)
Definition specifier_of_text (s : string) : specifier :=
  arr_of 16 (ascii s ++ repeat x00 (16 - length (ascii s))).

(** ** 32-byte identifiers — macros.rs:3-15 ([impl_hash_id!]), common.rs:17-21, 39, 59, 96,
    213-215, signing.rs:10-11. The Rust newtypes (Hash256, SiacoinOutputID,
    SiafundOutputID, AttestationID, BlockID, TransactionID, FileContractID, Address,
    PublicKey) all wrap [[u8; 32]] with the derived codecs; the model uses one type. *)
Definition hash256 : Type := arr 32.
Definition encode_hash (h : hash256) : wprog := encode_arr h.
Definition decode_hash : dec hash256 := decode_arr 32.

(** signing.rs:107-108 *)
Definition signature : Type := arr 64.
Definition encode_signature (s : signature) : wprog := encode_arr s.
Definition decode_signature : dec signature := decode_arr 64.

(** common.rs:342-343 *)
Definition leaf : Type := arr 64.
Definition encode_leaf (s : leaf) : wprog := encode_arr s.
Definition decode_leaf : dec leaf := decode_arr 64.

(** ** Work — work.rs:6-9 *)
Definition work : Type := u256.

(** work.rs:17-21, 31-35 *)
Definition encode_work (w : work) : wprog := encode_arr (arr_of 32 (be_bytes 32 (uval w))).

(** work.rs:23-29 *)
Definition decode_work : dec work :=
  a <- dmap_err (ECustom "invalid work") (decode_arr 32) ;;
  DRet (uwrap 256 (from_be (aval a))).

(** work.rs:37-41 *)
Definition decode_v1_work : dec work :=
  a <- decode_arr 32 ;;
  DRet (uwrap 256 (from_be (aval a))).

(** ** ChainIndex — common.rs:149-153 *)
Record chain_index : Type := MkChainIndex { ci_height : u64; ci_id : hash256 }.

Definition encode_chain_index (c : chain_index) : wprog :=
  encode_u64 (ci_height c) ++ encode_hash (ci_id c).
Definition decode_chain_index : dec chain_index :=
  height <- decode_u64 ;; id <- decode_hash ;; DRet (MkChainIndex height id).

(** common.rs:155-159 *)
Definition ci_child_height (p : profile) (c : chain_index) : outcome u64 :=
  u_add p (ci_height c) (uwrap 64 1).

(** ** SiacoinOutput — common.rs:302-309 *)
Record siacoin_output : Type := MkSco { sco_value : currency; sco_address : hash256 }.

Definition encode_siacoin_output (o : siacoin_output) : wprog :=
  encode_currency (sco_value o) ++ encode_hash (sco_address o).
Definition decode_siacoin_output : dec siacoin_output :=
  value <- decode_currency ;; address <- decode_hash ;; DRet (MkSco value address).

Definition encode_v1_siacoin_output (o : siacoin_output) : wprog :=
  encode_v1_currency (sco_value o) ++ encode_hash (sco_address o).
Definition decode_v1_siacoin_output : dec siacoin_output :=
  value <- decode_v1_currency ;; address <- decode_hash ;; DRet (MkSco value address).

(** ** SiafundOutput — common.rs:311-339 *)
Record siafund_output : Type := MkSfo { sfo_value : u64; sfo_address : hash256 }.

Definition encode_siafund_output (o : siafund_output) : wprog :=
  encode_u64 (sfo_value o) ++ encode_hash (sfo_address o).
Definition decode_siafund_output : dec siafund_output :=
  value <- decode_u64 ;; address <- decode_hash ;; DRet (MkSfo value address).

(** common.rs:320-326 *)
Definition encode_v1_siafund_output (o : siafund_output) : wprog :=
  encode_v1_currency (uwrap 128 (uval (sfo_value o))) ++
  encode_hash (sfo_address o) ++
  encode_v1_currency (uwrap 128 0).

(** common.rs:328-339 *)
Definition decode_v1_siafund_output : dec siafund_output :=
  c <- decode_v1_currency ;;
  value <- dret_opt (ECustom "invalid value") (currency_try_into_u64 c) ;;
  address <- decode_hash ;;
  _ <- decode_v1_currency ;;
  DRet (MkSfo value address).

(** ** StateElement — common.rs:390-395 *)
Record state_element : Type := MkSe { se_leaf_index : u64; se_merkle_proof : vec 32 hash256 }.

Definition encode_state_element (e : state_element) : wprog :=
  encode_u64 (se_leaf_index e) ++ encode_vec encode_hash (se_merkle_proof e).
Definition decode_state_element : dec state_element :=
  leaf_index <- decode_u64 ;; merkle_proof <- decode_vec 32 decode_hash ;;
  DRet (MkSe leaf_index merkle_proof).
