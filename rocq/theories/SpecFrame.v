(** Specification: what every decoder does with every input.

    A frame says of which byte strings a decoder takes in all ([whole]), after which it stops the
    thread or refuses ([ends]), and with which it runs out of input ([short]). Every input falls
    under one of the three: it begins with a [whole] or an [ends] string, or it is [short]. *)

From Verif Require Import Base Io Spec SpecWire SpecLayout SpecCodecs SpecUtf8 Model_encoding Model_common Model_v1
  Model_policy Model_v2 Model_consensus.
Local Open Scope N_scope.

Inductive verdict : Type := Stopped (p : panic) | Refused (e : error).

Record frame : Type := MkFrame {
  whole : bytes -> Prop;
  ends : verdict -> bytes -> Prop;
  short : error -> bytes -> Prop }.

(** ** Building blocks *)

(** No bytes. *)
Definition nothing : frame := MkFrame (fun w => w = []) (fun _ _ => False) (fun _ _ => False).

(** The end, here. *)
Definition end_with (v : verdict) : frame :=
  MkFrame (fun _ => False) (fun v' w => v' = v /\ w = []) (fun _ _ => False).

(** No bytes if [P] holds, and the end otherwise. *)
Definition require (P : Prop) (v : verdict) : frame :=
  MkFrame (fun w => P /\ w = []) (fun v' w => ~ P /\ v' = v /\ w = []) (fun _ _ => False).

(** Any [n] bytes; [e] reports that there are fewer. *)
Definition raw_or (e : error) (n : nat) : frame :=
  MkFrame (fun w => length w = n) (fun _ _ => False) (fun e' w => e' = e /\ (length w < n)%nat).
Definition raw (n : nat) : frame := raw_or EIo n.

(** One after the other. *)
Definition follow (f g : frame) : frame := MkFrame
  (fun w => exists u v, w = u ++ v /\ whole f u /\ whole g v)
  (fun x w => ends f x w \/ exists u v, w = u ++ v /\ whole f u /\ ends g x v)
  (fun e w => short f e w \/ exists u v, w = u ++ v /\ whole f u /\ short g e v).
Definition parts (l : list frame) : frame := fold_right follow nothing l.
Definition times (n : nat) (f : frame) : frame := parts (repeat f n).

(** [n] bytes that decide what follows. *)
Definition leading (n : nat) (next : bytes -> frame) : frame := MkFrame
  (fun w => exists u v, w = u ++ v /\ length u = n /\ whole (next u) v)
  (fun x w => exists u v, w = u ++ v /\ length u = n /\ ends (next u) x v)
  (fun e w => (e = EIo /\ (length w < n)%nat) \/
              exists u v, w = u ++ v /\ length u = n /\ short (next u) e v).

(** ** Values *)

(** A byte that is 0 or 1. *)
Definition flag : frame :=
  leading 1 (fun b => match b with [x00] | [x01] => nothing | _ => end_with (Refused EInvalidValue) end).
Definition optional (f : frame) : frame :=
  leading 1 (fun b => match b with [x00] => nothing | [x01] => f | _ => end_with (Refused EInvalidValue) end).

(** A count, and that many elements of [sz] bytes of memory each. *)
Definition counted (sz : N) (f : frame) : frame :=
  leading 8 (fun c => if isize_max <? le_value c * sz then end_with (Stopped CapacityOverflow)
                      else times (N.to_nat (le_value c)) f).
(** A count, and that many bytes. *)
Definition counted_bytes : frame :=
  leading 8 (fun c => if isize_max <? le_value c then end_with (Stopped CapacityOverflow)
                      else raw (N.to_nat (le_value c))).
(** A count, and that many bytes of UTF-8. *)
Definition counted_text : frame :=
  leading 8 (fun c => if isize_max <? le_value c then end_with (Stopped CapacityOverflow)
                      else leading (N.to_nat (le_value c)) (fun s =>
                        require (Utf8 s) (Refused EInvalidLength))).

(** Two's complement. *)
Definition signed_value (b : bytes) : Z :=
  if le_value b <? 2 ^ 63 then Z.of_N (le_value b) else (Z.of_N (le_value b) - 2 ^ 64)%Z.
(** Seconds from year -9999 to 9999. *)
Definition stamp_or (v : verdict) : frame :=
  leading 8 (fun b => require (-377705116800 <= signed_value b <= 253402300799)%Z v).
Definition stamp : frame := stamp_or (Stopped UnwrapNone).

(** Nanoseconds, not negative. *)
Definition span : frame :=
  leading 8 (fun b => require (le_value b < 2 ^ 63) (Refused EInvalidValue)).

(** An old amount: a count of at most 16, and that many bytes; and one that must fit 64 bits. *)
Definition old_sum (next : bytes -> frame) : frame :=
  leading 8 (fun c => if 16 <? le_value c then end_with (Refused EInvalidLength)
                      else leading (N.to_nat (le_value c)) next).
Definition old_value : frame := old_sum (fun _ => nothing).
Definition old_small_value : frame :=
  old_sum (fun b => require (be_value b < 2 ^ 64) (Refused (ECustom "invalid value"))).

Definition work_frame : frame := raw_or (ECustom "invalid work") 32.

(** ** Shared types *)
Definition fr_output : frame := parts [raw 16; raw 32].
Definition fr_fund_output : frame := parts [raw 8; raw 32].
Definition fr_old_output : frame := parts [old_value; raw 32].
Definition fr_old_fund_output : frame := parts [old_small_value; raw 32; old_value].
Definition fr_index : frame := parts [raw 8; raw 32].
Definition fr_state_element : frame := parts [raw 8; counted 32 (raw 32)].
Definition fr_unlock_key : frame := parts [raw 16; counted_bytes].
Definition fr_unlock_conditions : frame := parts [raw 8; counted 40 fr_unlock_key; raw 8].

(** ** v1 types *)
Definition fr_v1_input : frame := parts [raw 32; fr_unlock_conditions].
Definition fr_v1_fund_input : frame := parts [raw 32; fr_unlock_conditions; raw 32].
Definition fr_v1_contract : frame :=
  parts [raw 8; raw 32; raw 8; raw 8; old_value; counted 48 fr_old_output; counted 48 fr_old_output; raw 32; raw 8].
Definition fr_v1_revision : frame :=
  parts [raw 32; fr_unlock_conditions; raw 8; raw 8; raw 32; raw 8; raw 8;
         counted 48 fr_old_output; counted 48 fr_old_output; raw 32].
Definition fr_v1_proof : frame := parts [raw 32; raw 64; counted 32 (raw 32)].
Definition fr_covered : frame := parts (flag :: repeat (counted 8 (raw 8)) 10).
Definition fr_v1_signature : frame := parts [raw 32; raw 8; raw 8; fr_covered; counted_bytes].
Definition fr_v1_transaction : frame :=
  parts [counted 72 fr_v1_input; counted 48 fr_old_output; counted 160 fr_v1_contract; counted 216 fr_v1_revision;
         counted 120 fr_v1_proof; counted 104 fr_v1_fund_input; counted 40 fr_old_fund_output; counted 16 old_value;
         counted 24 counted_bytes; counted 320 fr_v1_signature].
Definition fr_block : frame :=
  parts [raw 32; raw 8; stamp; counted 48 fr_old_output; counted 240 fr_v1_transaction].

(** ** Spend policies. Each level of nesting takes a call. *)
Fixpoint fr_policy_op (stack : nat) : frame :=
  match stack with
  | O => end_with (Stopped StackOverflow)
  | S deeper => leading 1 (fun tag => match tag with
    | [x01] => raw 8
    | [x02] => stamp_or (Refused (ECustom "invalid timestamp"))
    | [x03] => raw 32
    | [x04] => raw 32
    | [x05] => follow (raw 1) (leading 1 (fun n => times (N.to_nat (le_value n)) (fr_policy_op deeper)))
    | [x06] => raw 32
    | [x07] => fr_unlock_conditions
    | _ => end_with (Refused (ECustom "invalid policy type"))
    end)
  end.
Definition fr_policy (stack : nat) : frame :=
  leading 1 (fun v => match v with
    | [x01] => fr_policy_op stack
    | _ => end_with (Refused (ECustom "invalid policy version"))
    end).
Definition fr_satisfied (stack : nat) : frame :=
  parts [fr_policy stack; counted 64 (raw 64); counted 32 (raw 32)].

(** ** v2 types *)
Definition fr_attestation : frame := parts [raw 32; counted_text; counted_bytes; raw 64].
Definition fr_contract : frame :=
  parts [raw 8; raw 8; raw 32; raw 8; raw 8; fr_output; fr_output; raw 16; raw 16; raw 32; raw 32; raw 8; raw 64; raw 64].
Definition fr_siacoin_element : frame := parts [fr_state_element; raw 32; fr_output; raw 8].
Definition fr_siafund_element : frame := parts [fr_state_element; raw 32; fr_fund_output; raw 16].
Definition fr_contract_element : frame := parts [fr_state_element; raw 32; fr_contract].
Definition fr_index_element : frame := parts [fr_state_element; raw 32; fr_index].
Definition fr_input (stack : nat) : frame := parts [fr_siacoin_element; fr_satisfied stack].
Definition fr_fund_input (stack : nat) : frame := parts [fr_siafund_element; raw 32; fr_satisfied stack].
Definition fr_revision : frame := parts [fr_contract_element; fr_contract].
Definition fr_renewal : frame := parts [fr_contract; fr_contract; raw 16; raw 16; raw 64; raw 64].
Definition fr_storage_proof : frame := parts [fr_index_element; raw 64; counted 32 (raw 32)].
Definition fr_resolution : frame :=
  parts [fr_contract_element;
         leading 1 (fun tag => match tag with
           | [x00] => fr_renewal
           | [x01] => fr_storage_proof
           | [x02] => nothing
           | _ => end_with (Refused (ECustom "invalid contract resolution type"))
           end)].
Definition if_set (map : bytes) (i : N) (f : frame) : frame :=
  if N.testbit (le_value map) i then f else nothing.
Definition fr_transaction (stack : nat) : frame :=
  leading 1 (fun v => match v with
    | [x02] => leading 8 (fun m => parts
        [if_set m 0 (counted 224 (fr_input stack)); if_set m 1 (counted 48 fr_output);
         if_set m 2 (counted 256 (fr_fund_input stack)); if_set m 3 (counted 40 fr_fund_output);
         if_set m 4 (counted 400 fr_contract); if_set m 5 (counted 864 fr_revision);
         if_set m 6 (counted 1440 fr_resolution); if_set m 7 (counted 144 fr_attestation);
         if_set m 8 counted_bytes; if_set m 9 (raw 32); if_set m 10 (raw 16)])
    | _ => end_with (Refused (ECustom "unsupported transaction version"))
    end).

(** ** Chain states *)
Definition fr_accumulator : frame :=
  leading 8 (fun m => parts (map (fun i => if_set m (N.of_nat i) (raw 32)) (seq 0 64))).
(** The height decides how many timestamps there are; the next height must fit. *)
Definition fr_state (p : profile) : frame :=
  leading 8 (fun h => follow (raw 32)
    (match p, le_value h =? 2 ^ 64 - 1 with
     | Debug, true => end_with (Stopped ArithOverflow)
     | _, _ => parts (repeat stamp (N.to_nat (N.min 11 ((le_value h + 1) mod 2 ^ 64))) ++
         [raw 32; raw 32; raw 16; span; raw 32; raw 32; raw 32; work_frame; work_frame; work_frame;
          fr_accumulator; raw 8])
     end)).

(** ** The frame of every decoder *)
Inductive Framed (stack : nat) : forall A : Type, dec A -> frame -> Prop :=
| R_u8 : Framed stack u8 decode_u8 (raw 1)
| R_bool : Framed stack bool decode_bool flag
| R_u16 : Framed stack u16 decode_u16 (raw 8)
| R_u32 : Framed stack u32 decode_u32 (raw 8)
| R_u64 : Framed stack u64 decode_u64 (raw 8)
| R_usize : Framed stack usize decode_usize (raw 8)
| R_i16 : Framed stack i16 decode_i16 (raw 8)
| R_i32 : Framed stack i32 decode_i32 (raw 8)
| R_i64 : Framed stack i64 decode_i64 (raw 8)
| R_string : Framed stack rstring decode_string counted_text
| R_currency : Framed stack currency decode_currency (raw 16)
| R_v1_currency : Framed stack currency decode_v1_currency old_value
| R_specifier : Framed stack specifier decode_specifier (raw 16)
| R_hash : Framed stack hash256 decode_hash (raw 32)
| R_signature : Framed stack signature decode_signature (raw 64)
| R_leaf : Framed stack leaf decode_leaf (raw 64)
| R_work : Framed stack work decode_work work_frame
| R_v1_work : Framed stack work decode_v1_work (raw 32)
| R_array : forall n, Framed stack (arr n) (decode_arr n) (raw n)
| R_bytes : Framed stack (vec 1 u8) (decode_vec 1 decode_u8) counted_bytes
| R_vec : forall sz A d f, 1 <= sz -> Framed stack A d f -> Framed stack (vec sz A) (decode_vec sz d) (counted sz f)
| R_option : forall A d f, Framed stack A d f -> Framed stack (option A) (decode_option d) (optional f)
| R_timestamp : Framed stack odt decode_odt stamp
| R_duration : Framed stack duration decode_duration span
| R_chain_index : Framed stack chain_index decode_chain_index fr_index
| R_siacoin_output : Framed stack siacoin_output decode_siacoin_output fr_output
| R_siafund_output : Framed stack siafund_output decode_siafund_output fr_fund_output
| R_v1_siacoin_output : Framed stack siacoin_output decode_v1_siacoin_output fr_old_output
| R_v1_siafund_output : Framed stack siafund_output decode_v1_siafund_output fr_old_fund_output
| R_state_element : Framed stack state_element decode_state_element fr_state_element
| R_unlock_key : Framed stack unlock_key decode_unlock_key fr_unlock_key
| R_unlock_conditions : Framed stack unlock_conditions decode_unlock_conditions fr_unlock_conditions
| R_v1_siacoin_input : Framed stack v1_siacoin_input decode_v1_siacoin_input fr_v1_input
| R_v1_siafund_input : Framed stack v1_siafund_input decode_v1_siafund_input fr_v1_fund_input
| R_v1_file_contract : Framed stack v1_file_contract decode_v1_file_contract fr_v1_contract
| R_v1_file_contract_revision : Framed stack v1_file_contract_revision decode_v1_file_contract_revision fr_v1_revision
| R_v1_storage_proof : Framed stack v1_storage_proof decode_v1_storage_proof fr_v1_proof
| R_covered_fields : Framed stack covered_fields decode_covered_fields fr_covered
| R_transaction_signature : Framed stack transaction_signature decode_transaction_signature fr_v1_signature
| R_v1_transaction : Framed stack v1_transaction decode_v1_transaction fr_v1_transaction
| R_block : Framed stack block decode_block fr_block
| R_policy : Framed stack policy (decode_policy stack) (fr_policy stack)
| R_satisfied_policy : Framed stack satisfied_policy (decode_satisfied_policy stack) (fr_satisfied stack)
| R_attestation : Framed stack attestation decode_attestation fr_attestation
| R_v2_file_contract : Framed stack v2_file_contract decode_v2_file_contract fr_contract
| R_siacoin_element : Framed stack siacoin_element decode_siacoin_element fr_siacoin_element
| R_siafund_element : Framed stack siafund_element decode_siafund_element fr_siafund_element
| R_file_contract_element : Framed stack file_contract_element decode_file_contract_element fr_contract_element
| R_chain_index_element : Framed stack chain_index_element decode_chain_index_element fr_index_element
| R_v2_siacoin_input : Framed stack v2_siacoin_input (decode_v2_siacoin_input stack) (fr_input stack)
| R_v2_siafund_input : Framed stack v2_siafund_input (decode_v2_siafund_input stack) (fr_fund_input stack)
| R_v2_file_contract_revision : Framed stack v2_file_contract_revision decode_v2_file_contract_revision fr_revision
| R_file_contract_renewal : Framed stack file_contract_renewal decode_file_contract_renewal fr_renewal
| R_v2_storage_proof : Framed stack v2_storage_proof decode_v2_storage_proof fr_storage_proof
| R_file_contract_resolution : Framed stack file_contract_resolution decode_file_contract_resolution fr_resolution
| R_v2_transaction : Framed stack v2_transaction (decode_v2_transaction stack) (fr_transaction stack)
| R_element_accumulator : Framed stack element_accumulator decode_element_accumulator fr_accumulator
| R_state : forall p, Framed stack state (decode_state p) (fr_state p).
