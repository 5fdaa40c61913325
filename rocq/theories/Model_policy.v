(** Model of the spend policy type of sia/src/types/spendpolicy.rs and its binary codec. *)

From Verif Require Import Base Io Model_encoding Model_common Model_v1.
Local Open Scope N_scope.
Local Open Scope dec_scope.

(** spendpolicy.rs:55-75. The children of a threshold are a list: the bound
    [len * size_of::<SpendPolicy>() <= isize::MAX] of a Rust [Vec] is not imposed, so
    statements over all values of this type cover at least all Rust values. *)
Inductive policy : Type :=
| PAbove (height : u64)
| PAfter (time : odt)
| PPublicKey (pk : hash256)
| PHash (h : hash256)
| PThreshold (n : u8) (of : list policy)
| POpaque (addr : hash256)
| PUnlockConditions (uc : unlock_conditions).

(** Induction principle with the hypothesis for every child. *)
Definition policy_ind' (P : policy -> Prop)
  (Habove : forall h, P (PAbove h)) (Hafter : forall t, P (PAfter t))
  (Hpk : forall k, P (PPublicKey k)) (Hhash : forall h, P (PHash h))
  (Hthresh : forall n of, Forall P of -> P (PThreshold n of))
  (Hopaque : forall a, P (POpaque a)) (Huc : forall u, P (PUnlockConditions u)) :
  forall p, P p :=
  fix go (p : policy) : P p :=
    match p with
    | PAbove h => Habove h
    | PAfter t => Hafter t
    | PPublicKey k => Hpk k
    | PHash h => Hhash h
    | PThreshold n of =>
      Hthresh n of
        ((fix all (l : list policy) : Forall P l :=
            match l with
            | [] => Forall_nil P
            | x :: r => Forall_cons x (go x) (all r)
            end) of)
    | POpaque a => Hopaque a
    | PUnlockConditions u => Huc u
    end.

(** spendpolicy.rs:15-22, 78-89 *)
Definition type_prefix (p : policy) : u8 :=
  match p with
  | PAbove _ => x01
  | PAfter _ => x02
  | PPublicKey _ => x03
  | PHash _ => x04
  | PThreshold _ _ => x05
  | POpaque _ => x06
  | PUnlockConditions _ => x07
  end.

(** spendpolicy.rs:318-340, the inner [encode_policy]. [policies.len() as u8] truncates. *)
Fixpoint encode_policy_body (p : policy) : wprog :=
  write_all [type_prefix p] ++
  match p with
  | PAbove height => encode_u64 height
  | PAfter time => encode_u64 (s_as_u64 (unix_timestamp time))
  | PPublicKey pk => encode_hash pk
  | PHash h => encode_hash h
  | PThreshold n of =>
    encode_u8 n ++
    encode_u8 (n2b (N.of_nat (length of) mod 256)) ++
    concat (map encode_policy_body of)
  | POpaque addr => encode_hash addr
  | PUnlockConditions uc => encode_unlock_conditions uc
  end.

(** spendpolicy.rs:315-344. The recursion of the encoder (like that of [address] and of the
    destructor) follows the nesting of an already built value; its stack use is in
    Model_stack.v. *)
Definition encode_policy (p : policy) : wprog := encode_u8 x01 ++ encode_policy_body p.

(** spendpolicy.rs:349-379, the inner [decode_policy]. [stack] is the number of nested
    calls the thread's stack has room for: nothing in the code limits the nesting. The
    vector of at most 255 children is always within the allocation limit. A child takes 48
    bytes, or 40 if the compiler keeps the variant's tag inside a vector's capacity field. *)
Fixpoint decode_policy_body (stack : nat) : dec policy :=
  match stack with
  | O => DPanic StackOverflow
  | S stack' =>
    policy_type <- decode_u8 ;;
    match policy_type with
    | x01 => height <- decode_u64 ;; DRet (PAbove height)
    | x02 =>
      unix_seconds <- decode_u64 ;;
      timestamp <- dret_opt (ECustom "invalid timestamp")
                     (from_unix_timestamp (swrap 64 w64_nz (Z.of_N (uval unix_seconds)))) ;;
      DRet (PAfter timestamp)
    | x03 => pk <- decode_hash ;; DRet (PPublicKey pk)
    | x04 => h <- decode_hash ;; DRet (PHash h)
    | x05 =>
      of <- decode_u8 ;;
      n <- decode_u8 ;;
      DAlloc (b2n n * 48) (
      policies <- dloop (b2n n) (fun acc => x <- decode_policy_body stack' ;; DRet (x :: acc)) [] ;;
      DRet (PThreshold of (rev policies)))
    | x06 => addr <- decode_hash ;; DRet (POpaque addr)
    | x07 => uc <- decode_unlock_conditions ;; DRet (PUnlockConditions uc)
    | _ => DErr (ECustom "invalid policy type")
    end
  end.

(** spendpolicy.rs:346-388 *)
Definition decode_policy (stack : nat) : dec policy :=
  policy_version <- decode_u8 ;;
  match policy_version with
  | x01 => decode_policy_body stack
  | _ => DErr (ECustom "invalid policy version")
  end.

(** ** SatisfiedPolicy — spendpolicy.rs:390-398 *)
Record satisfied_policy : Type := MkSatisfied {
  sp_policy : policy;
  sp_signatures : vec 64 signature;
  sp_preimages : vec 32 hash256 }.

Definition encode_satisfied_policy (s : satisfied_policy) : wprog :=
  encode_policy (sp_policy s) ++
  encode_vec encode_signature (sp_signatures s) ++
  encode_vec encode_hash (sp_preimages s).
Definition decode_satisfied_policy (stack : nat) : dec satisfied_policy :=
  policy <- decode_policy stack ;;
  signatures <- decode_vec 64 decode_signature ;;
  preimages <- decode_vec 32 decode_hash ;;
  DRet (MkSatisfied policy signatures preimages).
