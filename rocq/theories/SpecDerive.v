(** Specification: what a derived codec is, and which types of the library have one. *)

From Verif Require Import Base Io Spec Model_encoding Model_common Model_v1 Model_policy Model_v2 Model_derive Model_derivetypes.
Local Open Scope dec_scope.

(** ** Fields in declaration order *)

Section Fields.
Context {T : Type}.
Variable den : T -> Type.
Variable enc : forall t, option (den t -> wprog).
Variable decoder : forall t, option (dec (den t)).

(** Rust rejects a struct with two fields of the same name. *)
Definition DistinctNames (f : fields T) : Prop :=
  match f with FNamed l => NoDup (map (fun x => fst (fst x)) l) | _ => True end.

(** Every named field is [pub]. The fields of a tuple struct may have any visibility. *)
Definition AllPublic (f : fields T) : Prop :=
  match f with FNamed l => Forall (fun x => snd (fst x) = VisPublic) l | _ => True end.

(** For each field, whether it is [pub] or a field of a tuple struct. *)
Definition visible (f : fields T) : list bool :=
  match f with
  | FNamed l => map (fun x => match snd (fst x) with VisPublic => true | _ => false end) l
  | FUnnamed l => map (fun _ => true) l
  | FUnit => []
  end.

(** The encodings of the fields, one after the other; those marked [false] are left out. [None] if
    one of the types has no encoding. *)
Fixpoint write_fields (keep : list bool) (l : list T) : tuple den l -> option wprog :=
  match l with
  | [] => fun _ => Some []
  | t :: r => fun v =>
    match keep with
    | false :: keep => write_fields keep r (snd v)
    | _ => match enc t, write_fields (tl keep) r (snd v) with
           | Some e, Some p => Some (e (fst v) ++ p)
           | _, _ => None
           end
    end
  end.

(** The fields are decoded one after the other, all of them. *)
Fixpoint read_fields (l : list T) : option (dec (tuple den l)) :=
  match l with
  | [] => Some (DRet tt)
  | t :: r =>
    match decoder t, read_fields r with
    | Some d, Some ds => Some (x <- d ;; y <- ds ;; DRet (x, y))
    | _, _ => None
    end
  end.

(** Every field satisfies [P]. *)
Fixpoint AllFields (P : forall t, den t -> Prop) (l : list T) : tuple den l -> Prop :=
  match l with
  | [] => fun _ => True
  | t :: r => fun v => P t (fst v) /\ AllFields P r (snd v)
  end.

(** The types of the fields have both implementations, which round-trip on [P]. *)
Definition Lawful (P : forall t, den t -> Prop) (l : list T) : Prop :=
  forall t, In t l -> exists e d, enc t = Some e /\ decoder t = Some d /\
    Propagates e /\ RoundTripOn (P t) e d.
End Fields.

(** ** The derived types of the library: declaration, the value built from the fields, encoder and
    decoder *)

Inductive DerivedV1 : forall A : Type, forall f : fields rust_type,
  (tuple values (field_types f) -> A) -> (A -> wprog) -> dec A -> Prop :=
| V1d_address : DerivedV1 hash256 decl_address (fun v => fst v) encode_hash decode_hash
| V1d_siacoin_output : DerivedV1 siacoin_output decl_siacoin_output (fun '(y0, (y1, tt)) => MkSco y0 y1) encode_v1_siacoin_output decode_v1_siacoin_output
| V1d_leaf : DerivedV1 leaf decl_leaf (fun v => fst v) encode_leaf decode_leaf
| V1d_unlock_key : DerivedV1 unlock_key decl_unlock_key (fun '(y0, (y1, tt)) => MkUnlockKey y0 y1) encode_unlock_key decode_unlock_key
| V1d_unlock_conditions : DerivedV1 unlock_conditions decl_unlock_conditions (fun '(y0, (y1, (y2, tt))) => MkUc y0 y1 y2) encode_unlock_conditions decode_unlock_conditions
| V1d_v1_siacoin_input : DerivedV1 v1_siacoin_input decl_v1_siacoin_input (fun '(y0, (y1, tt)) => MkV1Sci y0 y1) encode_v1_siacoin_input decode_v1_siacoin_input
| V1d_v1_siafund_input : DerivedV1 v1_siafund_input decl_v1_siafund_input (fun '(y0, (y1, (y2, tt))) => MkV1Sfi y0 y1 y2) encode_v1_siafund_input decode_v1_siafund_input
| V1d_v1_file_contract : DerivedV1 v1_file_contract decl_v1_file_contract (fun '(y0, (y1, (y2, (y3, (y4, (y5, (y6, (y7, (y8, tt))))))))) => MkV1Fc y0 y1 y2 y3 y4 y5 y6 y7 y8) encode_v1_file_contract decode_v1_file_contract
| V1d_v1_file_contract_revision : DerivedV1 v1_file_contract_revision decl_v1_file_contract_revision (fun '(y0, (y1, (y2, (y3, (y4, (y5, (y6, (y7, (y8, (y9, tt)))))))))) => MkV1Fcr y0 y1 y2 y3 y4 y5 y6 y7 y8 y9) encode_v1_file_contract_revision decode_v1_file_contract_revision
| V1d_v1_storage_proof : DerivedV1 v1_storage_proof decl_v1_storage_proof (fun '(y0, (y1, (y2, tt))) => MkV1Sp y0 y1 y2) encode_v1_storage_proof decode_v1_storage_proof
| V1d_covered_fields : DerivedV1 covered_fields decl_covered_fields (fun '(y0, (y1, (y2, (y3, (y4, (y5, (y6, (y7, (y8, (y9, (y10, tt))))))))))) => MkCf y0 y1 y2 y3 y4 y5 y6 y7 y8 y9 y10) encode_covered_fields decode_covered_fields
| V1d_transaction_signature : DerivedV1 transaction_signature decl_transaction_signature (fun '(y0, (y1, (y2, (y3, (y4, tt))))) => MkTs y0 y1 y2 y3 y4) encode_transaction_signature decode_transaction_signature
| V1d_transaction : DerivedV1 v1_transaction decl_transaction (fun '(y0, (y1, (y2, (y3, (y4, (y5, (y6, (y7, (y8, (y9, tt)))))))))) => MkV1Txn y0 y1 y2 y3 y4 y5 y6 y7 y8 y9) encode_v1_transaction decode_v1_transaction
| V1d_specifier : DerivedV1 specifier decl_specifier (fun v => fst v) encode_specifier decode_specifier
| V1d_hash_id : DerivedV1 hash256 decl_hash_id (fun v => fst v) encode_hash decode_hash.

Inductive DerivedV2 (stack : nat) : forall A : Type, forall f : fields rust_type,
  (tuple values (field_types f) -> A) -> (A -> wprog) -> dec A -> Prop :=
| V2d_chain_index : DerivedV2 stack chain_index decl_chain_index (fun '(y0, (y1, tt)) => MkChainIndex y0 y1) encode_chain_index decode_chain_index
| V2d_address : DerivedV2 stack hash256 decl_address (fun v => fst v) encode_hash decode_hash
| V2d_siacoin_output : DerivedV2 stack siacoin_output decl_siacoin_output (fun '(y0, (y1, tt)) => MkSco y0 y1) encode_siacoin_output decode_siacoin_output
| V2d_siafund_output : DerivedV2 stack siafund_output decl_siafund_output (fun '(y0, (y1, tt)) => MkSfo y0 y1) encode_siafund_output decode_siafund_output
| V2d_leaf : DerivedV2 stack leaf decl_leaf (fun v => fst v) encode_leaf decode_leaf
| V2d_state_element : DerivedV2 stack state_element decl_state_element (fun '(y0, (y1, tt)) => MkSe y0 y1) encode_state_element decode_state_element
| V2d_unlock_key : DerivedV2 stack unlock_key decl_unlock_key (fun '(y0, (y1, tt)) => MkUnlockKey y0 y1) encode_unlock_key decode_unlock_key
| V2d_unlock_conditions : DerivedV2 stack unlock_conditions decl_unlock_conditions (fun '(y0, (y1, (y2, tt))) => MkUc y0 y1 y2) encode_unlock_conditions decode_unlock_conditions
| V2d_attestation : DerivedV2 stack attestation decl_attestation (fun '(y0, (y1, (y2, (y3, tt)))) => MkAtt y0 y1 y2 y3) encode_attestation decode_attestation
| V2d_v2_file_contract : DerivedV2 stack v2_file_contract decl_v2_file_contract (fun '(y0, (y1, (y2, (y3, (y4, (y5, (y6, (y7, (y8, (y9, (y10, (y11, (y12, (y13, tt)))))))))))))) => MkV2Fc y0 y1 y2 y3 y4 y5 y6 y7 y8 y9 y10 y11 y12 y13) encode_v2_file_contract decode_v2_file_contract
| V2d_siacoin_element : DerivedV2 stack siacoin_element decl_siacoin_element (fun '(y0, (y1, (y2, (y3, tt)))) => MkSce y0 y1 y2 y3) encode_siacoin_element decode_siacoin_element
| V2d_siafund_element : DerivedV2 stack siafund_element decl_siafund_element (fun '(y0, (y1, (y2, (y3, tt)))) => MkSfe y0 y1 y2 y3) encode_siafund_element decode_siafund_element
| V2d_file_contract_element : DerivedV2 stack file_contract_element decl_file_contract_element (fun '(y0, (y1, (y2, tt))) => MkFce y0 y1 y2) encode_file_contract_element decode_file_contract_element
| V2d_chain_index_element : DerivedV2 stack chain_index_element decl_chain_index_element (fun '(y0, (y1, (y2, tt))) => MkCie y0 y1 y2) encode_chain_index_element decode_chain_index_element
| V2d_v2_siacoin_input : DerivedV2 stack v2_siacoin_input decl_v2_siacoin_input (fun '(y0, (y1, tt)) => MkV2Sci y0 y1) encode_v2_siacoin_input (decode_v2_siacoin_input stack)
| V2d_v2_siafund_input : DerivedV2 stack v2_siafund_input decl_v2_siafund_input (fun '(y0, (y1, (y2, tt))) => MkV2Sfi y0 y1 y2) encode_v2_siafund_input (decode_v2_siafund_input stack)
| V2d_v2_file_contract_revision : DerivedV2 stack v2_file_contract_revision decl_v2_file_contract_revision (fun '(y0, (y1, tt)) => MkV2Fcr y0 y1) encode_v2_file_contract_revision decode_v2_file_contract_revision
| V2d_file_contract_renewal : DerivedV2 stack file_contract_renewal decl_file_contract_renewal (fun '(y0, (y1, (y2, (y3, (y4, (y5, tt)))))) => MkRen y0 y1 y2 y3 y4 y5) encode_file_contract_renewal decode_file_contract_renewal
| V2d_v2_storage_proof : DerivedV2 stack v2_storage_proof decl_v2_storage_proof (fun '(y0, (y1, (y2, tt))) => MkV2Sp y0 y1 y2) encode_v2_storage_proof decode_v2_storage_proof
| V2d_satisfied_policy : DerivedV2 stack satisfied_policy decl_satisfied_policy (fun '(y0, (y1, (y2, tt))) => MkSatisfied y0 y1 y2) encode_satisfied_policy (decode_satisfied_policy stack)
| V2d_public_key : DerivedV2 stack hash256 decl_public_key (fun v => fst v) encode_hash decode_hash
| V2d_signature : DerivedV2 stack signature decl_signature (fun v => fst v) encode_signature decode_signature
| V2d_specifier : DerivedV2 stack specifier decl_specifier (fun v => fst v) encode_specifier decode_specifier
| V2d_hash_id : DerivedV2 stack hash256 decl_hash_id (fun v => fst v) encode_hash decode_hash.
