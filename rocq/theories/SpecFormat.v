(** Specification: the layout of accumulators, chain states, v2 transactions and resolutions. *)

From Verif Require Import Base Io Spec Model_encoding Model_common Model_v1 Model_policy Model_v2 Model_consensus.
Local Open Scope N_scope.

(** The elements of a list whose position is a set bit of [n], in order. *)
Definition present {A} (n : N) (l : list A) : list A :=
  map snd (filter (fun x => N.testbit n (N.of_nat (fst x))) (combine (seq 0 (length l)) l)).

(** The part of a chain state's encoding behind the timestamps. *)
Definition state_tail (s : state) : bytes :=
  aval (st_depth s) ++ aval (st_child_target s) ++ wbytes (encode_currency (st_siafund_pool s)) ++
  wbytes (encode_duration (st_oak_time s)) ++ aval (st_oak_target s) ++
  aval (st_foundation_primary_address s) ++ aval (st_foundation_failsafe_address s) ++
  wbytes (encode_work (st_total_work s)) ++ wbytes (encode_work (st_difficulty s)) ++
  wbytes (encode_work (st_oak_work s)) ++ wbytes (encode_element_accumulator (st_elements s)) ++
  wbytes (encode_u64 (st_attestations s)).

(** A timestamp as eight bytes: seconds since the epoch, little-endian two's complement. *)
Definition StampBytes (t : odt) (b : bytes) : Prop :=
  length b = 8%nat /\ Z.of_N (le_value b) = (odt_secs t mod 2 ^ 64)%Z.

(** The state with other timestamps. *)
Definition with_timestamps (s : state) (ts : farr 11 odt) : state :=
  MkState (st_index s) ts (st_depth s) (st_child_target s) (st_siafund_pool s) (st_oak_time s)
    (st_oak_target s) (st_foundation_primary_address s) (st_foundation_failsafe_address s)
    (st_total_work s) (st_difficulty s) (st_oak_work s) (st_elements s) (st_attestations s).

(** The sections of a v2 transaction in order, [None] for an empty one. *)
Definition listed {sz A} (enc : A -> wprog) (v : vec sz A) : option bytes :=
  match vlist v with [] => None | _ => Some (wbytes (encode_vec enc v)) end.
Definition sections (t : v2_transaction) : list (option bytes) :=
  [ listed encode_v2_siacoin_input (v2t_siacoin_inputs t);
    listed encode_siacoin_output (v2t_siacoin_outputs t);
    listed encode_v2_siafund_input (v2t_siafund_inputs t);
    listed encode_siafund_output (v2t_siafund_outputs t);
    listed encode_v2_file_contract (v2t_file_contracts t);
    listed encode_v2_file_contract_revision (v2t_file_contract_revisions t);
    listed encode_file_contract_resolution (v2t_file_contract_resolutions t);
    listed encode_attestation (v2t_attestations t);
    listed encode_u8 (v2t_arbitrary_data t);
    option_map (fun a => aval a) (v2t_new_foundation_address t);
    if uval (v2t_miner_fee t) =? 0 then None else Some (wbytes (encode_currency (v2t_miner_fee t))) ].

Definition body (l : list (option bytes)) : bytes :=
  concat (map (fun o => match o with Some b => b | None => [] end) l).

Definition empty_transaction : v2_transaction :=
  MkV2Txn vec_nil vec_nil vec_nil vec_nil vec_nil vec_nil vec_nil vec_nil vec_nil None (uwrap 128 0).

(** The tag of a resolution. *)
Definition resolution_tag (r : contract_resolution) : byte :=
  match r with ResRenewal _ => x00 | ResStorageProof _ => x01 | ResExpiration => x02 end.
