(** Specification: which index of the covered fields is reported. *)

From Verif Require Import Base Model_encoding Model_common Model_v1.
Local Open Scope N_scope.

(** The kinds of elements in the order of the fields of a transaction: the text that reports an index
    out of range, how many elements the transaction has, and the indices to cover. *)
Definition covered_kinds (t : v1_transaction) (c : covered_fields) : list (string * (nat * list usize)) :=
  [("siacoin_inputs index out of bounds", (length (vlist (v1t_siacoin_inputs t)), vlist (cf_siacoin_inputs c)));
   ("siacoin_outputs index out of bounds", (length (vlist (v1t_siacoin_outputs t)), vlist (cf_siacoin_outputs c)));
   ("file_contracts index out of bounds", (length (vlist (v1t_file_contracts t)), vlist (cf_file_contracts c)));
   ("file_contract_revisions index out of bounds",
      (length (vlist (v1t_file_contract_revisions t)), vlist (cf_file_contract_revisions c)));
   ("storage_proofs index out of bounds", (length (vlist (v1t_storage_proofs t)), vlist (cf_storage_proofs c)));
   ("siafund_inputs index out of bounds", (length (vlist (v1t_siafund_inputs t)), vlist (cf_siafund_inputs c)));
   ("siafund_outputs index out of bounds", (length (vlist (v1t_siafund_outputs t)), vlist (cf_siafund_outputs c)));
   ("miner_fees index out of bounds", (length (vlist (v1t_miner_fees t)), vlist (cf_miner_fees c)));
   ("arbitrary_data index out of bounds", (length (vlist (v1t_arbitrary_data t)), vlist (cf_arbitrary_data c)));
   ("signatures index out of bounds", (length (vlist (v1t_signatures t)), vlist (cf_signatures c)))]%string.

(** [FirstOutside l m]: [m] is the text of the first kind of [l] with an index that no element has. *)
Inductive FirstOutside : list (string * (nat * list usize)) -> string -> Prop :=
| outside_here : forall m n idx i r, In i idx -> N.of_nat n <= uval i -> FirstOutside ((m, (n, idx)) :: r) m
| outside_later : forall m n idx r m', (forall i, In i idx -> uval i < N.of_nat n) -> FirstOutside r m' ->
    FirstOutside ((m, (n, idx)) :: r) m'.
