(** What C66 speaks of: wiped memory, and what is left over. *)

From Verif Require Import Base SpecText Model_seed Model_signing Model_secret.
Local Open Scope N_scope.

(** Nothing but zeros. *)
Definition Wiped (l : bytes) : Prop := Forall (fun b => b = "000"%byte) l.

Definition is_wiped (l : bytes) : bool := forallb (fun b => Byte.eqb b "000"%byte) l.

(** The number of pieces of memory that hold no value any more and have not been wiped. *)
Definition left_over (m : memory) : nat :=
  length (filter (fun s => negb (st_live s) && negb (is_wiped (st_bytes s))) m).

(** Making, cloning and dropping values. *)
Definition plain_action (a : action) : Prop :=
  match a with
  | HoldSeed _ | HoldKey _ | Clone _ | Drop _ => True
  | Move _ | Derive _ _ | Sign _ => False
  end.

(** How many copies an action may leave behind. *)
Definition leaves (a : action) : nat :=
  match a with
  | HoldSeed _ | HoldKey _ | Clone _ | Drop _ => 0
  | Move _ | Sign _ => 1
  | Derive _ _ => 2
  end.

(** No value is left. *)
Definition all_dropped (m : memory) : Prop := Forall (fun s => st_live s = false) m.

(** The number in decimal, without leading zeros *)
Definition InDecimal (b : byte) (d : bytes) : Prop :=
  digits d /\ dec_value d = b2n b /\ (d = ["0"%byte] \/ hd x00 d <> "0"%byte).

(** The texts of [{:?}] and [{:#?}], line by line *)
Fixpoint separated (sep : bytes) (l : list bytes) : bytes :=
  match l with
  | [] => []
  | [t] => t
  | t :: r => t ++ sep ++ separated sep r
  end.
Definition one_line (ds : list bytes) : bytes := ascii "PrivateKey([" ++ separated (ascii ", ") ds ++ ascii "])".
Definition many_lines (ds : list bytes) : bytes :=
  separated [x0a] ([ascii "PrivateKey("; ascii "    ["] ++ map (fun d => ascii "        " ++ d ++ ascii ",") ds ++
                   [ascii "    ],"; ascii ")"]).
