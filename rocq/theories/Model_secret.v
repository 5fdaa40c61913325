(** Secrets: what the [Debug] text of a private key is, and what is left in memory of seeds and
    private keys. *)

From Verif Require Import Base Io Model_encoding Blake2b Model_common Model_currency Model_text Model_ed25519 Model_signing Model_seed.
Local Open Scope N_scope.

(** ** [Debug] *)

(** [core::fmt] for a list in [{:?}]: the entries in decimal between commas. *)
Fixpoint debug_entries (l : bytes) : bytes :=
  match l with
  | [] => []
  | [b] => dec_text (b2n b)
  | b :: r => dec_text (b2n b) ++ ascii ", " ++ debug_entries r
  end.

(** The same in [{:#?}]: each entry on a line of its own, indented twice (by the list and by the
    tuple struct around it), with a comma after it. *)
Definition pretty_entries (l : bytes) : bytes :=
  concat (map (fun b => ascii "        " ++ dec_text (b2n b) ++ [","; "010"]%byte) l).

(** signing.rs:67 [derive(Debug)] for [PrivateKey], with [{:?}] and with [{:#?}]. *)
Definition private_key_debug (k : private_key) : bytes :=
  ascii "PrivateKey([" ++ debug_entries (aval k) ++ ascii "])".

Definition private_key_debug_pretty (k : private_key) : bytes :=
  ascii "PrivateKey(" ++ ["010"%byte] ++ ascii "    [" ++ ["010"%byte] ++ pretty_entries (aval k) ++
  ascii "    ]," ++ ["010"%byte] ++ ascii ")".

(** ** Storage *)

(** A piece of memory: its bytes, and whether a [Seed] or [PrivateKey] lives there that has not been
    moved away or dropped. *)
Record storage : Type := Storage { st_bytes : bytes; st_live : bool }.

Definition memory : Type := list storage.

(** seed.rs:65-72, signing.rs:104-111 [Drop]: every byte is set to zero. *)
Definition zeroed (l : bytes) : bytes := map (fun _ => "000"%byte) l.

(** What a program does with secrets. The machine is that of the language: a move copies the bytes and
    leaves the old ones, a store is carried out although nothing reads it again (compilers may
    omit both). Arrays and [Hash256] values have no [Drop], so temporaries of these types
    keep their bytes. *)
Inductive action : Type :=
| HoldSeed (s : seed)             (* seed.rs:21-23 [Seed::new] *)
| HoldKey (k : private_key)       (* signing.rs:92-96 [PrivateKey::from] *)
| Clone (i : nat)                 (* signing.rs:67 [derive(Clone)] *)
| Move (i : nat)                  (* a value is passed, returned or assigned *)
| Derive (i : nat) (index : u64)  (* seed.rs:48-62 [Seed::private_key] *)
| Sign (i : nat)                  (* signing.rs:82-85 [PrivateKey::sign_hash] *)
| Drop (i : nat).

Definition live_at (m : memory) (i : nat) : option bytes :=
  match nth_error m i with
  | Some s => if st_live s then Some (st_bytes s) else None
  | None => None
  end.

Fixpoint set_at (m : memory) (i : nat) (s : storage) : memory :=
  match m, i with
  | [], _ => []
  | _ :: r, O => s :: r
  | a :: r, S j => a :: set_at r j s
  end.

(** One action; [None] if it names no living value, or one of the other type. *)
Definition act (m : memory) (a : action) : option memory :=
  match a with
  | HoldSeed s => Some (m ++ [Storage (aval s) true])
  | HoldKey k => Some (m ++ [Storage (aval k) true])
  | Clone i =>
    match live_at m i with
    | Some b => if Nat.eqb (length b) 64 then Some (m ++ [Storage b true]) else None
    | None => None
    end
  | Move i =>
    match live_at m i with
    | Some b => Some (set_at m i (Storage b false) ++ [Storage b true])
    | None => None
    end
  | Derive i index =>
    match live_at m i with
    | Some b =>
      if Nat.eqb (length b) 16 then
        (* seed.rs:52 [entropy] and :54-59 [seed], both [Hash256] *)
        let entropy := hash b in
        let key_seed := hash (aval entropy ++ le_bytes 8 (uval index)) in
        Some (m ++ [Storage (aval entropy) false; Storage (aval key_seed) false;
                    Storage (aval (seed_private_key (arr_of 16 b) index)) true])
      else None
    | None => None
    end
  | Sign i =>
    match live_at m i with
    | Some b =>
      if Nat.eqb (length b) 64 then
        (* signing.rs:83 [&self.0[..32].try_into().unwrap()], a [[u8; 32]]; the [SigningKey] made
           of it zeroes itself (ed25519-dalek's default feature zeroize). *)
        Some (m ++ [Storage (firstn 32 b) false])
      else None
    | None => None
    end
  | Drop i =>
    match live_at m i with
    | Some b => Some (set_at m i (Storage (zeroed b) false))
    | None => None
    end
  end.

Fixpoint acts (m : memory) (l : list action) : option memory :=
  match l with
  | [] => Some m
  | a :: r => match act m a with Some m' => acts m' r | None => None end
  end.
