(** Model of sia_derive/src/lib.rs: the four derive macros.

    A macro turns the declaration of a type into code. The declaration is what [syn] hands over,
    reduced to what the macros look at: names, visibilities and types of the fields (generic
    parameters make the generated [impl] ill-formed and are left out). The code is
    what [quote!] produces: the places that are encoded, or the struct expression whose fields are
    decoded. The second part is what the compiler makes of that code. *)

From Verif Require Import Base Io.
Local Open Scope dec_scope.

(** ** Declarations and generated code *)

(** [syn::Visibility]: [pub], [pub(...)], or nothing. *)
Inductive visibility : Type := VisPublic | VisRestricted | VisInherited.

(** [syn::Fields]; [T] is the syntax of types. *)
Inductive fields (T : Type) : Type :=
| FNamed (l : list (string * visibility * T))
| FUnnamed (l : list (visibility * T))
| FUnit.
Arguments FNamed {T} l.
Arguments FUnnamed {T} l.
Arguments FUnit {T}.

(** [syn::Data] *)
Inductive data (T : Type) : Type :=
| DataStruct (f : fields T)
| DataEnum
| DataUnion.
Arguments DataStruct {T} f.
Arguments DataEnum {T}.
Arguments DataUnion {T}.

(** [self.name] and [self.0] *)
Inductive place : Type := ByName (n : string) | ByIndex (i : nat).

(** The body of a generated encoder: [self.p.encode(w)?;] for each place, then [Ok(())]. *)
Definition encode_body : Type := list place.

(** The body of a generated decoder: [Ok(Self { name: <ty>::decode(r)?, ... })],
    [Ok(Self(<ty>::decode(r)?, ...))] or [Ok(Self)]. *)
Inductive decode_body (T : Type) : Type :=
| BNamed (l : list (string * T))
| BTuple (l : list T)
| BUnit.
Arguments BNamed {T} l.
Arguments BTuple {T} l.
Arguments BUnit {T}.

(** ** The macros. [None]: the macro panics, which ends the compilation. *)
Section Macros.
Context {T : Type}.

(** [Iterator::enumerate] on the fields, keeping the index. *)
Definition indices (l : list (visibility * T)) : list place := map ByIndex (seq 0 (length l)).

(** lib.rs:5-48 [derive_sia_encode] *)
Definition derive_sia_encode (d : data T) : option encode_body :=
  match d with
  | DataStruct (FNamed l) =>
    Some (flat_map (fun '(n, v, _) => match v with VisPublic => [ByName n] | _ => [] end) l)
  | DataStruct (FUnnamed l) => Some (indices l)
  | DataStruct FUnit => Some []
  | DataEnum => None
  | DataUnion => None
  end.

(** lib.rs:50-98 [derive_sia_decode] *)
Definition derive_sia_decode (d : data T) : option (decode_body T) :=
  match d with
  | DataStruct (FNamed l) =>
    Some (BNamed (flat_map (fun '(n, v, t) => match v with VisPublic => [(n, t)] | _ => [] end) l))
  | DataStruct (FUnnamed l) => Some (BTuple (map snd l))
  | DataStruct FUnit => Some BUnit
  | DataEnum => None
  | DataUnion => None
  end.

(** lib.rs:100-139 [derive_v1_sia_encode] *)
Definition derive_v1_sia_encode (d : data T) : option encode_body :=
  match d with
  | DataStruct (FNamed l) => Some (map (fun '(n, _, _) => ByName n) l)
  | DataStruct (FUnnamed l) => Some (indices l)
  | DataStruct FUnit => Some []
  | DataEnum => None
  | DataUnion => None
  end.

(** lib.rs:141-185 [derive_v1_sia_decode] *)
Definition derive_v1_sia_decode (d : data T) : option (decode_body T) :=
  match d with
  | DataStruct (FNamed l) => Some (BNamed (map (fun '(n, _, t) => (n, t)) l))
  | DataStruct (FUnnamed l) => Some (BTuple (map snd l))
  | DataStruct FUnit => Some BUnit
  | DataEnum => None
  | DataUnion => None
  end.
End Macros.

(** ** The compiler: what the generated code means, [None] when it is rejected *)
Section Compiler.
Context {T : Type}.
Variable T_eq_dec : forall a b : T, {a = b} + {a <> b}.
(** The values of a type, and the implementations of the trait in question, if there is one. *)
Variable den : T -> Type.
Variable enc : forall t, option (den t -> wprog).
Variable decoder : forall t, option (dec (den t)).

Definition field_types (f : fields T) : list T :=
  match f with FNamed l => map snd l | FUnnamed l => map snd l | FUnit => [] end.

(** The values of a struct: one value per field, in declaration order. *)
Fixpoint tuple (l : list T) : Type :=
  match l with [] => unit | t :: r => (den t * tuple r)%type end.

Definition dyn : Type := {t : T & den t}.

Fixpoint dyns (l : list T) : tuple l -> list dyn :=
  match l with
  | [] => fun _ => []
  | t :: r => fun v => existT _ t (fst v) :: dyns r (snd v)
  end.

Definition place_eqb (p q : place) : bool :=
  match p, q with
  | ByName a, ByName b => String.eqb a b
  | ByIndex i, ByIndex j => Nat.eqb i j
  | _, _ => false
  end.

(** The places of a struct, in declaration order. *)
Definition places (f : fields T) : list place :=
  match f with
  | FNamed l => map (fun '(n, _, _) => ByName n) l
  | FUnnamed l => map ByIndex (seq 0 (length l))
  | FUnit => []
  end.

Fixpoint find_place {A} (p : place) (l : list (place * A)) : option A :=
  match l with
  | [] => None
  | (q, a) :: r => if place_eqb p q then Some a else find_place p r
  end.

(** [self.p.encode(w)?]: the place must exist and its type implement the trait. *)
Definition encode_place (f : fields T) (v : tuple (field_types f)) (p : place) : option wprog :=
  match find_place p (combine (places f) (dyns _ v)) with
  | None => None
  | Some (existT _ t x) => match enc t with Some e => Some (e x) | None => None end
  end.

Fixpoint concat_opt (l : list (option wprog)) : option wprog :=
  match l with
  | [] => Some []
  | o :: r => match o, concat_opt r with Some a, Some b => Some (a ++ b) | _, _ => None end
  end.

(** The generated [encode] on the value [v]. *)
Definition run_encode (f : fields T) (b : encode_body) (v : tuple (field_types f)) : option wprog :=
  concat_opt (map (encode_place f v) b).

(** The value named [n] in the fields of a struct expression, at the declared type. *)
Fixpoint find_value (n : string) (t : T) (l : list (string * dyn)) : option (den t) :=
  match l with
  | [] => None
  | (m, existT _ u x) :: r =>
    if String.eqb n m then
      match T_eq_dec u t with left e => Some (eq_rect u den x t e) | right _ => None end
    else find_value n t r
  end.

(** The struct built from named values: every field must be given. *)
Fixpoint build_named (l : list (string * visibility * T)) (vs : list (string * dyn)) :
  option (tuple (map snd l)) :=
  match l return option (tuple (map snd l)) with
  | [] => Some tt
  | (n, _, t) :: r =>
    match find_value n t vs, build_named r vs with
    | Some x, Some rest => Some (x, rest)
    | _, _ => None
    end
  end.

(** The struct built from positional values: as many as there are fields. *)
Fixpoint build_tuple (l : list T) (vs : list dyn) : option (tuple l) :=
  match l return option (tuple l) with
  | [] => match vs with [] => Some tt | _ => None end
  | t :: r =>
    match vs with
    | [] => None
    | existT _ u x :: vs =>
      match T_eq_dec u t, build_tuple r vs with
      | left e, Some rest => Some (eq_rect u den x t e, rest)
      | _, _ => None
      end
    end
  end.

(** The implementations behind the expressions [<ty>::decode(r)?]. *)
Fixpoint resolve {K} (l : list (K * T)) : option (list (K * {t : T & dec (den t)})) :=
  match l with
  | [] => Some []
  | (k, t) :: r =>
    match decoder t, resolve r with
    | Some d, Some ds => Some ((k, existT _ t d) :: ds)
    | _, _ => None
    end
  end.

(** They are evaluated in the order in which they are written. *)
Fixpoint eval_exprs {K R} (l : list (K * {t : T & dec (den t)})) (acc : list (K * dyn))
  (k : list (K * dyn) -> dec R) : dec R :=
  match l with
  | [] => k (rev acc)
  | (n, existT _ t d) :: r => x <- d ;; eval_exprs r ((n, existT _ t x) :: acc) k
  end.

Fixpoint distinct (l : list string) : bool :=
  match l with [] => true | n :: r => negb (existsb (String.eqb n) r) && distinct r end.

(** A struct expression is accepted when it gives every field of the struct once, at its type, and
    no other. *)
Definition body_ok (f : fields T) (b : decode_body T) : bool :=
  match f, b with
  | FNamed l, BNamed m =>
    forallb (fun '(n, _, t) =>
      existsb (fun '(n', t') => String.eqb n n' && if T_eq_dec t' t then true else false) m) l &&
    forallb (fun '(n', _) => existsb (fun '(n, _, _) => String.eqb n n') l) m &&
    distinct (map fst m)
  | FUnnamed l, BTuple m => if list_eq_dec T_eq_dec m (map snd l) then true else false
  | FUnit, BUnit => true
  | _, _ => false
  end.

(** [Ok(Self ...)]; the struct expression has been accepted, so a missing value cannot occur. *)
Definition built {A} (o : option A) : dec A :=
  match o with Some a => DRet a | None => DPanic Unreachable end.

(** The generated [decode]. *)
Definition compile_decode (f : fields T) (b : decode_body T) : option (dec (tuple (field_types f))) :=
  if negb (body_ok f b) then None else
  match f, b with
  | FNamed l, BNamed m =>
    match resolve m with
    | Some ds => Some (eval_exprs ds [] (fun vs => built (build_named l vs)))
    | None => None
    end
  | FUnnamed l, BTuple m =>
    match resolve (map (fun t => (tt, t)) m) with
    | Some ds => Some (eval_exprs ds [] (fun vs => built (build_tuple (map snd l) (map snd vs))))
    | None => None
    end
  | FUnit, BUnit => Some (DRet tt)
  | _, _ => None
  end.
End Compiler.
