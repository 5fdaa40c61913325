(** Specification: a JSON text without white space laid out in lines. This goes through the text
    byte by byte and knows only where strings begin and end and how many brackets are open. *)

From Verif Require Import Base Model_text.

Inductive place := Outside | Inside | Escaped.

(** a line break and two spaces for each open bracket *)
Fixpoint spaces (n : nat) : bytes := match n with O => [] | S n => " "%byte :: " "%byte :: spaces n end.
Definition fresh_line (n : nat) : bytes := x0a :: spaces n.

Definition opens (b : byte) : bool := Byte.eqb b "[" || Byte.eqb b "{".
Definition closes (b : byte) : bool := Byte.eqb b "]" || Byte.eqb b "}".

(** With [n] brackets open: strings are as they were; a line ends after every opening bracket, after
    every comma and before every closing bracket, but not between two brackets with nothing between
    them; a space follows every colon. *)
Fixpoint laid_out (n : nat) (p : place) (t : bytes) : bytes :=
  match t with
  | [] => []
  | b :: r =>
    match p with
    | Escaped => b :: laid_out n Inside r
    | Inside =>
      b :: laid_out n (if Byte.eqb b """" then Outside else if Byte.eqb b "\" then Escaped else Inside) r
    | Outside =>
      if Byte.eqb b """" then b :: laid_out n Inside r
      else if opens b then
        match r with
        | c :: r' =>
          if closes c then b :: c :: laid_out n Outside r'
          else b :: fresh_line (S n) ++ laid_out (S n) Outside r
        | [] => [b]
        end
      else if closes b then fresh_line (pred n) ++ b :: laid_out (pred n) Outside r
      else if Byte.eqb b "," then b :: fresh_line n ++ laid_out n Outside r
      else if Byte.eqb b ":" then b :: " "%byte :: laid_out n Outside r
      else b :: laid_out n Outside r
    end
  end.

(** The text in lines *)
Definition indented (t : bytes) : bytes := laid_out 0 Outside t.
