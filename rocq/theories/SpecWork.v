(** Specification: the work of decoding. *)

From Verif Require Import Base Io.
Local Open Scope N_scope.

(** How often decoding [bs] turns to its reader ([read_exact]), the call that fails included. *)
Fixpoint reads {A} (d : dec A) (bs : bytes) : N :=
  match d with
  | DRead n _ k => 1 + match splitn n bs with
                       | Some (x, rest) => reads (k x) rest
                       | None => 0
                       end
  | DAlloc _ k => reads k bs
  | _ => 0
  end.

(** How often it turns to its reader or to the allocator. *)
Definition steps {A} (d : dec A) (bs : bytes) : N := reads d bs + N.of_nat (length (requests d bs)).
