(** The group used by Ed25519, as RFC 8032 (section 5.1) and RFC 7748 define it: points
    [(x, y)] over the integers modulo [2^255 - 19] with [-x^2 + y^2 = 1 + d x^2 y^2]. *)

From Coq Require Import ZArith NArith.
From Verif Require Import Fp.
Local Open Scope F_scope.

(** [d = -121665 / 121666] *)
Definition ed_d : F := fdiv (fmk (-121665)) (fmk 121666).

Definition point : Type := (F * F)%type.

Definition on_curve (P : point) : Prop :=
  let (x, y) := P in y * y - x * x = 1 + ed_d * (x * x) * (y * y).

Definition pzero : point := (0, 1).
Definition pneg (P : point) : point := let (x, y) := P in (- x, y).

(** the addition law *)
Definition padd (P Q : point) : point :=
  let (x1, y1) := P in
  let (x2, y2) := Q in
  ((x1 * y2 + x2 * y1) / (1 + ed_d * x1 * x2 * y1 * y2),
   (y1 * y2 + x1 * x2) / (1 - ed_d * x1 * x2 * y1 * y2)).

(** [P] added to itself [n] times *)
Definition pmul (n : N) (P : point) : point := N.iter n (padd P) pzero.

(** the base point: [y = 4/5], [x] even *)
Definition base_x : F :=
  fmk 15112221349535400772501151409588531511454012693041857206046113283949847762202.
Definition base_y : F := fdiv (fmk 4) (fmk 5).
Definition base : point := (base_x, base_y).

(** the order of the base point *)
Definition ed_L : N := (2 ^ 252 + 27742317777372353535851937790883648493)%N.
