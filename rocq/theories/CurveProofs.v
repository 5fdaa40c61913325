(** The points of the curve of Ed25519 form a commutative group. *)

From Coq Require Import ZArith NArith Lia.
From Verif Require Import Prime Fp SpecCurve EdwardsGeneric.
Local Open Scope F_scope.

(** ** [d] is not a square, [-1] is *)

Definition half : positive := Z.to_pos ((fp - 1) / 2).

Lemma half_half : (half + half)%positive = fp_minus_1.
Proof. vm_compute. reflexivity. Qed.

Lemma half_pow : forall a : F, a <> 0 -> fpow a half = 1 \/ fpow a half = - (1).
Proof.
  intros a Ha. apply f_square_eq. rewrite <- fpow_add, half_half.
  rewrite f_fermat by assumption. ring.
Qed.

Lemma square_half_pow : forall s : F, s <> 0 -> fpow (s * s) half = 1.
Proof.
  intros s Hs. rewrite fpow_fmul, <- fpow_add, half_half. now apply f_fermat.
Qed.

Lemma d_half_pow : fpow ed_d half = - (1).
Proof. apply feqb_eq. vm_compute. reflexivity. Qed.

Lemma feqb_refl : forall a, feqb a a = true.
Proof. intros a. now apply feqb_eq. Qed.

Lemma ed_d_nz : ed_d <> 0.
Proof.
  intros H. assert (E : feqb ed_d 0 = false) by (vm_compute; reflexivity).
  rewrite H, feqb_refl in E. discriminate.
Qed.

Lemma minus_1_neq_1 : 1 <> - (1).
Proof.
  intros H. apply f2_nz. transitivity (1 + - (1)); [|ring]. now rewrite <- H.
Qed.

Lemma d_nonsquare : forall s : F, s * s <> ed_d.
Proof.
  intros s H. assert (Hs : s <> 0).
  { intros ->. apply ed_d_nz. rewrite <- H. ring. }
  pose proof (square_half_pow s Hs) as P. rewrite H, d_half_pow in P.
  symmetry in P. now apply minus_1_neq_1 in P.
Qed.

(** a square root of -1 *)
Definition sqrt_m1 : F :=
  fmk 19681161376707505956807079304988542015446066515923890162744021073123829784752.

Lemma sqrt_m1_spec : sqrt_m1 * sqrt_m1 = - (1).
Proof. apply feqb_eq. vm_compute. reflexivity. Qed.

(** ** The group *)

Notation curve_eq := (curve F f1 fadd fmul fsub ed_d).

Lemma on_curve_eq : forall x y, on_curve (x, y) <-> curve_eq x y.
Proof. intros x y. reflexivity. Qed.

Lemma padd_closed : forall P Q, on_curve P -> on_curve Q -> on_curve (padd P Q).
Proof.
  intros [x1 y1] [x2 y2] H1 H2.
  exact (closed F f0 f1 fadd fmul fsub fopp fdiv finv F_field F_dec ed_d sqrt_m1 sqrt_m1_spec
           f2_nz d_nonsquare x1 y1 x2 y2 H1 H2).
Qed.

Lemma padd_assoc : forall P Q R, on_curve P -> on_curve Q -> on_curve R ->
  padd (padd P Q) R = padd P (padd Q R).
Proof.
  intros [x1 y1] [x2 y2] [x3 y3] H1 H2 H3.
  pose proof (assoc F f0 f1 fadd fmul fsub fopp fdiv finv F_field F_dec ed_d sqrt_m1 sqrt_m1_spec
           f2_nz d_nonsquare x1 y1 x2 y2 x3 y3 H1 H2 H3) as [X Y].
  unfold padd. unfold sum_x, sum_y in X, Y. now rewrite X, Y.
Qed.




Lemma padd_comm : forall P Q, padd P Q = padd Q P.
Proof.
  intros [x1 y1] [x2 y2].
  pose proof (sum_comm F f0 f1 fadd fmul fsub fopp fdiv finv F_field ed_d x1 y1 x2 y2) as [X Y].
  unfold sum_x, sum_y in X, Y. unfold padd. now rewrite X, Y.
Qed.

Lemma padd_zero_l : forall P, padd pzero P = P.
Proof.
  intros [x y].
  pose proof (sum_zero F f0 f1 fadd fmul fsub fopp fdiv finv F_field ed_d x y) as [X Y].
  unfold sum_x, sum_y in X, Y. unfold padd, pzero. now rewrite X, Y.
Qed.

Lemma padd_zero_r : forall P, padd P pzero = P.
Proof. intros P. rewrite padd_comm. apply padd_zero_l. Qed.

Lemma pzero_on_curve : on_curve pzero.
Proof. exact (curve_zero F f0 f1 fadd fmul fsub fopp fdiv finv F_field ed_d). Qed.

Lemma pneg_on_curve : forall P, on_curve P -> on_curve (pneg P).
Proof.
  intros [x y] H. exact (curve_neg F f0 f1 fadd fmul fsub fopp fdiv finv F_field ed_d x y H).
Qed.

Lemma padd_neg_r : forall P, on_curve P -> padd P (pneg P) = pzero.
Proof.
  intros [x y] H.
  pose proof (sum_neg F f0 f1 fadd fmul fsub fopp fdiv finv F_field F_dec ed_d sqrt_m1
    sqrt_m1_spec f2_nz d_nonsquare x y H) as [X Y].
  unfold sum_x, sum_y in X, Y. unfold padd, pneg, pzero. now rewrite X, Y.
Qed.

(** ** Multiples *)

Lemma pmul_0 : forall P, pmul 0 P = pzero.
Proof. reflexivity. Qed.

Lemma pmul_succ : forall n P, pmul (N.succ n) P = padd P (pmul n P).
Proof. intros n P. unfold pmul. apply N.iter_succ. Qed.

Lemma pmul_1 : forall P, pmul 1 P = P.
Proof. intros P. change 1%N with (N.succ 0). rewrite pmul_succ, pmul_0. apply padd_zero_r. Qed.

Lemma pmul_on_curve : forall n P, on_curve P -> on_curve (pmul n P).
Proof.
  intros n P H. induction n using N.peano_ind; [apply pzero_on_curve|].
  rewrite pmul_succ. now apply padd_closed.
Qed.

Lemma pmul_add : forall m n P, on_curve P -> pmul (m + n) P = padd (pmul m P) (pmul n P).
Proof.
  intros m n P H. induction m using N.peano_ind; [now rewrite pmul_0, padd_zero_l|].
  rewrite N.add_succ_l, !pmul_succ, IHm. symmetry.
  apply padd_assoc; try assumption; now apply pmul_on_curve.
Qed.

Lemma pmul_zero : forall n, pmul n pzero = pzero.
Proof.
  intros n. induction n using N.peano_ind; [reflexivity|].
  now rewrite pmul_succ, IHn, padd_zero_l.
Qed.

Lemma pmul_mul : forall m n P, on_curve P -> pmul (m * n) P = pmul m (pmul n P).
Proof.
  intros m n P H. induction m using N.peano_ind; [reflexivity|].
  rewrite N.mul_succ_l, N.add_comm, pmul_add, pmul_succ, IHm by assumption. reflexivity.
Qed.

Lemma padd_swap : forall A B C D, on_curve A -> on_curve B -> on_curve C -> on_curve D ->
  padd (padd A B) (padd C D) = padd (padd A C) (padd B D).
Proof.
  intros A B C D HA HB HC HD.
  rewrite (padd_assoc A B) by (try assumption; now apply padd_closed).
  rewrite (padd_assoc A C) by (try assumption; now apply padd_closed).
  f_equal. rewrite <- !padd_assoc by assumption. now rewrite (padd_comm B C).
Qed.

Lemma pmul_padd : forall n P Q, on_curve P -> on_curve Q ->
  pmul n (padd P Q) = padd (pmul n P) (pmul n Q).
Proof.
  intros n P Q HP HQ. induction n using N.peano_ind.
  - now rewrite !pmul_0, padd_zero_l.
  - rewrite !pmul_succ, IHn. apply padd_swap; try assumption; now apply pmul_on_curve.
Qed.

Lemma pmul_neg : forall n P, on_curve P -> padd (pmul n P) (pmul n (pneg P)) = pzero.
Proof.
  intros n P H. rewrite <- pmul_padd by (try assumption; now apply pneg_on_curve).
  now rewrite padd_neg_r, pmul_zero.
Qed.

Lemma pmul_mod : forall n m P, on_curve P -> m <> 0%N -> pmul m P = pzero ->
  pmul (n mod m) P = pmul n P.
Proof.
  intros n m P H Hm Z. rewrite (N.div_mod n m) at 2 by assumption.
  rewrite pmul_add by assumption. rewrite N.mul_comm, pmul_mul, Z, pmul_zero by assumption.
  now rewrite padd_zero_l.
Qed.

Lemma pmul_double : forall n P, on_curve P -> pmul (2 * n) P = padd (pmul n P) (pmul n P).
Proof. intros n P H. rewrite <- pmul_add by assumption. f_equal. lia. Qed.
