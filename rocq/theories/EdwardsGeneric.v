(** The addition law of a twisted Edwards curve [-x^2 + y^2 = 1 + d x^2 y^2] over a field in
    which [-1] is a square and [d] is not: it is defined everywhere, stays on the curve and is
    associative. *)

From Coq Require Import Field Ring Setoid ZArith.

Section Edwards.
  Variable F : Type.
  Variables (f0 f1 : F) (fadd fmul fsub : F -> F -> F) (fopp : F -> F)
            (fdiv : F -> F -> F) (finv : F -> F).
  Hypothesis Fth : field_theory f0 f1 fadd fmul fsub fopp fdiv finv eq.
  Hypothesis F_dec : forall a b : F, {a = b} + {a <> b}.

  Add Field F_field_gen : Fth.

  Local Infix "+" := fadd.
  Local Infix "-" := fsub.
  Local Infix "*" := fmul.
  Local Infix "/" := fdiv.
  Local Notation "- x" := (fopp x).
  Local Notation "0" := f0.
  Local Notation "1" := f1.

  Variables d i : F.
  Hypothesis Hi : i * i = - (1).
  Hypothesis two_nz : 1 + 1 <> 0.
  Hypothesis d_nonsquare : forall s, s * s <> d.

  Let one_nz : 1 <> 0 := F_1_neq_0 Fth.

  Lemma g_integral : forall a b, a * b = 0 -> a = 0 \/ b = 0.
  Proof.
    intros a b H. destruct (F_dec a 0) as [|N]; [now left|right].
    replace b with (finv a * (a * b)) by (field; assumption). rewrite H. ring.
  Qed.

  Lemma g_mul_nz : forall a b, a <> 0 -> b <> 0 -> a * b <> 0.
  Proof. intros a b Ha Hb H. apply g_integral in H. tauto. Qed.

  Lemma g_cancel : forall c a b, c <> 0 -> c * a = c * b -> a = b.
  Proof.
    intros c a b Hc H. replace a with (finv c * (c * a)) by (field; assumption).
    rewrite H. field; assumption.
  Qed.

  Lemma d_nz : d <> 0.
  Proof. intros H. apply (d_nonsquare 0). rewrite H. ring. Qed.

  Definition curve (x y : F) : Prop := y * y - x * x = 1 + d * (x * x) * (y * y).

  Lemma complete_aux : forall x1 y1 x2 y2 e,
    curve x1 y1 -> curve x2 y2 -> e = d * x1 * x2 * y1 * y2 -> e * e <> 1.
  Proof.
    intros x1 y1 x2 y2 e H1 H2 He E. unfold curve in H1, H2.
    assert (Hne : e <> 0).
    { intros Z. apply one_nz. rewrite <- E, Z. ring. }
    assert (Hx1 : x1 <> 0) by (intros Z; apply Hne; rewrite He, Z; ring).
    assert (Hx2 : x2 <> 0) by (intros Z; apply Hne; rewrite He, Z; ring).
    assert (Hy1 : y1 <> 0) by (intros Z; apply Hne; rewrite He, Z; ring).
    assert (Hy2 : y2 <> 0) by (intros Z; apply Hne; rewrite He, Z; ring).
    assert (Hinz : i <> 0).
    { intros Z. apply one_nz. transitivity (- (i * i)); [rewrite Hi|rewrite Z]; ring. }
    assert (K : forall s, s * s = 1 ->
      (i * x1 + s * e * y1) * (i * x1 + s * e * y1) =
      d * (x1 * y1) * (x1 * y1) * (i * x2 + s * y2) * (i * x2 + s * y2)).
    { intros s Hs.
      assert (A : y1 * y1 - x1 * x1 = d * (x1 * x1) * (y1 * y1) * (y2 * y2 - x2 * x2)).
      { rewrite H2.
        replace (d * (x1 * x1) * (y1 * y1) * (1 + d * (x2 * x2) * (y2 * y2)))
          with (d * (x1 * x1) * (y1 * y1) +
                (d * x1 * x2 * y1 * y2) * (d * x1 * x2 * y1 * y2)) by ring.
        rewrite <- He, E, H1. ring. }
      replace ((i * x1 + s * e * y1) * (i * x1 + s * e * y1))
        with ((i * i) * (x1 * x1) + (s * s) * (e * e) * (y1 * y1) + (1 + 1) * i * s * e * x1 * y1)
        by ring.
      rewrite Hi, Hs, E.
      replace (- (1) * (x1 * x1) + 1 * 1 * (y1 * y1) + (1 + 1) * i * s * e * x1 * y1)
        with ((y1 * y1 - x1 * x1) + (1 + 1) * i * s * e * x1 * y1) by ring.
      rewrite A, He.
      replace (d * (x1 * y1) * (x1 * y1) * (i * x2 + s * y2) * (i * x2 + s * y2))
        with (d * (x1 * x1) * (y1 * y1) *
              ((i * i) * (x2 * x2) + (s * s) * (y2 * y2) + (1 + 1) * i * s * x2 * y2)) by ring.
      rewrite Hi, Hs. ring. }
    assert (N : forall s, s * s = 1 -> i * x2 + s * y2 = 0).
    { intros s Hs. destruct (F_dec (i * x2 + s * y2) 0) as [Z|Z]; [assumption|exfalso].
      specialize (K s Hs).
      apply (d_nonsquare ((i * x1 + s * e * y1) / (x1 * y1 * (i * x2 + s * y2)))).
      replace (((i * x1 + s * e * y1) / (x1 * y1 * (i * x2 + s * y2))) *
               ((i * x1 + s * e * y1) / (x1 * y1 * (i * x2 + s * y2))))
        with (((i * x1 + s * e * y1) * (i * x1 + s * e * y1)) /
              ((x1 * y1 * (i * x2 + s * y2)) * (x1 * y1 * (i * x2 + s * y2))))
        by (field; repeat split; assumption).
      rewrite K. field. repeat split; assumption. }
    pose proof (N 1 ltac:(ring)) as N1. pose proof (N (- (1)) ltac:(ring)) as N2.
    assert (Z : (1 + 1) * (i * x2) = 0).
    { replace ((1 + 1) * (i * x2)) with ((i * x2 + 1 * y2) + (i * x2 + - (1) * y2)) by ring.
      rewrite N1, N2. ring. }
    apply g_integral in Z. destruct Z as [Z|Z]; [now apply two_nz|].
    revert Z. now apply g_mul_nz.
  Qed.

  Lemma complete_plus : forall x1 y1 x2 y2, curve x1 y1 -> curve x2 y2 ->
    1 + d * x1 * x2 * y1 * y2 <> 0.
  Proof.
    intros x1 y1 x2 y2 H1 H2 H.
    apply (complete_aux x1 y1 x2 y2 (d * x1 * x2 * y1 * y2) H1 H2 eq_refl).
    replace (d * x1 * x2 * y1 * y2) with (1 + d * x1 * x2 * y1 * y2 - 1) by ring.
    rewrite H. ring.
  Qed.

  Lemma complete_minus : forall x1 y1 x2 y2, curve x1 y1 -> curve x2 y2 ->
    1 - d * x1 * x2 * y1 * y2 <> 0.
  Proof.
    intros x1 y1 x2 y2 H1 H2 H.
    apply (complete_aux x1 y1 x2 y2 (d * x1 * x2 * y1 * y2) H1 H2 eq_refl).
    replace (d * x1 * x2 * y1 * y2) with (1 - (1 - d * x1 * x2 * y1 * y2)) by ring.
    rewrite H. ring.
  Qed.

  (** ** The sum *)

  Definition sum_x (x1 y1 x2 y2 : F) : F := (x1 * y2 + x2 * y1) / (1 + d * x1 * x2 * y1 * y2).
  Definition sum_y (x1 y1 x2 y2 : F) : F := (y1 * y2 + x1 * x2) / (1 - d * x1 * x2 * y1 * y2).

  (** the curve equation in the form used for rewriting *)
  Lemma curve_rw : forall x y, curve x y -> d * (x * x) * (y * y) = y * y - x * x - 1.
  Proof. intros x y H. unfold curve in H. rewrite H. ring. Qed.

  Lemma closed : forall x1 y1 x2 y2, curve x1 y1 -> curve x2 y2 ->
    curve (sum_x x1 y1 x2 y2) (sum_y x1 y1 x2 y2).
  Proof.
    intros x1 y1 x2 y2 H1 H2.
    pose proof (complete_plus x1 y1 x2 y2 H1 H2) as P.
    pose proof (complete_minus x1 y1 x2 y2 H1 H2) as M.
    apply curve_rw in H1. apply curve_rw in H2.
    unfold curve, sum_x, sum_y.
    set (B := 1 + d * x1 * x2 * y1 * y2) in *. set (E := 1 - d * x1 * x2 * y1 * y2) in *.
    set (A := x1 * y2 + x2 * y1). set (C := y1 * y2 + x1 * x2).
    assert (K : (C * B) * (C * B) - (A * E) * (A * E) = (B * E) * (B * E) + d * (A * A) * (C * C)).
    { unfold A, B, C, E. apply (g_cancel (d * d)); [apply g_mul_nz; apply d_nz|].
      ring [H1 H2]. }
    apply (g_cancel ((B * E) * (B * E))); [repeat apply g_mul_nz; assumption|].
    transitivity ((C * B) * (C * B) - (A * E) * (A * E)); [field; split; assumption|].
    rewrite K. field; split; assumption.
  Qed.

  Lemma nz_eq : forall a b, a <> 0 -> a = b -> b <> 0.
  Proof. intros a b H <-. exact H. Qed.

  Lemma assoc : forall x1 y1 x2 y2 x3 y3, curve x1 y1 -> curve x2 y2 -> curve x3 y3 ->
    sum_x (sum_x x1 y1 x2 y2) (sum_y x1 y1 x2 y2) x3 y3 =
    sum_x x1 y1 (sum_x x2 y2 x3 y3) (sum_y x2 y2 x3 y3) /\
    sum_y (sum_x x1 y1 x2 y2) (sum_y x1 y1 x2 y2) x3 y3 =
    sum_y x1 y1 (sum_x x2 y2 x3 y3) (sum_y x2 y2 x3 y3).
  Proof.
    intros x1 y1 x2 y2 x3 y3 H1 H2 H3.
    pose proof (complete_plus x1 y1 x2 y2 H1 H2) as P12.
    pose proof (complete_minus x1 y1 x2 y2 H1 H2) as M12.
    pose proof (complete_plus x2 y2 x3 y3 H2 H3) as P23.
    pose proof (complete_minus x2 y2 x3 y3 H2 H3) as M23.
    pose proof (closed x1 y1 x2 y2 H1 H2) as H12.
    pose proof (closed x2 y2 x3 y3 H2 H3) as H23.
    pose proof (complete_plus _ _ _ _ H12 H3) as PL.
    pose proof (complete_minus _ _ _ _ H12 H3) as ML.
    pose proof (complete_plus _ _ _ _ H1 H23) as PR.
    pose proof (complete_minus _ _ _ _ H1 H23) as MR.
    clear H12 H23.
    apply curve_rw in H1. apply curve_rw in H2. apply curve_rw in H3.
    unfold sum_x, sum_y in *.
    set (B := 1 + d * x1 * x2 * y1 * y2) in *. set (E := 1 - d * x1 * x2 * y1 * y2) in *.
    set (A := x1 * y2 + x2 * y1) in *. set (C := y1 * y2 + x1 * x2) in *.
    set (B' := 1 + d * x2 * x3 * y2 * y3) in *. set (E' := 1 - d * x2 * x3 * y2 * y3) in *.
    set (A' := x2 * y3 + x3 * y2) in *. set (C' := y2 * y3 + x2 * x3) in *.
    assert (DL1 : B * E + d * A * C * x3 * y3 <> 0).
    { intros Z. apply PL. apply (g_cancel (B * E)); [now apply g_mul_nz|].
      transitivity (B * E + d * A * C * x3 * y3); [field; split; assumption|]. rewrite Z. ring. }
    assert (DL2 : B * E - d * A * C * x3 * y3 <> 0).
    { intros Z. apply ML. apply (g_cancel (B * E)); [now apply g_mul_nz|].
      transitivity (B * E - d * A * C * x3 * y3); [field; split; assumption|]. rewrite Z. ring. }
    assert (DR1 : B' * E' + d * A' * C' * x1 * y1 <> 0).
    { intros Z. apply PR. apply (g_cancel (B' * E')); [now apply g_mul_nz|].
      transitivity (B' * E' + d * A' * C' * x1 * y1); [field; split; assumption|].
      rewrite Z. ring. }
    assert (DR2 : B' * E' - d * A' * C' * x1 * y1 <> 0).
    { intros Z. apply MR. apply (g_cancel (B' * E')); [now apply g_mul_nz|].
      transitivity (B' * E' - d * A' * C' * x1 * y1); [field; split; assumption|].
      rewrite Z. ring. }
    assert (K1 : (A * E * y3 + x3 * C * B) * (B' * E' + d * A' * C' * x1 * y1) =
                 (x1 * C' * B' + A' * E' * y1) * (B * E + d * A * C * x3 * y3)).
    { unfold A, B, C, E, A', B', C', E'.
      apply (g_cancel (d * d)); [apply g_mul_nz; apply d_nz|].
      ring [H1 H2 H3]. }
    assert (K2 : (C * B * y3 + A * E * x3) * (B' * E' - d * A' * C' * x1 * y1) =
                 (y1 * C' * B' + x1 * A' * E') * (B * E - d * A * C * x3 * y3)).
    { unfold A, B, C, E, A', B', C', E'.
      apply (g_cancel (d * d)); [apply g_mul_nz; apply d_nz|].
      ring [H1 H2 H3]. }
    split.
    - transitivity ((A * E * y3 + x3 * C * B) / (B * E + d * A * C * x3 * y3)).
      { field; repeat split; try assumption; (apply (nz_eq _ _ DL1); ring). }
      transitivity ((x1 * C' * B' + A' * E' * y1) / (B' * E' + d * A' * C' * x1 * y1)).
      2: { field; repeat split; try assumption; (apply (nz_eq _ _ DR1); ring). }
      apply (g_cancel ((B * E + d * A * C * x3 * y3) * (B' * E' + d * A' * C' * x1 * y1)));
        [now apply g_mul_nz|].
      transitivity ((A * E * y3 + x3 * C * B) * (B' * E' + d * A' * C' * x1 * y1));
        [field; assumption|]. rewrite K1. field; assumption.
    - transitivity ((C * B * y3 + A * E * x3) / (B * E - d * A * C * x3 * y3)).
      { field; repeat split; try assumption; (apply (nz_eq _ _ DL2); ring). }
      transitivity ((y1 * C' * B' + x1 * A' * E') / (B' * E' - d * A' * C' * x1 * y1)).
      2: { field; repeat split; try assumption; (apply (nz_eq _ _ DR2); ring). }
      apply (g_cancel ((B * E - d * A * C * x3 * y3) * (B' * E' - d * A' * C' * x1 * y1)));
        [now apply g_mul_nz|].
      transitivity ((C * B * y3 + A * E * x3) * (B' * E' - d * A' * C' * x1 * y1));
        [field; assumption|]. rewrite K2. field; assumption.
  Qed.

  (** ** Extended coordinates: [x = X/Z], [y = Y/Z], [xy = T/Z] *)

  Definition rep (X Y Z T x y : F) : Prop := Z <> 0 /\ X = x * Z /\ Y = y * Z /\ T = x * y * Z.

  Lemma ext_add : forall X1 Y1 Z1 T1 X2 Y2 Z2 T2 x1 y1 x2 y2,
    curve x1 y1 -> curve x2 y2 -> rep X1 Y1 Z1 T1 x1 y1 -> rep X2 Y2 Z2 T2 x2 y2 ->
    let A := (Y1 - X1) * (Y2 - X2) in
    let B := (Y1 + X1) * (Y2 + X2) in
    let C := T1 * (d + d) * T2 in
    let D := Z1 * (Z2 + Z2) in
    rep ((B - A) * (D - C)) ((D + C) * (B + A)) ((D - C) * (D + C)) ((B - A) * (B + A))
        (sum_x x1 y1 x2 y2) (sum_y x1 y1 x2 y2).
  Proof.
    intros X1 Y1 Z1 T1 X2 Y2 Z2 T2 x1 y1 x2 y2 H1 H2 (N1 & -> & -> & ->) (N2 & -> & -> & ->).
    cbv zeta.
    pose proof (complete_plus x1 y1 x2 y2 H1 H2) as P.
    pose proof (complete_minus x1 y1 x2 y2 H1 H2) as M.
    unfold sum_x, sum_y. repeat split.
    - apply (nz_eq ((1 + 1) * (1 + 1) * (Z1 * Z2) * (Z1 * Z2) *
                    (1 + d * x1 * x2 * y1 * y2) * (1 - d * x1 * x2 * y1 * y2)));
        [|ring]. repeat apply g_mul_nz; assumption.
    - field; assumption.
    - field; assumption.
    - field; split; assumption.
  Qed.

  Lemma curve_zero : curve 0 1.
  Proof. unfold curve. ring. Qed.

  Lemma curve_neg : forall x y, curve x y -> curve (- x) y.
  Proof.
    intros x y H. unfold curve in *. replace (- x * - x) with (x * x) by ring. exact H.
  Qed.

  Lemma sum_zero : forall x y, sum_x 0 1 x y = x /\ sum_y 0 1 x y = y.
  Proof.
    intros x y. unfold sum_x, sum_y. split; field; intros E; apply one_nz; rewrite <- E; ring.
  Qed.

  Lemma sum_neg : forall x y, curve x y -> sum_x x y (- x) y = 0 /\ sum_y x y (- x) y = 1.
  Proof.
    intros x y H. pose proof (curve_neg x y H) as H'.
    pose proof (complete_plus x y (- x) y H H') as P.
    pose proof (complete_minus x y (- x) y H H') as M.
    unfold sum_x, sum_y. split.
    - field. exact P.
    - apply (g_cancel (1 - d * x * - x * y * y)); [exact M|].
      transitivity (y * y - x * x); [field; exact M|]. unfold curve in H. rewrite H. ring.
  Qed.

  Lemma sum_comm : forall x1 y1 x2 y2,
    sum_x x1 y1 x2 y2 = sum_x x2 y2 x1 y1 /\ sum_y x1 y1 x2 y2 = sum_y x2 y2 x1 y1.
  Proof.
    intros. unfold sum_x, sum_y.
    replace (d * x2 * x1 * y2 * y1) with (d * x1 * x2 * y1 * y2) by ring.
    split; f_equal; ring.
  Qed.

  Lemma rep_zero : rep 0 1 1 0 0 1.
  Proof. unfold rep. repeat split; try ring. exact one_nz. Qed.

  Lemma rep_affine : forall x y, rep x y 1 (x * y) x y.
  Proof. intros. unfold rep. repeat split; try ring. exact one_nz. Qed.

  Lemma rep_neg : forall X Y Z T x y, rep X Y Z T x y -> rep (- X) Y Z (- T) (- x) y.
  Proof.
    intros X Y Z T x y (N & -> & -> & ->). unfold rep. repeat split; try ring. exact N.
  Qed.

  Lemma rep_to_affine : forall X Y Z T x y, rep X Y Z T x y -> X / Z = x /\ Y / Z = y.
  Proof. intros X Y Z T x y (N & -> & -> & ->). split; field; exact N. Qed.

  (** two points with the same second coordinate *)
  Lemma curve_same_y : forall x1 x2 y, curve x1 y -> curve x2 y -> x1 * x1 = x2 * x2.
  Proof.
    intros x1 x2 y H1 H2. unfold curve in *.
    assert (N : d * (y * y) + 1 <> 0).
    { intros E. destruct (F_dec y 0) as [Z|Z].
      - apply one_nz. rewrite <- E, Z. ring.
      - apply (d_nonsquare (i / y)).
        transitivity ((i * i) / (y * y)); [field; exact Z|]. rewrite Hi.
        apply (g_cancel (y * y)); [now apply g_mul_nz|].
        transitivity (- (1)); [field; exact Z|].
        transitivity (d * (y * y) - (d * (y * y) + 1)); [ring|]. rewrite E. ring. }
    apply (g_cancel (d * (y * y) + 1)); [exact N|].
    transitivity (y * y - 1).
    - transitivity (1 + d * (x1 * x1) * (y * y) + x1 * x1 - 1); [ring|]. rewrite <- H1. ring.
    - symmetry.
      transitivity (1 + d * (x2 * x2) * (y * y) + x2 * x2 - 1); [ring|]. rewrite <- H2. ring.
  Qed.

  Lemma curve_uv : forall x y, curve x y <-> (d * (y * y) + 1) * (x * x) = y * y - 1.
  Proof.
    intros x y. unfold curve. split; intros H.
    - transitivity (1 + d * (x * x) * (y * y) + x * x - 1); [ring|]. rewrite <- H. ring.
    - transitivity ((y * y - 1) + 1 - x * x); [ring|]. rewrite <- H. ring.
  Qed.

  Lemma v_nz : forall y, d * (y * y) + 1 <> 0.
  Proof.
    intros y E. destruct (F_dec y 0) as [Z|Z].
    - apply one_nz. rewrite <- E, Z. ring.
    - apply (d_nonsquare (i / y)).
      transitivity ((i * i) / (y * y)); [field; exact Z|]. rewrite Hi.
      apply (g_cancel (y * y)); [now apply g_mul_nz|].
      transitivity (- (1)); [field; exact Z|].
      transitivity (d * (y * y) - (d * (y * y) + 1)); [ring|]. rewrite E. ring.
  Qed.
End Edwards.
