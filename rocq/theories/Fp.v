(** The field of integers modulo [2^255 - 19]. *)

From Coq Require Import ZArith Znumtheory Bool Lia Eqdep_dec Field.
From Verif Require Import Prime.
Local Open Scope Z_scope.

Definition fp : Z := 57896044618658097711785492504343953926634992332820282019728792003956564819949.

Lemma fp_eq : fp = 2 ^ 255 - 19.
Proof. reflexivity. Qed.

Lemma fp_prime : prime fp.
Proof. rewrite fp_eq. exact prime_25519. Qed.

Lemma fp_pos : 1 < fp.
Proof. reflexivity. Qed.

Lemma fp_nz : fp <> 0.
Proof. discriminate. Qed.

(** ** Reduction *)

(** [x mod (2^255 - 19)], faster than the general remainder: [2^255 = 19]. *)
Definition fold_25519 (x : Z) : Z := Z.land x (Z.ones 255) + 19 * Z.shiftr x 255.
Definition reduce (x : Z) : Z :=
  let y := fold_25519 (fold_25519 x) in
  if (0 <=? y) && (y <? fp) then y
  else if (fp <=? y) && (y <? 2 * fp) then y - fp
  else x mod fp.

Lemma fold_25519_mod : forall x, (fold_25519 x) mod fp = x mod fp.
Proof.
  intros x. unfold fold_25519. rewrite Z.land_ones, Z.shiftr_div_pow2 by lia.
  apply divide_mod_eq; [discriminate|]. exists (- (x / 2 ^ 255)).
  rewrite fp_eq. pose proof (Z.div_mod x (2 ^ 255) ltac:(lia)). lia.
Qed.

Lemma reduce_spec : forall x, reduce x = x mod fp.
Proof.
  intros x. unfold reduce. cbv zeta.
  assert (E : (fold_25519 (fold_25519 x)) mod fp = x mod fp) by now rewrite !fold_25519_mod.
  revert E. generalize (fold_25519 (fold_25519 x)). intros y E.
  destruct ((0 <=? y) && (y <? fp)) eqn:C.
  - apply andb_true_iff in C. destruct C as [C1 C2].
    apply Z.leb_le in C1. apply Z.ltb_lt in C2. rewrite <- E. symmetry. now apply Z.mod_small.
  - destruct ((fp <=? y) && (y <? 2 * fp)) eqn:C'; [|reflexivity].
    apply andb_true_iff in C'. destruct C' as [C1 C2].
    apply Z.leb_le in C1. apply Z.ltb_lt in C2. rewrite <- E.
    replace y with ((y - fp) + 1 * fp) at 2 by lia. rewrite Z.mod_add by discriminate.
    symmetry. apply Z.mod_small. lia.
Qed.

(** ** Elements *)

Record F : Type := MkF { fz : Z; fz_ok : (0 <=? fz) && (fz <? fp) = true }.

Lemma F_eq : forall a b, fz a = fz b -> a = b.
Proof.
  intros [a ha] [b hb] H; cbn in H; subst b. f_equal. apply UIP_dec, bool_dec.
Qed.

Lemma F_range : forall a, 0 <= fz a < fp.
Proof.
  intros [a ha]; cbn [fz]. apply andb_true_iff in ha. destruct ha as [h1 h2].
  apply Z.leb_le in h1. apply Z.ltb_lt in h2. lia.
Qed.

Lemma reduce_ok : forall x, (0 <=? reduce x) && (reduce x <? fp) = true.
Proof.
  intros x. rewrite reduce_spec. pose proof (Z.mod_pos_bound x fp ltac:(reflexivity)) as B.
  apply andb_true_iff. split; [apply Z.leb_le|apply Z.ltb_lt]; lia.
Qed.

Definition fmk (x : Z) : F := MkF (reduce x) (reduce_ok x).

Lemma fz_fmk : forall x, fz (fmk x) = x mod fp.
Proof. intros x. apply reduce_spec. Qed.

Lemma fmk_fz : forall a, fmk (fz a) = a.
Proof.
  intros a. apply F_eq. rewrite fz_fmk. apply Z.mod_small, F_range.
Qed.

Lemma fmk_eq : forall x y, fmk x = fmk y <-> x mod fp = y mod fp.
Proof.
  intros x y. split; intros H.
  - rewrite <- !fz_fmk. now rewrite H.
  - apply F_eq. now rewrite !fz_fmk.
Qed.

Definition f0 : F := fmk 0.
Definition f1 : F := fmk 1.
Definition fadd (a b : F) : F := fmk (fz a + fz b).
Definition fsub (a b : F) : F := fmk (fz a - fz b).
Definition fmul (a b : F) : F := fmk (fz a * fz b).
Definition fopp (a : F) : F := fmk (- fz a).
Definition feqb (a b : F) : bool := fz a =? fz b.

(** [a^e] for a positive exponent *)
Fixpoint fpow (a : F) (e : positive) : F :=
  match e with
  | xH => a
  | xO e' => let x := fpow a e' in fmul x x
  | xI e' => let x := fpow a e' in fmul (fmul x x) a
  end.

Definition fp_minus_2 : positive := Z.to_pos (fp - 2).
Definition finv (a : F) : F := fpow a fp_minus_2.
Definition fdiv (a b : F) : F := fmul a (finv b).

Lemma fadd_mk : forall x y, fadd (fmk x) (fmk y) = fmk (x + y).
Proof. intros. apply fmk_eq. rewrite !fz_fmk. symmetry. apply Z.add_mod, fp_nz. Qed.
Lemma fsub_mk : forall x y, fsub (fmk x) (fmk y) = fmk (x - y).
Proof. intros. apply fmk_eq. rewrite !fz_fmk. symmetry. apply Zminus_mod. Qed.
Lemma fmul_mk : forall x y, fmul (fmk x) (fmk y) = fmk (x * y).
Proof. intros. apply fmk_eq. rewrite !fz_fmk. symmetry. apply Z.mul_mod, fp_nz. Qed.
Lemma fopp_mk : forall x, fopp (fmk x) = fmk (- x).
Proof.
  intros. apply fmk_eq. rewrite fz_fmk. rewrite <- Z.sub_0_l, <- (Z.sub_0_l x).
  now rewrite Zminus_mod_idemp_r.
Qed.

Lemma feqb_eq : forall a b, feqb a b = true <-> a = b.
Proof.
  intros a b. unfold feqb. rewrite Z.eqb_eq. split; [apply F_eq|now intros ->].
Qed.

Lemma F_dec : forall a b : F, {a = b} + {a <> b}.
Proof.
  intros a b. destruct (feqb a b) eqn:E; [left; now apply feqb_eq|right; intros H].
  apply feqb_eq in H. congruence.
Qed.

Ltac lift a := rewrite <- (fmk_fz a).

Lemma F_ring : ring_theory f0 f1 fadd fmul fsub fopp eq.
Proof.
  unfold f0, f1. constructor; intros;
    repeat match goal with a : F |- _ => rewrite <- (fmk_fz a); generalize (fz a); clear a; intros a end;
    rewrite ?fadd_mk, ?fmul_mk, ?fopp_mk, ?fsub_mk, ?fadd_mk, ?fmul_mk; f_equal; ring.
Qed.

Lemma fpow_spec : forall a e, fpow a e = fmk (fz a ^ Zpos e).
Proof.
  intros a e. induction e as [e IH|e IH|]; cbn [fpow].
  - rewrite IH. replace (Zpos e~1) with (Zpos e + Zpos e + 1) by lia.
    rewrite !Z.pow_add_r, Z.pow_1_r by lia. rewrite fmul_mk.
    now rewrite <- (fmul_mk _ (fz a)), fmk_fz.
  - rewrite IH. replace (Zpos e~0) with (Zpos e + Zpos e) by lia.
    rewrite Z.pow_add_r by lia. apply fmul_mk.
  - now rewrite Z.pow_1_r, fmk_fz.
Qed.

Lemma fz_0 : forall a, fz a = 0 <-> a = f0.
Proof.
  intros a. split; intros H; [apply F_eq; now rewrite H|now subst].
Qed.

Lemma f_not_divide : forall a, a <> f0 -> ~ (fp | fz a).
Proof.
  intros a Ha D. apply Ha, fz_0. pose proof (F_range a) as R.
  destruct (Z.eq_dec (fz a) 0) as [|N]; [assumption|]. apply Z.divide_pos_le in D; lia.
Qed.

Definition fp_minus_1 : positive := Z.to_pos (fp - 1).

Lemma f_fermat : forall a, a <> f0 -> fpow a fp_minus_1 = f1.
Proof.
  intros a Ha. rewrite fpow_spec. apply fmk_eq.
  change (Zpos fp_minus_1) with (fp - 1).
  rewrite fermat; [reflexivity|apply fp_prime|now apply f_not_divide].
Qed.

Lemma fpow_succ : forall a e, fpow a (Pos.succ e) = fmul (fpow a e) a.
Proof.
  intros a e. rewrite !fpow_spec. rewrite Pos2Z.inj_succ, Z.pow_succ_r by lia.
  rewrite Z.mul_comm, <- (fmul_mk _ (fz a)), fmk_fz. reflexivity.
Qed.

Lemma fpow_add : forall a e e', fpow a (e + e') = fmul (fpow a e) (fpow a e').
Proof.
  intros. rewrite !fpow_spec, fmul_mk. rewrite Pos2Z.inj_add, Z.pow_add_r by lia. reflexivity.
Qed.

Lemma fpow_mul : forall a e e', fpow a (e * e') = fpow (fpow a e) e'.
Proof.
  intros a e e'. rewrite !(fpow_spec a). rewrite fpow_spec, fz_fmk. apply fmk_eq.
  rewrite Pos2Z.inj_mul, Z.pow_mul_r by lia.
  pose proof (powm_pos_spec fp (fz a ^ Zpos e) e' fp_nz) as P.
  pose proof (powm_pos_spec fp ((fz a ^ Zpos e) mod fp) e' fp_nz) as Q.
  rewrite <- P, <- Q. clear P Q. generalize (fz a ^ Zpos e). intros x.
  induction e' as [q IH|q IH|]; cbn [powm_pos].
  - rewrite IH. rewrite Z.mul_mod_idemp_r by apply fp_nz. reflexivity.
  - now rewrite IH.
  - now rewrite Z.mod_mod by apply fp_nz.
Qed.

Lemma finv_l : forall a, a <> f0 -> fmul (finv a) a = f1.
Proof.
  intros a Ha. unfold finv. rewrite <- fpow_succ. now apply f_fermat.
Qed.

Lemma f1_f0 : f1 <> f0.
Proof. intros H. apply fmk_eq in H. discriminate. Qed.

Lemma F_field : field_theory f0 f1 fadd fmul fsub fopp fdiv finv eq.
Proof.
  constructor; [exact F_ring|exact f1_f0|reflexivity|exact finv_l].
Qed.

Add Field F_field_inst : F_field.

Declare Scope F_scope.
Delimit Scope F_scope with F.
Bind Scope F_scope with F.
Infix "+" := fadd : F_scope.
Infix "-" := fsub : F_scope.
Infix "*" := fmul : F_scope.
Infix "/" := fdiv : F_scope.
Notation "- x" := (fopp x) : F_scope.
Notation "0" := f0 : F_scope.
Notation "1" := f1 : F_scope.
Local Open Scope F_scope.

Lemma f_integral : forall a b : F, a * b = 0 -> a = 0 \/ b = 0.
Proof.
  intros a b H. destruct (F_dec a 0) as [|N]; [now left|right].
  replace b with (finv a * (a * b)) by (field; assumption). rewrite H. ring.
Qed.

Lemma f_mul_nz : forall a b : F, a <> 0 -> b <> 0 -> a * b <> 0.
Proof. intros a b Ha Hb H. apply f_integral in H. tauto. Qed.

Lemma f_mul_cancel : forall c a b : F, c <> 0 -> c * a = c * b -> a = b.
Proof.
  intros c a b Hc H. replace a with (finv c * (c * a)) by (field; assumption).
  rewrite H. field; assumption.
Qed.

Lemma f_sub_0 : forall a b : F, a - b = 0 -> a = b.
Proof. intros a b H. replace a with (a - b + b) by ring. rewrite H. ring. Qed.

Lemma f_square_eq : forall a b : F, a * a = b * b -> a = b \/ a = - b.
Proof.
  intros a b H. assert (E : (a - b) * (a + b) = 0).
  { replace ((a - b) * (a + b)) with (a * a - b * b) by ring. rewrite H. ring. }
  apply f_integral in E. destruct E as [E|E]; [left; now apply f_sub_0|right].
  apply f_sub_0. rewrite <- E. ring.
Qed.

Lemma f2_nz : 1 + 1 <> 0.
Proof. intros H. unfold f1 in H. rewrite fadd_mk in H. apply fmk_eq in H. discriminate. Qed.

Lemma fpow_fmul : forall (a b : F) e, fpow (a * b) e = fpow a e * fpow b e.
Proof.
  intros a b e. induction e as [e IH|e IH|]; cbn [fpow]; [| |reflexivity]; rewrite IH; ring.
Qed.

Lemma fpow_1 : forall e, fpow 1 e = 1.
Proof. intros e. induction e as [e IH|e IH|]; cbn [fpow]; [| |reflexivity]; rewrite IH; ring. Qed.

Lemma fpow_nz : forall (a : F) e, a <> 0 -> fpow a e <> 0.
Proof.
  intros a e H. induction e as [e IH|e IH|]; cbn [fpow]; [| |assumption];
    repeat apply f_mul_nz; assumption.
Qed.
