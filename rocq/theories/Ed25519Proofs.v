(** The model of Ed25519 computes what RFC 8032 defines. *)

From Coq Require Import ZArith Lia Znumtheory Field.
From Verif Require Import Base Sha2 Prime Fp SpecCurve EdwardsGeneric CurveProofs SpecSign
  Model_ed25519.
Local Open Scope F_scope.

(** ** Extended coordinates *)

Definition repr (e : ext) (P : point) : Prop :=
  rep F f0 fmul (eX e) (eY e) (eZ e) (eT e) (fst P) (snd P).

Lemma ext_plus_ok : forall e e' P Q, on_curve P -> on_curve Q -> repr e P -> repr e' Q ->
  repr (ext_plus e e') (padd P Q).
Proof.
  intros [X1 Y1 Z1 T1] [X2 Y2 Z2 T2] [x1 y1] [x2 y2] H1 H2 R1 R2.
  exact (ext_add F f0 f1 fadd fmul fsub fopp fdiv finv F_field F_dec ed_d CurveProofs.sqrt_m1
           CurveProofs.sqrt_m1_spec f2_nz d_nonsquare X1 Y1 Z1 T1 X2 Y2 Z2 T2 x1 y1 x2 y2 H1 H2 R1 R2).
Qed.

Lemma ext_zero_ok : repr ext_zero pzero.
Proof. exact (rep_zero F f0 f1 fadd fmul fsub fopp fdiv finv F_field). Qed.

Lemma ext_affine_ok : forall x y, repr (MkExt x y 1 (x * y)) (x, y).
Proof. exact (rep_affine F f0 f1 fadd fmul fsub fopp fdiv finv F_field). Qed.

Lemma ext_neg_ok : forall e P, repr e P -> repr (ext_neg e) (pneg P).
Proof.
  intros [X Y Z T] [x y] R.
  exact (rep_neg F f0 f1 fadd fmul fsub fopp fdiv finv F_field X Y Z T x y R).
Qed.

Lemma ext_pmul_ok : forall k e P, on_curve P -> repr e P -> repr (ext_pmul k e) (pmul (Npos k) P).
Proof.
  intros k e P HP R. induction k as [k IH|k IH|]; cbn [ext_pmul].
  - change (Npos k~1) with (N.succ (2 * Npos k)). rewrite pmul_succ, pmul_double by assumption.
    apply ext_plus_ok; try assumption.
    + apply padd_closed; now apply pmul_on_curve.
    + apply ext_plus_ok; try assumption; now apply pmul_on_curve.
  - change (Npos k~0) with (2 * Npos k)%N. rewrite pmul_double by assumption.
    apply ext_plus_ok; try assumption; now apply pmul_on_curve.
  - now rewrite pmul_1.
Qed.

Lemma ext_mul_ok : forall n e P, on_curve P -> repr e P -> repr (ext_mul n e) (pmul n P).
Proof.
  intros [|k] e P HP R; [apply ext_zero_ok|]. now apply ext_pmul_ok.
Qed.

Lemma repr_affine : forall e P, repr e P -> P = (eX e / eZ e, eY e / eZ e).
Proof.
  intros [X Y Z T] [x y] R.
  pose proof (rep_to_affine F f0 f1 fadd fmul fsub fopp fdiv finv F_field X Y Z T x y R) as [E1 E2].
  cbn [eX eY eZ]. now rewrite E1, E2.
Qed.

(** ** The base point *)

Definition on_curveb (P : point) : bool :=
  let (x, y) := P in feqb (y * y - x * x) (1 + ed_d * (x * x) * (y * y)).

Lemma on_curveb_ok : forall P, on_curveb P = true -> on_curve P.
Proof. intros [x y] H. unfold on_curveb in H. now apply feqb_eq in H. Qed.

Lemma base_on_curve : on_curve base.
Proof. apply on_curveb_ok. vm_cast_no_check (eq_refl true). Qed.

Lemma base_repr : repr ext_base base.
Proof. apply ext_affine_ok. Qed.

Definition ext_is_zero (e : ext) : bool :=
  feqb (eX e) 0 && feqb (eY e) (eZ e).

Lemma repr_is_zero : forall e P, repr e P -> ext_is_zero e = true -> P = pzero.
Proof.
  intros e P R H. rewrite (repr_affine e P R). unfold ext_is_zero in H.
  apply andb_true_iff in H. destruct H as [H1 H2]. apply feqb_eq in H1, H2. rewrite H1, H2.
  destruct R as [N _]. unfold pzero. f_equal; field; exact N.
Qed.

Lemma base_order : pmul ed_L base = pzero.
Proof.
  apply (repr_is_zero (ext_mul ed_L ext_base)).
  - apply ext_mul_ok; [apply base_on_curve|apply base_repr].
  - vm_cast_no_check (eq_refl true).
Qed.

Lemma base_nz : base <> pzero.
Proof.
  intros H. assert (E : feqb (fst base) (fst pzero) = false) by (vm_compute; reflexivity).
  rewrite H in E. rewrite feqb_refl in E. discriminate.
Qed.

Lemma ed_L_nz : ed_L <> 0%N.
Proof. discriminate. Qed.

Lemma pmul_mod_L : forall n, pmul (n mod ed_L) base = pmul n base.
Proof. intros n. apply pmul_mod; [apply base_on_curve|apply ed_L_nz|apply base_order]. Qed.

Lemma pmul_base_zero : forall n, pmul n base = pzero -> (n mod ed_L = 0)%N.
Proof.
  intros n H. rewrite <- pmul_mod_L in H.
  pose proof (N.mod_upper_bound n ed_L ed_L_nz) as B.
  set (m := (n mod ed_L)%N) in *. destruct (N.eq_dec m 0) as [|NZ]; [assumption|exfalso].
  assert (P : prime (Z.of_N ed_L)) by exact prime_ed_L.
  assert (RP : rel_prime (Z.of_N m) (Z.of_N ed_L)).
  { apply rel_prime_le_prime; [assumption|]. lia. }
  apply rel_prime_bezout in RP. destruct RP as [u v E].
  assert (K : exists t, ((t * m) mod ed_L = 1)%N).
  { exists (Z.to_N (u mod Z.of_N ed_L)). apply N2Z.inj.
    rewrite N2Z.inj_mod, N2Z.inj_mul by apply ed_L_nz.
    rewrite Z2N.id by (apply Z.mod_pos_bound; reflexivity).
    rewrite Z.mul_mod_idemp_l by discriminate.
    replace (u * Z.of_N m)%Z with (1 + (- v) * Z.of_N ed_L)%Z by lia.
    rewrite Z.mod_add by discriminate. reflexivity. }
  destruct K as [t K]. apply base_nz.
  rewrite <- (pmul_1 base), <- K, pmul_mod_L, pmul_mul by apply base_on_curve.
  rewrite H. apply pmul_zero.
Qed.

Lemma padd_cancel : forall P Q R, on_curve P -> on_curve Q -> on_curve R ->
  padd P Q = padd P R -> Q = R.
Proof.
  intros P Q R HP HQ HR E.
  rewrite <- (padd_zero_l Q), <- (padd_zero_l R).
  rewrite <- (padd_neg_r P HP), (padd_comm P).
  pose proof (pneg_on_curve P HP) as HN.
  rewrite !padd_assoc by assumption. now rewrite E.
Qed.

Lemma pmul_base_inj : forall m n, pmul m base = pmul n base -> (m mod ed_L = n mod ed_L)%N.
Proof.
  assert (G : forall m n, (m < ed_L)%N -> (n < ed_L)%N -> (m <= n)%N ->
    pmul m base = pmul n base -> m = n).
  { intros m n Hm Hn L E. replace n with (m + (n - m))%N in E by lia.
    rewrite pmul_add in E by apply base_on_curve.
    rewrite <- (padd_zero_r (pmul m base)) in E at 1.
    apply padd_cancel in E.
    - symmetry in E. apply pmul_base_zero in E. rewrite N.mod_small in E by lia. lia.
    - apply pmul_on_curve, base_on_curve.
    - apply pzero_on_curve.
    - apply pmul_on_curve, base_on_curve. }
  intros m n E. rewrite <- (pmul_mod_L m), <- (pmul_mod_L n) in E.
  pose proof (N.mod_upper_bound m ed_L ed_L_nz). pose proof (N.mod_upper_bound n ed_L ed_L_nz).
  destruct (N.le_ge_cases (m mod ed_L) (n mod ed_L)); [|symmetry; symmetry in E]; apply G; assumption.
Qed.

(** ** Square roots *)

Definition quarter : positive := Z.to_pos ((fp - 1) / 4).

Lemma p58_quarter : (p58 + p58 + 1)%positive = quarter.
Proof. vm_compute. reflexivity. Qed.
Lemma quarter_half : (quarter + quarter)%positive = half.
Proof. vm_compute. reflexivity. Qed.

Lemma sqrt_m1_sq : sqrt_m1 * sqrt_m1 = - (1).
Proof. exact CurveProofs.sqrt_m1_spec. Qed.

#[local] Opaque p58 quarter half sqrt_m1 fpow.

Lemma fz_opp : forall a, a <> 0 -> fz (- a) = (fp - fz a)%Z.
Proof.
  intros a H. unfold fopp. rewrite fz_fmk. pose proof (F_range a) as R.
  assert (fz a <> 0)%Z by (rewrite fz_0; exact H).
  symmetry. apply Z.mod_unique with (q := (-1)%Z); lia.
Qed.

Lemma negative_opp : forall a, a <> 0 -> f_is_negative (- a) = negb (f_is_negative a).
Proof.
  intros a H. unfold f_is_negative. rewrite fz_opp by assumption.
  rewrite Z.odd_sub. change (Z.odd fp) with true. now destruct (Z.odd (fz a)).
Qed.

Lemma negative_0 : f_is_negative 0 = false.
Proof. reflexivity. Qed.

Lemma sqrt_check : forall u v : F,
  let v3 := v * v * v in
  let r := u * v3 * fpow (u * (v3 * v3 * v)) p58 in
  v * (r * r) = u * fpow (u * (v3 * v3 * v)) quarter.
Proof.
  intros u v v3 r. rewrite <- p58_quarter. rewrite !fpow_add.
  change (fpow (u * (v3 * v3 * v)) 1) with (u * (v3 * v3 * v)).
  unfold r, v3. generalize (fpow (u * (v * v * v * (v * v * v) * v)) p58). intros w. ring.
Qed.

(** what the root is, when there is one *)
Lemma sqrt_ratio_ok : forall u v ok r, sqrt_ratio_i u v = (ok, r) -> v <> 0 ->
  f_is_negative r = false /\
  (ok = true -> v * (r * r) = u) /\
  (forall x, v * (x * x) = u -> ok = true).
Proof.
  intros u v ok r H Hv. unfold sqrt_ratio_i in H. cbv zeta in H.
  pose proof (sqrt_check u v) as C. cbv zeta in C.
  set (r0 := u * (v * v * v) * fpow (u * (v * v * v * (v * v * v) * v)) p58) in *.
  set (q := fpow (u * (v * v * v * (v * v * v) * v)) quarter) in *.
  set (r1 := if (feqb (v * (r0 * r0)) (- u) || feqb (v * (r0 * r0)) (- u * sqrt_m1))%bool
             then sqrt_m1 * r0 else r0) in *.
  assert (Hok : ok = (feqb (v * (r0 * r0)) u || feqb (v * (r0 * r0)) (- u))%bool) by congruence.
  assert (Hr : r = if f_is_negative r1 then - r1 else r1) by congruence.
  clear H. split; [|split].
  - rewrite Hr. destruct (f_is_negative r1) eqn:E; [|assumption].
    rewrite negative_opp; [now rewrite E|]. intros Z. rewrite Z, negative_0 in E. discriminate.
  - intros ->. assert (S : r * r = r1 * r1).
    { rewrite Hr. destruct (f_is_negative r1); ring. }
    rewrite S. unfold r1.
    destruct (feqb (v * (r0 * r0)) (- u)) eqn:E1; cbn [orb].
    + apply feqb_eq in E1.
      transitivity ((sqrt_m1 * sqrt_m1) * (v * (r0 * r0))); [ring|]. rewrite E1, sqrt_m1_sq. ring.
    + symmetry in Hok. rewrite orb_false_r in Hok. apply feqb_eq in Hok.
      destruct (feqb (v * (r0 * r0)) (- u * sqrt_m1)) eqn:E2; [|assumption].
      apply feqb_eq in E2. rewrite Hok in E2.
      (* only possible for 0 *)
      assert (u = 0).
      { assert (K : u * (1 + sqrt_m1) = 0).
        { transitivity (u - (- u * sqrt_m1)); [ring|]. rewrite <- E2. ring. }
        apply f_integral in K. destruct K as [|K]; [assumption|exfalso].
        assert (K' : sqrt_m1 = - (1)) by (transitivity (1 + sqrt_m1 - 1); [ring|rewrite K; ring]).
        pose proof sqrt_m1_sq as Q. rewrite K' in Q. apply minus_1_neq_1. rewrite <- Q. ring. }
      assert (Hr0 : r0 = 0).
      { unfold r0. rewrite H. generalize (fpow (0 * (v * v * v * (v * v * v) * v)) p58).
        intros w. ring. }
      rewrite Hr0, H. ring.
  - intros x Hx. rewrite Hok, C.
    destruct (F_dec x 0) as [->|Nx].
    + assert (u = 0) by (rewrite <- Hx; ring). rewrite H.
      apply orb_true_iff. left. apply feqb_eq. ring.
    + assert (Q : q = 1 \/ q = - (1)).
      { unfold q. rewrite <- Hx.
        replace (v * (x * x) * (v * v * v * (v * v * v) * v))
          with ((v * v * v * v * x) * (v * v * v * v * x)) by ring.
        rewrite fpow_fmul, <- fpow_add, quarter_half. apply half_pow.
        repeat apply f_mul_nz; assumption. }
      apply orb_true_iff. destruct Q as [-> | ->]; [left|right]; apply feqb_eq; ring.
Qed.

(** ** Compressing and decompressing *)

Lemma v_nz_ed : forall y : F, ed_d * (y * y) + 1 <> 0.
Proof.
  exact (v_nz F f0 f1 fadd fmul fsub fopp fdiv finv F_field F_dec ed_d CurveProofs.sqrt_m1
           CurveProofs.sqrt_m1_spec d_nonsquare).
Qed.

Lemma on_curve_uv : forall x y : F,
  on_curve (x, y) <-> (ed_d * (y * y) + 1) * (x * x) = y * y - 1.
Proof. exact (curve_uv F f0 f1 fadd fmul fsub fopp fdiv finv F_field ed_d). Qed.

Local Open Scope N_scope.

Lemma p255_val : 2 ^ 255 = 57896044618658097711785492504343953926634992332820282019728792003956564819968.
Proof. reflexivity. Qed.
Lemma p256_val : 256 ^ 32 = 2 * 2 ^ 255.
Proof. reflexivity. Qed.

Lemma top_bit : forall n, n < 256 ^ 32 -> n / 2 ^ 255 = if N.testbit n 255 then 1 else 0.
Proof.
  intros n H. rewrite N.testbit_eqb.
  assert (B : n / 2 ^ 255 < 2).
  { apply N.div_lt_upper_bound; [discriminate|]. rewrite p256_val in H. lia. }
  rewrite N.mod_small by assumption.
  destruct (n / 2 ^ 255 =? 1) eqn:E; [now apply N.eqb_eq|]. apply N.eqb_neq in E. lia.
Qed.

Lemma rep_of_parity : forall x, rep_of x mod 2 = if f_is_negative x then 1 else 0.
Proof.
  intros x. unfold rep_of, f_is_negative. pose proof (F_range x) as R.
  apply N2Z.inj. rewrite N2Z.inj_mod, Z2N.id by (try discriminate; lia).
  rewrite Zmod_odd. now destruct (Z.odd (fz x)).
Qed.

Lemma rep_of_lt : forall x, rep_of x < 2 ^ 255 - 19.
Proof.
  intros x. unfold rep_of. pose proof (F_range x) as R. unfold fp in R.
  rewrite p255_val. lia.
Qed.

Lemma rep_of_inj : forall x y, rep_of x = rep_of y -> x = y.
Proof.
  intros x y H. apply F_eq. unfold rep_of in H. pose proof (F_range x). pose proof (F_range y).
  apply Z2N.inj in H; lia.
Qed.

Lemma rep_of_mk : forall n, rep_of (fmk (Z.of_N n)) = n mod (2 ^ 255 - 19).
Proof.
  intros n. unfold rep_of. rewrite fz_fmk. apply N2Z.inj.
  rewrite N2Z.inj_mod by discriminate. rewrite Z2N.id by (apply Z.mod_pos_bound; reflexivity).
  reflexivity.
Qed.

Lemma arr32_lt : forall b : arr 32, from_le (aval b) < 256 ^ 32.
Proof. intros b. pose proof (from_le_lt (aval b)) as H. now rewrite arr_len in H. Qed.

Lemma if_bit : forall a b : bool, (if a then 1 else 0) = (if b then 1 else 0) -> a = b.
Proof. intros [|] [|]; (reflexivity || discriminate). Qed.

#[local] Opaque sqrt_ratio_i ed_d.

Lemma ext_decompress_xy : forall b, ext_decompress b =
  decompress_xy (N.testbit (from_le (aval b)) 255) (fmk (Z.of_N (from_le (aval b) mod 2 ^ 255))).
Proof. reflexivity. Qed.

Lemma decompress_xy_sound : forall sign y e, decompress_xy sign y = Some e ->
  exists x, on_curve (x, y) /\ (x <> f0 -> f_is_negative x = sign) /\ repr e (x, y).
Proof.
  intros sign y e H. unfold decompress_xy in H. cbv zeta in H.
  destruct (sqrt_ratio_i (fsub (fmul y y) f1) (fadd (fmul ed_d (fmul y y)) f1)) as [ok r] eqn:S.
  pose proof (sqrt_ratio_ok _ _ _ _ S (v_nz_ed y)) as (S1 & S2 & _). clear S.
  destruct ok; [|discriminate H]. specialize (S2 eq_refl).
  exists (if sign then fopp r else r). split; [|split].
  - apply on_curve_uv. rewrite <- S2. f_equal. destruct sign; ring.
  - intros NZ. destruct sign; [|assumption].
    rewrite negative_opp; [now rewrite S1|]. intros E. apply NZ. rewrite E. ring.
  - injection H as <-. apply ext_affine_ok.
Qed.

Lemma decompress_xy_none : forall sign x y, decompress_xy sign y = None -> ~ on_curve (x, y).
Proof.
  intros sign x y H C. unfold decompress_xy in H. cbv zeta in H.
  destruct (sqrt_ratio_i (fsub (fmul y y) f1) (fadd (fmul ed_d (fmul y y)) f1)) as [ok r] eqn:S.
  pose proof (sqrt_ratio_ok _ _ _ _ S (v_nz_ed y)) as (_ & _ & S3). clear S.
  rewrite (S3 x (proj1 (on_curve_uv x y) C)) in H. discriminate H.
Qed.

Lemma decompress_sound : forall b e, ext_decompress b = Some e ->
  exists P, key_of (aval b) P /\ repr e P.
Proof.
  intros b e H. rewrite ext_decompress_xy in H.
  destruct (decompress_xy_sound _ _ _ H) as (x & C & S & R).
  eexists. split; [|exact R]. split; [exact C|split].
  - apply rep_of_mk.
  - intros NZ. rewrite rep_of_parity, top_bit by apply arr32_lt. now rewrite (S NZ).
Qed.

Lemma key_of_x : forall b x x' y, length b = 32%nat -> key_of b (x, y) -> key_of b (x', y) -> x = x'.
Proof.
  intros b x x' y Hb (C & _ & Hx) (C' & _ & Hx').
  assert (Q : fmul x x = fmul x' x').
  { exact (curve_same_y F f0 f1 fadd fmul fsub fopp fdiv finv F_field F_dec ed_d
             CurveProofs.sqrt_m1 CurveProofs.sqrt_m1_spec d_nonsquare x x' y C C'). }
  destruct (f_square_eq x x' Q) as [|E]; [assumption|].
  destruct (F_dec x' f0) as [Z|NZ]; [rewrite E, Z; ring|].
  assert (NZx : x <> f0).
  { rewrite E. intros Z. apply NZ. transitivity (fopp (fopp x')); [ring|]. rewrite Z. ring. }
  specialize (Hx NZx). specialize (Hx' NZ). rewrite <- Hx', !rep_of_parity in Hx.
  apply if_bit in Hx. rewrite E, negative_opp in Hx by assumption.
  destruct (f_is_negative x'); discriminate Hx.
Qed.

Lemma key_of_inj : forall b P Q, length b = 32%nat -> key_of b P -> key_of b Q -> P = Q.
Proof.
  intros b [x y] [x' y'] Hb HP HQ.
  assert (y = y').
  { destruct HP as (_ & E & _), HQ as (_ & E' & _). apply rep_of_inj. now rewrite E. }
  subst y'. f_equal. now apply (key_of_x b x x' y).
Qed.

Lemma decompress_complete : forall b P, key_of (aval b) P ->
  exists e, ext_decompress b = Some e /\ repr e P.
Proof.
  intros b [x y] K. destruct (ext_decompress b) as [e|] eqn:D.
  - exists e. split; [reflexivity|].
    destruct (decompress_sound b e D) as (Q & KQ & R).
    now rewrite <- (key_of_inj (aval b) Q (x, y) (arr_len 32 b) KQ K).
  - exfalso. rewrite ext_decompress_xy in D. destruct K as (C & Y & _).
    assert (E : fmk (Z.of_N (from_le (aval b) mod 2 ^ 255)) = y).
    { apply rep_of_inj. now rewrite rep_of_mk, Y. }
    rewrite E in D. now apply (decompress_xy_none _ x) in D.
Qed.

Lemma point_bytes_length : forall P, length (point_bytes P) = 32%nat.
Proof. intros [x y]. apply le_bytes_length. Qed.

Lemma compress_ok : forall e P, repr e P -> aval (ext_compress e) = point_bytes P.
Proof.
  intros e P R. rewrite (repr_affine e P R). unfold ext_compress, point_bytes. cbv zeta.
  rewrite arr_of_aval by apply le_bytes_length. f_equal.
  rewrite rep_of_parity. unfold f_to_N, fdiv. unfold rep_of at 1. f_equal.
  destruct (f_is_negative (fmul (eX e) (finv (eZ e)))); reflexivity.
Qed.

Lemma key_of_point_bytes : forall P, on_curve P -> key_of (point_bytes P) P.
Proof.
  intros [x y] C. unfold point_bytes, key_of.
  assert (B : rep_of x mod 2 < 2) by (apply N.mod_upper_bound; discriminate).
  pose proof (rep_of_lt y) as BY.
  assert (E : from_le (le_bytes 32 (rep_of y + 2 ^ 255 * (rep_of x mod 2))) =
              rep_of y + 2 ^ 255 * (rep_of x mod 2)).
  { rewrite from_le_le_bytes. apply N.mod_small. change (256 ^ N.of_nat 32) with (256 ^ 32).
    rewrite p256_val. rewrite p255_val in *. lia. }
  rewrite E. split; [assumption|split].
  - rewrite (N.mul_comm (2 ^ 255)), N.mod_add by discriminate.
    rewrite (N.mod_small (rep_of y)) by (rewrite p255_val in *; lia).
    symmetry. apply N.mod_small. exact BY.
  - intros _. rewrite (N.mul_comm (2 ^ 255)), N.div_add by discriminate.
    rewrite N.div_small by (rewrite p255_val in *; lia). reflexivity.
Qed.

Lemma point_bytes_inj : forall P Q, on_curve P -> on_curve Q -> point_bytes P = point_bytes Q -> P = Q.
Proof.
  intros P Q HP HQ E. apply (key_of_inj (point_bytes P)).
  - apply point_bytes_length.
  - now apply key_of_point_bytes.
  - rewrite E. now apply key_of_point_bytes.
Qed.
