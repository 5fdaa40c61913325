(** Signatures made and checked by the model of signing.rs are the ones RFC 8032 defines. *)

From Coq Require Import ZArith Lia Znumtheory Field.
From Verif Require Import Base Sha2 Prime Fp SpecCurve EdwardsGeneric CurveProofs SpecSign
  Model_common Model_ed25519 Model_signing Ed25519Proofs.
Local Open Scope N_scope.

Lemma pneg_cancel : forall P Q, pneg P = pneg Q -> P = Q.
Proof.
  intros [x y] [x' y'] H. unfold pneg in H.
  pose proof (f_equal fst H) as H1. pose proof (f_equal snd H) as H2. cbn [fst snd] in H1, H2.
  subst y'. f_equal.
  transitivity (fopp (fopp x)); [ring|]. rewrite H1. ring.
Qed.

#[local] Opaque on_curve pmul padd pneg base ed_L point_bytes sha512.

(** ** The secret scalar *)

Lemma clamp_low : forall b, N.land (b2n b) 248 = 8 * (b2n b / 8).
Proof. intros b. destruct b; vm_compute; reflexivity. Qed.

Lemma clamp_high : forall b, N.lor (N.land (b2n b) 127) 64 = 64 + b2n b mod 64.
Proof. intros b. destruct b; vm_compute; reflexivity. Qed.

Lemma b2n_bound : forall b, b2n b < 256.
Proof. intros b. destruct b; reflexivity. Qed.

Lemma list32_split : forall l : bytes, length l = 32%nat ->
  exists b0 m b1, l = b0 :: m ++ [b1] /\ length m = 30%nat.
Proof.
  intros l H. destruct l as [|b0 l]; [discriminate H|].
  destruct (exists_last (l := l)) as (m & b1 & E); [intros ->; discriminate H|].
  exists b0, m, b1. subst l. split; [reflexivity|].
  cbn [length] in H. rewrite app_length in H. cbn [length] in H. lia.
Qed.

Lemma from_le_clamp : forall a : arr 32,
  from_le (clamp_integer a) = 2 ^ 254 + 8 * (from_le (aval a) / 8 mod 2 ^ 251).
Proof.
  intros a. unfold clamp_integer. pose proof (arr_len 32 a) as H.
  destruct (list32_split (aval a) H) as (b0 & m & b1 & E & Hm). rewrite E.
  cbn [nth skipn].
  rewrite firstn_app, Hm, Nat.sub_diag, firstn_O, app_nil_r.
  rewrite <- Hm at 1. rewrite firstn_all.
  rewrite app_nth2 by (rewrite Hm; auto). rewrite Hm. cbn [nth Nat.sub].
  cbn [from_le]. rewrite !from_le_app, Hm. cbn [from_le].
  rewrite !b2n_n2b, clamp_low, clamp_high.
  pose proof (b2n_bound b0) as B0. pose proof (b2n_bound b1) as B1.
  rewrite (N.mod_small (8 * (b2n b0 / 8))).
  2:{ pose proof (N.mul_div_le (b2n b0) 8 ltac:(discriminate)). lia. }
  assert (M64 : b2n b1 mod 64 < 64) by (apply N.mod_upper_bound; discriminate).
  rewrite (N.mod_small (64 + b2n b1 mod 64)) by lia.
  pose proof (from_le_lt m) as BM. rewrite Hm in BM.
  generalize dependent (from_le m). intros M BM.
  change (256 ^ N.of_nat 30) with (2 ^ 240) in *.
  assert (D : (b2n b0 + 256 * (M + 2 ^ 240 * (b2n b1 + 256 * 0))) / 8 =
              b2n b0 / 8 + 32 * M + 2 ^ 245 * b2n b1).
  { replace (b2n b0 + 256 * (M + 2 ^ 240 * (b2n b1 + 256 * 0)))
      with (b2n b0 + (32 * M + 2 ^ 245 * b2n b1) * 8).
    - rewrite N.div_add by discriminate. lia.
    - change (2 ^ 245) with (32 * 2 ^ 240). lia. }
  rewrite D.
  assert (D' : (b2n b0 / 8 + 32 * M + 2 ^ 245 * b2n b1) mod 2 ^ 251 =
               b2n b0 / 8 + 32 * M + 2 ^ 245 * (b2n b1 mod 64)).
  { symmetry. apply N.mod_unique with (q := b2n b1 / 64).
    - assert (b2n b0 / 8 < 32) by (apply N.div_lt_upper_bound; [discriminate|lia]).
      change (2 ^ 251) with (64 * (32 * 2 ^ 240)). change (2 ^ 245) with (32 * 2 ^ 240).
      generalize dependent (2 ^ 240). intros. nia.
    - change (2 ^ 251) with (64 * 2 ^ 245).
      pose proof (N.div_mod (b2n b1) 64 ltac:(discriminate)) as DM.
      generalize dependent (2 ^ 245). intros. nia. }
  rewrite D'. change (2 ^ 254) with (64 * (256 * 2 ^ 240)). change (2 ^ 245) with (32 * 2 ^ 240).
  generalize (2 ^ 240). intros. lia.
Qed.

Lemma firstn_sha512 : forall m, length (firstn 32 (sha512 m)) = 32%nat.
Proof. intros m. rewrite firstn_length, sha512_length. reflexivity. Qed.

Lemma scalar_bytes_spec : forall seed,
  from_le (expanded_scalar_bytes seed) = secret_scalar (aval seed).
Proof.
  intros seed. unfold expanded_scalar_bytes, secret_scalar. rewrite from_le_clamp.
  now rewrite arr_of_aval by apply firstn_sha512.
Qed.

(** ** Public keys *)

Lemma vk_of_seed_repr : forall seed, repr (vk_point (vk_of_seed seed)) (public_point (aval seed)).
Proof.
  intros seed. unfold vk_of_seed, public_point. cbn [vk_point]. rewrite scalar_bytes_spec.
  apply ext_mul_ok; [apply base_on_curve|apply base_repr].
Qed.

Lemma public_point_on_curve : forall seed, on_curve (public_point seed).
Proof. intros seed. apply pmul_on_curve, base_on_curve. Qed.

Lemma vk_of_seed_bytes : forall seed,
  aval (vk_bytes (vk_of_seed seed)) = point_bytes (public_point (aval seed)).
Proof. intros seed. apply compress_ok, vk_of_seed_repr. Qed.

Lemma keypair_bytes_spec : forall seed,
  aval (keypair_bytes seed) = aval seed ++ point_bytes (public_point (aval seed)).
Proof.
  intros seed. unfold keypair_bytes. rewrite arr_of_aval.
  - now rewrite vk_of_seed_bytes.
  - rewrite app_length, !arr_len. reflexivity.
Qed.

Lemma from_seed_public_key : forall seed,
  aval (sk_public_key (from_seed seed)) = point_bytes (public_point (aval seed)).
Proof.
  intros seed. unfold sk_public_key, from_seed. rewrite keypair_bytes_spec.
  rewrite skipn_app, arr_len, Nat.sub_diag, skipn_O.
  rewrite skipn_all2 by (rewrite arr_len; auto). cbn [app].
  apply arr_of_aval, point_bytes_length.
Qed.

Lemma from_seed_first_half : forall seed,
  arr_of 32 (firstn 32 (aval (from_seed seed))) = seed.
Proof.
  intros seed. unfold from_seed. rewrite keypair_bytes_spec.
  rewrite firstn_app, arr_len, Nat.sub_diag, firstn_O, app_nil_r.
  rewrite firstn_all2 by (rewrite arr_len; auto). apply arr_of_id.
Qed.

(** ** Signing *)

Lemma dalek_sign_spec : forall seed msg, aval (dalek_sign seed msg) = rfc_sign (aval seed) msg.
Proof.
  intros seed msg. unfold dalek_sign, rfc_sign. cbv zeta.
  assert (R : forall r, aval (ext_compress (ext_mul r ext_base)) = point_bytes (pmul r base)).
  { intros r. apply compress_ok, ext_mul_ok; [apply base_on_curve|apply base_repr]. }
  rewrite arr_of_aval.
  2:{ rewrite app_length, le_bytes_length, arr_len. reflexivity. }
  rewrite !R. unfold challenge, challenge_of, scalar_mod_order, expanded_prefix.
  rewrite vk_of_seed_bytes. f_equal. f_equal.
  unfold expanded_scalar, scalar_mod_order. rewrite scalar_bytes_spec.
  rewrite N.add_comm. rewrite <- N.add_mod_idemp_r by apply ed_L_nz.
  rewrite N.mul_mod_idemp_r by apply ed_L_nz.
  rewrite N.add_mod_idemp_r by apply ed_L_nz. reflexivity.
Qed.

Lemma sign_hash_spec : forall k h,
  aval (sign_hash k h) = rfc_sign (firstn 32 (aval k)) (aval h).
Proof.
  intros k h. unfold sign_hash. rewrite dalek_sign_spec.
  rewrite arr_of_aval; [reflexivity|]. rewrite firstn_length, arr_len. reflexivity.
Qed.

Lemma sign_seed_spec : forall seed h,
  aval (sign_hash (from_seed seed) h) = rfc_sign (aval seed) (aval h).
Proof.
  intros seed h. unfold sign_hash. now rewrite from_seed_first_half, dalek_sign_spec.
Qed.

(** ** Verifying *)

Lemma expected_spec : forall e A s k, on_curve A -> repr e A ->
  aval (ext_compress (ext_plus (ext_mul k (ext_neg e)) (ext_mul s ext_base))) =
  point_bytes (padd (pmul s base) (pneg (pmul k A))).
Proof.
  intros e A s k HA R. apply compress_ok.
  pose proof (pneg_on_curve A HA) as HN.
  assert (E : pneg (pmul k A) = pmul k (pneg A)).
  { apply (padd_cancel (pmul k A)).
    - now apply pmul_on_curve.
    - now apply pneg_on_curve, pmul_on_curve.
    - now apply pmul_on_curve.
    - rewrite padd_neg_r by now apply pmul_on_curve. symmetry. now apply pmul_neg. }
  rewrite E, padd_comm. apply ext_plus_ok.
  - now apply pmul_on_curve.
  - apply pmul_on_curve, base_on_curve.
  - apply ext_mul_ok; [assumption|]. now apply ext_neg_ok.
  - apply ext_mul_ok; [apply base_on_curve|apply base_repr].
Qed.

Lemma dalek_verify_spec : forall vk A msg sig, on_curve A -> repr (vk_point vk) A ->
  dalek_verify vk msg sig = true <-> rfc_accepts (aval (vk_bytes vk)) A msg (aval sig).
Proof.
  intros vk A msg sig HA R. unfold dalek_verify, rfc_accepts. cbv zeta.
  unfold scalar_canonical. destruct (N.ltb_spec (from_le (skipn 32 (aval sig))) ed_L) as [Hs|Hs].
  - rewrite (expected_spec _ A) by assumption.
    change (challenge (firstn 32 (aval sig)) vk msg)
      with (challenge_of (firstn 32 (aval sig)) (aval (vk_bytes vk)) msg).
    destruct (list_eq_dec Byte.byte_eq_dec _ _) as [E|E].
    + split; [intros _; split; [assumption|now symmetry]|reflexivity].
    + split; [intros H; discriminate H|]. intros [_ H]. now symmetry in H.
  - split; [intros H; discriminate H|]. intros [H _]. lia.
Qed.

Lemma key_of_on_curve : forall b P, key_of b P -> on_curve P.
Proof. intros b [x y] (H & _). exact H. Qed.

Lemma pk_verify_spec : forall pk h sig A, key_of (aval pk) A ->
  (pk_verify pk h sig = Val true <-> rfc_accepts (aval pk) A (aval h) (aval sig)) /\
  (pk_verify pk h sig = Val false <-> ~ rfc_accepts (aval pk) A (aval h) (aval sig)).
Proof.
  intros pk h sig A K. destruct (decompress_complete pk A K) as (e & D & R).
  unfold pk_verify, vk_from_bytes. rewrite D.
  pose proof (dalek_verify_spec (MkVk pk e) A (aval h) sig (key_of_on_curve _ _ K) R) as S.
  cbn [vk_bytes] in S. destruct (dalek_verify (MkVk pk e) (aval h) sig).
  - split; [split; [intros _; now apply S|reflexivity]|split; [intros H; discriminate H|]].
    intros N. exfalso. now apply N, S.
  - assert (N : ~ rfc_accepts (aval pk) A (aval h) (aval sig)).
    { intros H. apply S in H. discriminate H. }
    split; split; intros H; [discriminate H|contradiction|exact N|reflexivity].
Qed.

Lemma pk_verify_panic : forall pk h sig,
  pk_verify pk h sig = Panic UnwrapNone <-> forall A, ~ key_of (aval pk) A.
Proof.
  intros pk h sig. unfold pk_verify, vk_from_bytes. split.
  - intros H A K. destruct (decompress_complete pk A K) as (e & D & _). rewrite D in H. discriminate H.
  - intros H. destruct (ext_decompress pk) as [e|] eqn:D; [|reflexivity].
    destruct (decompress_sound pk e D) as (P & K & _). now apply H in K.
Qed.

Lemma pk_verify_cases : forall pk h sig,
  pk_verify pk h sig = Val true \/ pk_verify pk h sig = Val false \/
  pk_verify pk h sig = Panic UnwrapNone.
Proof.
  intros pk h sig. unfold pk_verify. destruct (vk_from_bytes pk) as [vk|]; [|tauto].
  destruct (dalek_verify vk (aval h) sig); tauto.
Qed.

(** ** Signatures verify *)

Lemma skipn_app_32 : forall a b : bytes, length a = 32%nat -> skipn 32 (a ++ b) = b.
Proof.
  intros a b H. rewrite skipn_app, H, Nat.sub_diag, skipn_O.
  rewrite skipn_all2 by (rewrite H; auto). reflexivity.
Qed.
Lemma firstn_app_32 : forall a b : bytes, length a = 32%nat -> firstn 32 (a ++ b) = a.
Proof.
  intros a b H. rewrite firstn_app, H, Nat.sub_diag, firstn_O, app_nil_r.
  now rewrite firstn_all2 by (rewrite H; auto).
Qed.

Lemma ed_L_small : ed_L < 256 ^ 32.
Proof. reflexivity. Qed.

Lemma from_le_scalar : forall s, s < ed_L -> from_le (le_bytes 32 s) = s.
Proof.
  intros s H. rewrite from_le_le_bytes. apply N.mod_small. change (256 ^ N.of_nat 32) with (256 ^ 32).
  pose proof ed_L_small. lia.
Qed.

Lemma rfc_sign_accepted : forall seed msg,
  rfc_accepts (point_bytes (public_point seed)) (public_point seed) msg (rfc_sign seed msg).
Proof.
  intros seed msg. unfold rfc_sign. cbv zeta. unfold rfc_accepts.
  set (r := from_le (sha512 (skipn 32 (sha512 seed) ++ msg)) mod ed_L).
  rewrite firstn_app_32, skipn_app_32 by apply point_bytes_length.
  set (k := challenge_of (point_bytes (pmul r base)) (point_bytes (public_point seed)) msg).
  pose proof (N.mod_upper_bound (r + k * secret_scalar seed) ed_L ed_L_nz) as B.
  rewrite from_le_scalar by assumption. split; [assumption|]. f_equal.
  rewrite pmul_mod_L, pmul_add, pmul_mul by apply base_on_curve.
  fold (public_point seed).
  assert (HR : on_curve (pmul r base)) by apply pmul_on_curve, base_on_curve.
  assert (HK : on_curve (pmul k (public_point seed))) by apply pmul_on_curve, public_point_on_curve.
  rewrite padd_assoc by (try assumption; now apply pneg_on_curve).
  now rewrite padd_neg_r, padd_zero_r by assumption.
Qed.

Lemma sign_verify : forall seed h,
  pk_verify (sk_public_key (from_seed seed)) h (sign_hash (from_seed seed) h) = Val true.
Proof.
  intros seed h.
  apply (pk_verify_spec _ _ _ (public_point (aval seed))).
  - rewrite from_seed_public_key. apply key_of_point_bytes, public_point_on_curve.
  - rewrite from_seed_public_key, sign_seed_spec. apply rfc_sign_accepted.
Qed.

(** a key made from 64 bytes whose second half is the right one *)
Lemma sign_verify_bytes : forall b h,
  skipn 32 (aval b) = point_bytes (public_point (firstn 32 (aval b))) ->
  pk_verify (sk_public_key (sk_from_bytes b)) h (sign_hash (sk_from_bytes b) h) = Val true.
Proof.
  intros b h H. unfold sk_from_bytes.
  assert (L : length (firstn 32 (aval b)) = 32%nat) by (rewrite firstn_length, arr_len; reflexivity).
  assert (E : b = from_seed (arr_of 32 (firstn 32 (aval b)))).
  { apply arr_eq. unfold from_seed. rewrite keypair_bytes_spec, arr_of_aval by assumption.
    rewrite <- H. symmetry. apply firstn_skipn. }
  rewrite E. apply sign_verify.
Qed.

(** ** One scalar for each key, hash and [R] *)

Lemma accepts_unique : forall a A msg sig sig', on_curve A ->
  length sig = 64%nat -> length sig' = 64%nat ->
  rfc_accepts a A msg sig -> rfc_accepts a A msg sig' ->
  firstn 32 sig = firstn 32 sig' -> sig = sig'.
Proof.
  intros a A msg sig sig' HA L L' [Hs E] [Hs' E'] H. rewrite <- H in E'. rewrite E in E' at 1.
  set (K := pmul (challenge_of (firstn 32 sig) a msg) A) in *.
  assert (HK : on_curve (pneg K)) by now apply pneg_on_curve, pmul_on_curve.
  assert (HB : forall n, on_curve (pmul n base)) by (intros; apply pmul_on_curve, base_on_curve).
  apply point_bytes_inj in E'; try (apply padd_closed; auto).
  rewrite !(padd_comm _ (pneg K)) in E'. apply padd_cancel in E'; auto.
  apply pmul_base_inj in E'. rewrite !N.mod_small in E' by assumption.
  rewrite <- (firstn_skipn 32 sig), <- (firstn_skipn 32 sig'), <- H. f_equal.
  assert (G : forall l, length l = 64%nat -> skipn 32 l = le_bytes 32 (from_le (skipn 32 l))).
  { intros l Hl. symmetry. pose proof (le_bytes_from_le (skipn 32 l)) as Q.
    rewrite skipn_length, Hl in Q. exact Q. }
  rewrite (G sig L), (G sig' L'). now rewrite E'.
Qed.

(** ** The secret scalar is determined by the public key *)

Lemma secret_scalar_shape : forall seed, exists q, q < 2 ^ 251 /\
  secret_scalar seed = 2 ^ 254 + 8 * q.
Proof.
  intros seed. unfold secret_scalar. eexists. split; [|reflexivity].
  apply N.mod_upper_bound. discriminate.
Qed.

Lemma secret_scalar_mod : forall s s', secret_scalar s mod ed_L = secret_scalar s' mod ed_L ->
  secret_scalar s = secret_scalar s'.
Proof.
  assert (G : forall q q', q < 2 ^ 251 -> q' < 2 ^ 251 -> q <= q' ->
    (2 ^ 254 + 8 * q) mod ed_L = (2 ^ 254 + 8 * q') mod ed_L -> q = q').
  { intros q q' Hq Hq' Le H.
    pose proof (N.div_mod (2 ^ 254 + 8 * q) ed_L ed_L_nz) as D.
    pose proof (N.div_mod (2 ^ 254 + 8 * q') ed_L ed_L_nz) as D'.
    rewrite H in D. set (m := (2 ^ 254 + 8 * q') mod ed_L) in *.
    set (a := (2 ^ 254 + 8 * q) / ed_L) in *. set (a' := (2 ^ 254 + 8 * q') / ed_L) in *.
    clearbody m a a'. clear H.
    change (2 ^ 254) with 28948022309329048855892746252171976963317496166410141009864396001978282409984 in *.
    change (2 ^ 251) with 3618502788666131106986593281521497120414687020801267626233049500247285301248 in *.
    change ed_L with 7237005577332262213973186563042994240857116359379907606001950938285454250989 in *.
    (* 8 (q' - q) = (a' - a) L with L odd: a' - a is a multiple of 8 *)
    assert (E : 8 * (q' - q) = (a' - a) * 7237005577332262213973186563042994240857116359379907606001950938285454250989) by lia.
    assert (a' - a = 0 \/ a' - a = 1 \/ a' - a = 2 \/ a' - a = 3) by lia.
    lia. }
  intros s s' H. destruct (secret_scalar_shape s) as (q & Hq & E).
  destruct (secret_scalar_shape s') as (q' & Hq' & E'). rewrite E, E' in *. f_equal. f_equal.
  destruct (N.le_ge_cases q q'); [|symmetry; symmetry in H]; apply G; assumption.
Qed.

Lemma public_key_scalar : forall s s',
  sk_public_key (from_seed s) = sk_public_key (from_seed s') ->
  secret_scalar (aval s) = secret_scalar (aval s').
Proof.
  intros s s' H. apply secret_scalar_mod, pmul_base_inj.
  apply point_bytes_inj; try (apply pmul_on_curve, base_on_curve).
  change (point_bytes (public_point (aval s)) = point_bytes (public_point (aval s'))).
  rewrite <- !from_seed_public_key. now rewrite H.
Qed.

Lemma secret_scalar_nz : forall s, secret_scalar s mod ed_L <> 0.
Proof.
  intros s H. destruct (secret_scalar_shape s) as (q & Hq & E). rewrite E in H.
  apply N.mod_divide in H; [|apply ed_L_nz]. destruct H as [m H].
  change (2 ^ 254) with 28948022309329048855892746252171976963317496166410141009864396001978282409984 in *.
  change (2 ^ 251) with 3618502788666131106986593281521497120414687020801267626233049500247285301248 in *.
  change ed_L with 7237005577332262213973186563042994240857116359379907606001950938285454250989 in *.
  assert (m = 4 \/ m = 5 \/ m = 6 \/ m = 7) by lia. lia.
Qed.

(** a signature accepted for two hashes under a key made from a seed *)
Lemma accepts_two_hashes : forall seed h h' sig,
  pk_verify (sk_public_key (from_seed seed)) h sig = Val true ->
  pk_verify (sk_public_key (from_seed seed)) h' sig = Val true ->
  let r := firstn 32 (aval sig) in
  let a := aval (sk_public_key (from_seed seed)) in
  challenge_of r a (aval h) = challenge_of r a (aval h').
Proof.
  intros seed h h' sig H H'.
  assert (K : key_of (aval (sk_public_key (from_seed seed))) (public_point (aval seed))).
  { rewrite from_seed_public_key. apply key_of_point_bytes, public_point_on_curve. }
  apply (proj1 (pk_verify_spec _ _ _ _ K)) in H. apply (proj1 (pk_verify_spec _ _ _ _ K)) in H'.
  cbv zeta. destruct H as [_ E], H' as [_ E']. rewrite E in E' at 1.
  set (k := challenge_of _ _ (aval h)) in *. set (k' := challenge_of _ _ (aval h')) in *.
  assert (Bk : k < ed_L) by (apply N.mod_upper_bound, ed_L_nz).
  assert (Bk' : k' < ed_L) by (apply N.mod_upper_bound, ed_L_nz).
  clearbody k k'.
  pose proof (public_point_on_curve (aval seed)) as HA.
  assert (HB : forall n, on_curve (pmul n base)) by (intros; apply pmul_on_curve, base_on_curve).
  assert (HN : forall n, on_curve (pneg (pmul n (public_point (aval seed))))).
  { intros n. now apply pneg_on_curve, pmul_on_curve. }
  apply point_bytes_inj in E'; try (apply padd_closed; auto).
  apply padd_cancel in E'; auto. apply pneg_cancel in E'.
  unfold public_point in E'. rewrite <- !pmul_mul in E' by apply base_on_curve.
  apply pmul_base_inj in E'.
  pose proof (secret_scalar_nz (aval seed)) as NZ. set (s := secret_scalar (aval seed)) in *.
  clearbody s. clear - E' NZ Bk Bk'.
  assert (P : prime (Z.of_N ed_L)) by exact prime_ed_L.
  assert (D : (Z.of_N ed_L | (Z.of_N k - Z.of_N k') * Z.of_N s)%Z).
  { apply Zmod_divide; [discriminate|]. rewrite Z.mul_sub_distr_r, Zminus_mod.
    apply (f_equal Z.of_N) in E'. rewrite !N2Z.inj_mod, !N2Z.inj_mul in E' by apply ed_L_nz.
    rewrite E', Z.sub_diag. reflexivity. }
  apply prime_mult in D; [|assumption]. destruct D as [D|D].
  - destruct (Z.eq_dec (Z.of_N k - Z.of_N k') 0) as [|N0]; [lia|exfalso].
    apply Z.divide_abs_r in D. apply Z.divide_pos_le in D; lia.
  - exfalso. apply NZ. apply N2Z.inj. rewrite N2Z.inj_mod by apply ed_L_nz.
    apply Z.mod_divide in D; [exact D|discriminate].
Qed.

(** ** Statements *)

Lemma from_seed_bytes : forall seed,
  sk_as_bytes (from_seed seed) = aval seed ++ point_bytes (public_point (aval seed)) /\
  sk_from_hash seed = from_seed seed /\
  sk_from_bytes (from_seed seed) = from_seed seed.
Proof.
  intros seed. split; [apply keypair_bytes_spec|split; reflexivity].
Qed.

Lemma pk_verify_total : forall pk h sig,
  (exists b, pk_verify pk h sig = Val b) <-> exists A, key_of (aval pk) A.
Proof.
  intros pk h sig. split.
  - intros [b H]. destruct (ext_decompress pk) as [e|] eqn:D.
    + destruct (decompress_sound pk e D) as (P & K & _). exists P. exact K.
    + exfalso. assert (E : pk_verify pk h sig = Panic UnwrapNone).
      { unfold pk_verify, vk_from_bytes. rewrite D. reflexivity. }
      rewrite E in H. discriminate H.
  - intros [A K]. destruct (pk_verify_cases pk h sig) as [H|[H|H]]; [exists true; exact H|exists false; exact H|].
    exfalso. exact (proj1 (pk_verify_panic pk h sig) H A K).
Qed.

Lemma verify_unique : forall pk h sig sig',
  pk_verify pk h sig = Val true -> pk_verify pk h sig' = Val true ->
  firstn 32 (aval sig) = firstn 32 (aval sig') -> sig = sig'.
Proof.
  intros pk h sig sig' H H' E.
  destruct (proj1 (pk_verify_total pk h sig) (ex_intro _ _ H)) as [A K].
  apply (proj1 (pk_verify_spec pk h sig A K)) in H.
  apply (proj1 (pk_verify_spec pk h sig' A K)) in H'.
  apply arr_eq. exact (accepts_unique _ _ _ _ _ (key_of_on_curve _ _ K) (arr_len 64 sig) (arr_len 64 sig') H H' E).
Qed.

Lemma bad_key : vk_from_bytes (arr_of 32 (map n2b (2 :: repeat 0 31))) = None.
Proof. vm_compute. reflexivity. Qed.

Lemma bad_key_panics : forall h sig,
  pk_verify (arr_of 32 (map n2b (2 :: repeat 0 31))) h sig = Panic UnwrapNone.
Proof. intros h sig. unfold pk_verify. rewrite bad_key. reflexivity. Qed.

Lemma verify_panics : exists pk, forall h sig, pk_verify pk h sig = Panic UnwrapNone.
Proof. eexists. exact bad_key_panics. Qed.

(** ** Keys whose second half is another point *)

Lemma bytes_key_verify : forall b h A, key_of (skipn 32 (aval b)) A ->
  let own := public_point (firstn 32 (aval b)) in
  let r := firstn 32 (aval (sign_hash (sk_from_bytes b) h)) in
  pk_verify (sk_public_key (sk_from_bytes b)) h (sign_hash (sk_from_bytes b) h) = Val true <->
  pmul (challenge_of r (point_bytes own) (aval h)) own =
  pmul (challenge_of r (skipn 32 (aval b)) (aval h)) A.
Proof.
  intros b h A K. cbv zeta. unfold sk_from_bytes.
  assert (E : aval (sk_public_key b) = skipn 32 (aval b)).
  { unfold sk_public_key. apply arr_of_aval. rewrite skipn_length, arr_len. reflexivity. }
  assert (K' : key_of (aval (sk_public_key b)) A) by (rewrite E; exact K).
  etransitivity; [apply (proj1 (pk_verify_spec _ h (sign_hash b h) A K'))|].
  rewrite E, sign_hash_spec. pose proof (key_of_on_curve _ _ K) as HA. clear K K' E.
  generalize (skipn 32 (aval b)) as a. intros a. generalize (firstn 32 (aval b)). intros seed.
  generalize (aval h). intros msg.
  unfold rfc_sign. cbv zeta. unfold rfc_accepts.
  set (r := from_le (sha512 (skipn 32 (sha512 seed) ++ msg)) mod ed_L).
  rewrite firstn_app_32, skipn_app_32 by apply point_bytes_length.
  set (k := challenge_of (point_bytes (pmul r base)) (point_bytes (public_point seed)) msg).
  set (k' := challenge_of (point_bytes (pmul r base)) a msg).
  pose proof (N.mod_upper_bound (r + k * secret_scalar seed) ed_L ed_L_nz) as B.
  rewrite from_le_scalar by assumption.
  rewrite pmul_mod_L, pmul_add, pmul_mul by apply base_on_curve.
  fold (public_point seed).
  assert (HR : on_curve (pmul r base)) by apply pmul_on_curve, base_on_curve.
  assert (HK : on_curve (pmul k (public_point seed))) by apply pmul_on_curve, public_point_on_curve.
  assert (HK' : on_curve (pmul k' A)) by now apply pmul_on_curve.
  revert HR HK HK'. generalize (pmul r base), (pmul k (public_point seed)), (pmul k' A).
  intros P Q Q' HP HQ HQ'. pose proof (pneg_on_curve Q' HQ') as HN.
  rewrite padd_assoc by assumption. split.
  - intros [_ E]. apply point_bytes_inj in E; [|assumption|repeat apply padd_closed; assumption].
    rewrite <- (padd_zero_r P) in E at 1. apply padd_cancel in E; [|assumption|apply pzero_on_curve|now apply padd_closed].
    transitivity (padd Q (padd (pneg Q') Q')).
    + now rewrite (padd_comm (pneg Q')), padd_neg_r, padd_zero_r.
    + rewrite <- padd_assoc by assumption. rewrite <- E. apply padd_zero_l.
  - intros ->. split; [assumption|]. now rewrite padd_neg_r, padd_zero_r.
Qed.

Lemma sign_verify_bytes_refuted : exists b, forall h,
  pk_verify (sk_public_key (sk_from_bytes b)) h (sign_hash (sk_from_bytes b) h) = Panic UnwrapNone.
Proof.
  exists (arr_of 64 (repeat x00 32 ++ map n2b (2 :: repeat 0 31))). intros h.
  assert (E : sk_public_key (sk_from_bytes (arr_of 64 (repeat x00 32 ++ map n2b (2 :: repeat 0 31))))
    = arr_of 32 (map n2b (2 :: repeat 0 31))).
  { unfold sk_public_key, sk_from_bytes. now f_equal. }
  rewrite E. apply bad_key_panics.
Qed.
