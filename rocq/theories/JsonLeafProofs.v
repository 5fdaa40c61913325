(** The types whose JSON form is a string, a number or an array of those. *)

From Coq Require Import Permutation.
From Verif Require Import Base Io SpecUtf8 SpecText SpecWire Model_encoding Model_common Model_v1 Model_currency
  Model_policy Model_v2 Model_consensus Model_text CurrencyProofs TextProofs TextMore EncodingProofs BasicProofs
  Model_json Model_jsontypes SpecJson JsonProofs Base64Proofs TimeProofs.
Local Open Scope N_scope.
Local Open Scope jres_scope.

Lemma ok_bool : forall b, ok j_bool 0 b.
Proof.
  intros b. exists (JBool b). repeat split; [constructor|cbn; lia|].
  intros j' R. apply reordered_leaf in R. cbn in R. now subst.
Qed.

Lemma ok_u64 : forall n, ok j_u64 0 n.
Proof. intros n. eapply uint_ok; reflexivity. Qed.

Lemma ok_u8 : forall b, ok j_u8 0 b.
Proof.
  intros b. eapply uint_ok; [reflexivity|]. cbn [j_u8 c_de de_u8].
  pose proof (b2n_lt b). rewrite uwrap_small by (change (2 ^ 64) with 18446744073709551616; lia).
  destruct (N.ltb_spec (b2n b) 256); [|lia]. now rewrite n2b_b2n.
Qed.

Lemma ok_string : forall s, ok j_string 0 s.
Proof. intros s. eapply str_ok; [reflexivity|]. apply de_string_id. Qed.

(** ** Text *)

Lemma text_ok : forall A (text : A -> bytes) (parse : bytes -> jres A) a,
  Forall (fun b => b2n b < 128) (text a) -> N.of_nat (length (text a)) <= isize_max ->
  parse (text a) = JOk a -> ok (MkCodec (fun a => JOk (JStr (text a))) (de_text parse)) 0 a.
Proof.
  intros A text parse a F L P. eapply str_ok; [reflexivity|]. cbn [c_de].
  rewrite de_text_ok; auto. now apply utf8_ascii.
Qed.

Lemma hex_digit_ascii : forall c v, hex_digit c v -> b2n c < 128.
Proof.
  intros c v [H|H]; apply nth_error_In in H; revert c H; apply Forall_forall;
    repeat constructor; reflexivity.
Qed.

Lemma hex_text_ascii : forall s l, HexText s l -> Forall (fun b => b2n b < 128) s.
Proof.
  intros s l H. induction H; repeat constructor; eauto using hex_digit_ascii.
Qed.

Lemma hex_encode_ascii : forall l, Forall (fun b => b2n b < 128) (hex_encode l).
Proof. intros l. eapply hex_text_ascii, hex_encode_text. Qed.

Lemma small_ok : forall n : nat, (n <= 1000)%nat -> N.of_nat n <= isize_max.
Proof. intros n H. unfold isize_max. change (2 ^ 63 - 1) with 9223372036854775807. lia. Qed.

Lemma ok_hash : forall h, ok j_hash 0 h.
Proof.
  intros h. apply text_ok.
  - apply hex_encode_ascii.
  - apply small_ok. destruct (hash_text_spec h) as [_ ->]. lia.
  - now rewrite parse_hash_text.
Qed.

Lemma ok_address : forall a, ok j_address 0 a.
Proof.
  intros a. apply text_ok.
  - apply hex_encode_ascii.
  - apply small_ok. destruct (address_text_spec a) as [_ ->]. lia.
  - now rewrite parse_address_text.
Qed.

Lemma ok_signature : forall s, ok j_signature 0 s.
Proof.
  intros s. apply text_ok.
  - apply hex_encode_ascii.
  - apply small_ok. unfold signature_text. rewrite hex_encode_length, arr_len. lia.
  - now rewrite parse_signature_text.
Qed.

Lemma ok_public_key : forall k, ok j_public_key 0 k.
Proof.
  intros k. apply text_ok.
  - unfold public_key_text. apply Forall_app. split; [repeat constructor; reflexivity|apply hex_encode_ascii].
  - apply small_ok. unfold public_key_text. rewrite app_length, hex_encode_length, arr_len. cbn. lia.
  - now rewrite parse_public_key_text.
Qed.

Lemma ok_leaf : forall l, ok j_leaf 0 l.
Proof.
  intros l. apply text_ok.
  - apply hex_encode_ascii.
  - apply small_ok. unfold leaf_text. rewrite hex_encode_length, arr_len. lia.
  - unfold leaf_text. assert (E : hex_decode (hex_encode (aval l)) = inl (aval l)) by (apply hex_decode_iff, hex_encode_text).
    rewrite E, arr_len. cbn [Nat.eqb]. now rewrite arr_of_id.
Qed.

Lemma dec_text_length : forall n, N.of_nat (length (dec_text n)) <= N.log2 n + 1.
Proof.
  intros n. unfold dec_text.
  assert (G : forall f m acc, (length (dec_text_fuel f m acc) <= f + length acc)%nat).
  { induction f as [|f IH]; intros m acc; cbn [dec_text_fuel]; [lia|]. cbv zeta.
    destruct (m / 10 =? 0); [cbn [length]; lia|]. etransitivity; [apply IH|]. cbn [length]. lia. }
  specialize (G (S (N.to_nat (N.log2 n))) n []). cbn [length] in G. lia.
Qed.

Lemma dec_text_ok : forall w (n : uint w), w <= 256 -> 0 < w ->
  Forall (fun b => b2n b < 128) (dec_text (uval n)) /\ N.of_nat (length (dec_text (uval n))) <= isize_max.
Proof.
  intros w n Hw Hw0. split.
  - destruct (dec_text_spec (uval n)) as ([_ D] & _). eapply Forall_impl; [|exact D].
    intros b Hb. unfold digit in Hb. lia.
  - pose proof (dec_text_length (uval n)) as L. pose proof (uint_lt _ n) as B.
    assert (N.log2 (uval n) <= 256).
    { destruct (N.eq_dec (uval n) 0) as [->|]; [cbn; lia|].
      apply N.log2_lt_pow2 in B; lia. }
    unfold isize_max. change (2 ^ 63 - 1) with 9223372036854775807. lia.
Qed.

Lemma ok_work : forall w, ok j_work 0 w.
Proof.
  intros w. destruct (dec_text_ok 256 w) as [H1 H2]; [lia|lia|]. apply text_ok; [exact H1|exact H2|].
  now rewrite parse_work_text.
Qed.

Lemma ok_currency : forall p c, ok (j_currency p) 0 c.
Proof.
  intros p c. destruct (dec_text_ok 128 c) as [H1 H2]; [lia|lia|].
  eapply str_ok; [reflexivity|]. cbn [j_currency c_de].
  destruct (de_string_ok (currency_text c)) as (s & -> & E); [now apply utf8_ascii|exact H2|]. cbn [jbind].
  rewrite E. now rewrite parse_currency_text.
Qed.

Lemma ok_specifier : forall s, ok j_specifier 1 s.
Proof.
  intros s. destruct (list_ok _ j_u8 0 (aval s)) as (j & S & D & L & R).
  - apply Forall_forall. intros b _. apply ok_u8.
  - exists j. repeat split; auto. intros j' Rj. cbn [j_specifier c_de]. apply R in Rj.
    cbn [j_list c_de j_u8] in Rj. rewrite Rj. cbn [jbind]. rewrite arr_len. cbn [Nat.eqb]. now rewrite arr_of_id.
Qed.

Lemma colon_app : forall t n, Forall (fun c => c <> ":"%byte) t -> Forall (fun c => c <> ":"%byte) (t ++ repeat x00 n).
Proof.
  intros t n H. apply Forall_app. split; [exact H|]. apply Forall_forall. intros c Hc.
  apply repeat_spec in Hc. subst. discriminate.
Qed.

Lemma utf8_app_ascii : forall a b, utf8_valid a = true -> Forall (fun c => b2n c < 128) b -> utf8_valid (a ++ b) = true.
Proof.
  intros a b Ha Hb. apply utf8_ascii in Hb. apply utf8_spec in Ha, Hb. apply utf8_spec.
  destruct Ha as (x & Fx & ->), Hb as (y & Fy & ->). exists (x ++ y). split; [now apply Forall_app|].
  now rewrite map_app, concat_app.
Qed.

Lemma ok_unlock_key : forall k, json_key k -> ok j_unlock_key 0 k.
Proof.
  intros k (t & n & E & Z & U & C & L).
  assert (Eh : unlock_key_text k = Val (t ++ ascii ":" ++ hex_encode (vlist (uk_key k)))).
  { unfold unlock_key_text. destruct (specifier_print _ t n E Z) as [H1 _]. destruct (H1 U) as [-> _]. reflexivity. }
  set (s := t ++ ascii ":" ++ hex_encode (vlist (uk_key k))) in *.
  assert (Ls : N.of_nat (length s) <= isize_max).
  { unfold s. rewrite !app_length, hex_encode_length. change (length (ascii ":")) with 1%nat.
    unfold u8 in *. lia. }
  assert (Us : utf8_valid s = true).
  { unfold s. apply utf8_app_ascii; [now apply utf8_spec|]. apply Forall_app.
    split; [repeat constructor; reflexivity|apply hex_encode_ascii]. }
  eapply (str_ok _ j_unlock_key k s).
  - cbn [j_unlock_key c_ser]. rewrite Eh. cbn [joutcome jbind]. unfold ser_text.
    destruct (N.leb_spec (N.of_nat (length s)) isize_max); [reflexivity|lia].
  - cbn [j_unlock_key c_de]. destruct (de_string_ok s Us Ls) as (rs & -> & Er). cbn [jbind].
    rewrite (unlock_key_roundtrip k rs); [reflexivity| |now rewrite Er].
    rewrite E. now apply colon_app.
Qed.

(** ** Base64 *)

Lemma b64_fits : forall sz (v : vec sz u8), json_bytes v -> N.of_nat (length (b64_encode (vlist v))) <= isize_max.
Proof.
  intros sz v H. rewrite b64_length. unfold json_bytes in H.
  rewrite Nat2N.inj_mul, Nat2N.inj_div, Nat2N.inj_add. exact H.
Qed.

Lemma b64_utf8 : forall l, utf8_valid (b64_encode l) = true.
Proof. intros l. apply utf8_ascii, b64_ascii. Qed.

Lemma de_b64 : forall (v : vec 1 u8), json_bytes v ->
  (d <- jopt (b64_decode (b64_encode (vlist v))) ;;
   match vec_of 1 d with Some v => JOk v | None => JPanic CapacityOverflow end) = JOk v.
Proof. intros v H. rewrite b64_roundtrip. cbn [jopt jbind]. now rewrite vec_of_vlist. Qed.

Lemma ok_base64 : forall v, json_bytes v -> ok j_base64 0 v.
Proof.
  intros v H. eapply (str_ok _ j_base64 v (b64_encode (vlist v))).
  - cbn [j_base64 c_ser]. unfold ser_base64, ser_text.
    pose proof (b64_fits _ v H). destruct (N.leb_spec (N.of_nat (length (b64_encode (vlist v)))) isize_max); [reflexivity|lia].
  - cbn [j_base64 c_de]. unfold de_base64. rewrite de_text_ok; [now apply de_b64|apply b64_utf8|now apply b64_fits].
Qed.

Lemma ok_vec_base64 : forall v, VecAll json_bytes v -> ok j_vec_base64 1 v.
Proof.
  intros v H. unfold VecAll in H.
  assert (S : jmap ser_base64 (vlist v) = JOk (map (fun x => JStr (b64_encode (vlist x))) (vlist v))).
  { induction H as [|x l Hx _ IH]; [reflexivity|]. cbn [jmap map]. destruct (ok_base64 x Hx) as (j & S & _ & _ & _).
    cbn [j_base64 c_ser] in S. assert (E : @ser_base64 1 x = JOk (JStr (b64_encode (vlist x)))).
    { unfold ser_base64, ser_text. pose proof (b64_fits _ x Hx).
      destruct (N.leb_spec (N.of_nat (length (b64_encode (vlist x)))) isize_max); [reflexivity|lia]. }
    rewrite E. cbn [jbind]. fold (jmap (@ser_base64 1)). now rewrite IH. }
  exists (JArr (map (fun x => JStr (b64_encode (vlist x))) (vlist v))).
  repeat split.
  - cbn [j_vec_base64 c_ser]. unfold ser_vec_base64, ser_vec, ser_list. now rewrite S.
  - constructor. apply Forall_map, Forall_forall. intros x _. constructor.
  - apply (depth_arr 0). apply Forall_map, Forall_forall. intros x _. cbn. lia.
  - intros j' R. apply reordered_arr_inv in R. destruct R as (l' & -> & F).
    assert (l' = map (fun x => JStr (b64_encode (vlist x))) (vlist v)).
    { clear S H. revert l' F. induction (vlist v) as [|x l IH]; intros l' F; inversion F; subst; [reflexivity|].
      cbn [map]. f_equal; [|auto]. match goal with H : Reordered _ _ |- _ => now apply reordered_leaf in H end. }
    subst l'. clear F S. cbn [j_vec_base64 c_de]. unfold de_vec_base64. cbn [de_list].
    assert (G : exists ss, jmap de_string (map (fun x : vec 1 u8 => JStr (b64_encode (vlist x))) (vlist v)) = JOk ss /\
      jmap (fun s : rstring =>
         d <- jopt (b64_decode (vlist (sbytes s))) ;;
         match vec_of 1 d with Some v => JOk v | None => JPanic CapacityOverflow end) ss = JOk (vlist v)).
    { induction H as [|x l Hx _ (ss & E1 & E2)]; [now exists []|]. cbn [map jmap].
      destruct (de_string_ok (b64_encode (vlist x)) (b64_utf8 _) (b64_fits _ x Hx)) as (s & Es & El).
      exists (s :: ss). rewrite Es. cbn [jbind]. fold (jmap de_string). rewrite E1. cbn [jbind]. split; [reflexivity|].
      cbn [jmap]. rewrite El, (de_b64 x Hx). cbn [jbind].
      match goal with |- (l' <- ?m ;; _) = _ => change m with (jmap (fun s : rstring =>
         d <- jopt (b64_decode (vlist (sbytes s))) ;;
         match vec_of 1 d with Some v => JOk v | None => JPanic CapacityOverflow end) ss) end.
      now rewrite E2. }
    destruct G as (ss & E1 & E2). unfold u8 in *. rewrite E1. cbn [jbind]. rewrite E2. cbn [jbind].
    now rewrite vec_of_vlist.
Qed.

(** ** Times and durations *)

Lemma stamp_text : forall t, json_time t -> exists s, rfc3339_text t = Some s /\ utf8_valid s = true /\
  N.of_nat (length s) <= isize_max /\ parse_rfc3339 s = Some t.
Proof.
  intros t H. destruct (rfc3339_text_some t H) as [s E]. exists s. destruct (rfc3339_ascii _ _ E) as [A L].
  repeat split; auto; [now apply utf8_ascii|apply small_ok; lia|now apply parse_rfc3339_text].
Qed.

Lemma ok_odt : forall t, json_time t -> ok j_odt 0 t.
Proof.
  intros t H. destruct (stamp_text t H) as (s & E & U & L & P).
  eapply (str_ok _ j_odt t s).
  - cbn [j_odt c_ser]. unfold ser_odt. now rewrite E.
  - cbn [j_odt c_de]. unfold de_odt. rewrite de_text_ok; auto. now rewrite P.
Qed.

(** Reading a list of texts: the stamps, then the epoch. *)
Lemma read_timestamps_ok : forall ts js acc, (length acc + length ts <= 11)%nat ->
  Forall2 (fun t j => exists s, de_string j = JOk s /\ parse_rfc3339 (vlist (sbytes s)) = Some t) ts js ->
  read_timestamps acc js = JOk (rev acc ++ ts ++ repeat unix_epoch (11 - length acc - length ts)).
Proof.
  intros ts js acc L F. revert acc L. induction F as [|t j ts js (s & E & P) _ IH]; intros acc L.
  - cbn [read_timestamps length app]. now rewrite Nat.sub_0_r.
  - cbn [read_timestamps]. rewrite E. cbn [jbind]. cbn [length] in L.
    destruct (Nat.leb_spec 11 (length acc)); [lia|]. rewrite P. cbn [jopt jbind].
    rewrite IH by (cbn [length]; lia). cbn [rev length]. rewrite <- app_assoc. cbn [app].
    f_equal. f_equal. f_equal. f_equal. f_equal. lia.
Qed.

Lemma ok_timestamps : forall a, Forall json_time (flist a) -> ok j_timestamps 1 a.
Proof.
  intros a H.
  assert (G : exists js, jmap ser_odt (flist a) = JOk js /\ Forall (fun j => exists s, j = JStr s) js /\
    Forall2 (fun t j => exists s, de_string j = JOk s /\ parse_rfc3339 (vlist (sbytes s)) = Some t) (flist a) js).
  { induction H as [|t l Ht _ (js & E & S & F)]; [exists []; repeat split; constructor|].
    destruct (stamp_text t Ht) as (s & Es & U & L & P). exists (JStr s :: js). cbn [jmap].
    unfold ser_odt at 1. rewrite Es. cbn [jbind]. fold (jmap ser_odt). rewrite E. repeat split.
    - constructor; eauto.
    - constructor; [|exact F]. destruct (de_string_ok s U L) as (r & E1 & E2). exists r. split; [exact E1|]. now rewrite E2. }
  destruct G as (js & E & S & F). exists (JArr js). repeat split.
  - cbn [j_timestamps c_ser]. unfold ser_timestamps, ser_list. now rewrite E.
  - constructor. eapply Forall_impl; [|exact S]. intros j [s ->]. constructor.
  - apply (depth_arr 0). eapply Forall_impl; [|exact S]. intros j [s ->]. cbn. lia.
  - intros j' R. apply reordered_arr_inv in R. destruct R as (js' & -> & F').
    assert (js' = js).
    { clear E F. revert js' F'. induction S as [|j js [s ->] _ IH]; intros js' F'; inversion F'; subst; [reflexivity|].
      f_equal; [|auto]. match goal with H : Reordered _ _ |- _ => now apply reordered_leaf in H end. }
    subst js'. cbn [j_timestamps c_de de_timestamps]. pose proof (farr_len _ _ a) as FL.
    rewrite (read_timestamps_ok (flist a) js []); [|cbn; lia|exact F].
    cbn [jbind rev app length]. rewrite FL. cbn [Nat.sub repeat]. rewrite app_nil_r. now rewrite farr_of_flist.
Qed.

Lemma ok_duration : forall d, json_duration d -> ok j_duration 0 d.
Proof.
  intros d H. eapply uint_ok; [reflexivity|]. cbn [j_duration c_de]. unfold de_duration. cbn [de_u64 jbind].
  f_equal. apply duration_eq. cbn [nanoseconds dur_ns].
  assert (K : ((- 2 ^ (Z.of_N 64 - 1) <=? dur_ns d) && (dur_ns d <? 2 ^ (Z.of_N 64 - 1)))%Z = true).
  { apply andb_true_iff. rewrite Z.leb_le, Z.ltb_lt. exact H. }
  change (whole_nanoseconds_u64 d) with (s_as_u64 (@MkSint 64 (dur_ns d) K)).
  now rewrite swrap_u64 by lia.
Qed.
