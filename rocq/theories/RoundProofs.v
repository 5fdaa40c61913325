(** Times with a fraction of a second, and thresholds with too many children, on the wire. *)

From Verif Require Import Base Io IoProofs Spec SpecWire SpecRound Codec Model_encoding EncodingProofs CodecTac
  Model_common CommonProofs Model_v1 V1Proofs Model_policy PolicyProofs BasicProofs Samples.
Local Open Scope N_scope.

Lemma odt_whole_ok : forall t : odt, (ts_min <=? odt_secs t)%Z && (odt_secs t <=? ts_max)%Z && (0 <? 1000000000) = true.
Proof. intros [s n h]. cbn [odt_secs]. apply andb_true_iff in h as [h _]. now rewrite h. Qed.
Definition whole (t : odt) : odt := MkOdt (odt_secs t) 0 (odt_whole_ok t).

Lemma whole_timestamp : forall t, unix_timestamp (whole t) = unix_timestamp t.
Proof. intros t. apply sint_eq. reflexivity. Qed.

Fixpoint whole_policy (q : policy) : policy :=
  match q with
  | PAfter t => PAfter (whole t)
  | PThreshold n of => PThreshold n (map whole_policy of)
  | q => q
  end.

Lemma whole_rounded : forall q, Rounded q (whole_policy q).
Proof.
  intros q. induction q using policy_ind'; cbn [whole_policy]; constructor; try reflexivity.
  induction H; cbn [map]; constructor; assumption.
Qed.

Lemma whole_type : forall q, type_prefix (whole_policy q) = type_prefix q.
Proof. now intros []. Qed.

Lemma whole_bytes : forall q, encode_policy_body (whole_policy q) = encode_policy_body q.
Proof.
  intros q. induction q using policy_ind'; cbn [whole_policy encode_policy_body type_prefix]; try reflexivity.
  rewrite map_length, map_map. do 3 f_equal. f_equal. induction H as [|r l Hr Hl IH]; [reflexivity|]. cbn [map]. now rewrite Hr, IH.
Qed.

Lemma whole_depth : forall q, depth (whole_policy q) = depth q.
Proof.
  intros q. induction q using policy_ind'; cbn [whole_policy depth]; try reflexivity. f_equal.
  induction H as [|r l Hr Hl IH]; [reflexivity|]. cbn [map fold_right]. now rewrite Hr, IH.
Qed.

Lemma whole_encodable : forall q, Narrow q -> encodable (whole_policy q).
Proof.
  intros q. induction q using policy_ind'; intros N; cbn [whole_policy encodable]; try exact I; [reflexivity|].
  inversion N as [n' of' L F|q' D]; subst; [|exfalso; exact (D _ _ eq_refl)]. rewrite map_length. split; [lia|].
  clear N L. induction H as [|r l Hr Hl IH]; [exact I|]. inversion F; subst. cbn [map fold_right]. split; [now apply Hr|now apply IH].
Qed.

Lemma policy_rounded : forall stack q rest, Narrow q -> (depth q <= stack)%nat ->
  exists r, run (decode_policy stack) (wbytes (encode_policy q) ++ rest) = ROk r rest /\ Rounded q r.
Proof.
  intros stack q rest N D. exists (whole_policy q). split; [|apply whole_rounded].
  assert (E : encode_policy q = encode_policy (whole_policy q)) by (unfold encode_policy; now rewrite whole_bytes).
  rewrite E. apply rt_policy. split; [now apply whole_encodable|now rewrite whole_depth].
Qed.

Lemma Forall2_unique : forall A B (P : A -> B -> Prop) l m m',
  Forall (fun a => forall b b', P a b -> P a b' -> b = b') l -> Forall2 P l m -> Forall2 P l m' -> m = m'.
Proof.
  intros A B P l m m' H H1. revert m'. induction H1; intros m' H2; inversion H2; subst; [reflexivity|].
  inversion H; subst. f_equal; auto.
Qed.

Lemma rounded_unique : forall q r r', Rounded q r -> Rounded q r' -> r = r'.
Proof.
  intros q. induction q using policy_ind'; intros r r' H1 H2; inversion H1; inversion H2; subst; try reflexivity.
  - f_equal. apply odt_eq; congruence.
  - f_equal. eapply Forall2_unique; eassumption.
Qed.

(** ** Too many children *)

Lemma body_bytes : forall q, wbytes (encode_policy q) = x01 :: wbytes (encode_policy_body q).
Proof. intros q. unfold encode_policy. rewrite wbytes_app_p by apply prop_u8. reflexivity. Qed.

Lemma policy_many : forall stack n l rest, Forall (policy_fits stack) l ->
  let c := (length l mod 256)%nat in
  run (decode_policy (S stack)) (wbytes (encode_policy (PThreshold n l)) ++ rest) =
    ROk (PThreshold n (firstn c l)) (concat (map (fun q => tl (wbytes (encode_policy q))) (skipn c l)) ++ rest).
Proof.
  intros stack n l rest F c.
  assert (C : (c < 256)%nat) by (apply Nat.mod_upper_bound; discriminate).
  assert (Lc : (c <= length l)%nat) by (apply Nat.mod_le; discriminate).
  assert (E : wbytes (encode_policy (PThreshold n l)) ++ rest =
    wbytes (encode_policy (PThreshold n (firstn c l))) ++
      (concat (map (fun q => tl (wbytes (encode_policy q))) (skipn c l)) ++ rest)).
  { rewrite !body_bytes. cbn [encode_policy_body type_prefix].
    rewrite !wbytes_app_p by (first [apply propagates_write_all | apply prop_u8]).
    rewrite !wbytes_concat_map_body.
    assert (K : N.of_nat (length l) mod 256 = N.of_nat (length (firstn c l)) mod 256).
    { rewrite firstn_length, Nat.min_l by exact Lc. unfold c.
      rewrite Nnat.Nat2N.inj_mod. change (N.of_nat 256) with 256. symmetry. apply N.mod_mod. discriminate. }
    rewrite K. set (w := N.of_nat (length (firstn c l)) mod 256).
    rewrite <- (firstn_skipn c l) at 1. rewrite map_app, concat_app.
    assert (M : map (fun q => tl (wbytes (encode_policy q))) (skipn c l) = map (fun q => wbytes (encode_policy_body q)) (skipn c l)).
    { apply map_ext. intros q. now rewrite body_bytes. }
    rewrite M. cbn [app]. rewrite <- !app_assoc. reflexivity. }
  rewrite E. clear E. apply rt_policy. split; cbn [encodable depth].
  - rewrite firstn_length, Nat.min_l by exact Lc. split; [exact C|].
    assert (G : Forall (policy_fits stack) (firstn c l)) by (rewrite <- (firstn_skipn c l) in F; now apply Forall_app in F as [F _]).
    clear - G. induction G as [|q m [Q _] G IH]; [exact I|]. cbn [fold_right]. now split.
  - apply le_n_S.
    assert (G : Forall (policy_fits stack) (firstn c l)) by (rewrite <- (firstn_skipn c l) in F; now apply Forall_app in F as [F _]).
    clear - G. induction G as [|q m [_ Q] G IH]; cbn [fold_right]; [lia|]. lia.
Qed.

(** ** Timestamps and durations *)

Lemma timestamp_rounded : forall (t : odt) rest, exists u,
  run decode_odt (wbytes (encode_odt t) ++ rest) = ROk u rest /\ odt_secs u = odt_secs t /\ odt_nanos u = 0.
Proof.
  intros t rest. exists (whole t). split; [|split; reflexivity].
  assert (E : encode_odt t = encode_odt (whole t)) by (unfold encode_odt; now rewrite whole_timestamp).
  rewrite E. now apply rt_odt.
Qed.

Lemma timestamp_layout : forall t : odt, length (wbytes (encode_odt t)) = 8%nat /\
  Z.of_N (le_value (wbytes (encode_odt t))) = (odt_secs t mod 2 ^ 64)%Z.
Proof. intros t. apply (sint_layout 64 (unix_timestamp t)). discriminate. Qed.

Lemma duration_layout : forall d : duration, length (wbytes (encode_duration d)) = 8%nat /\
  Z.of_N (le_value (wbytes (encode_duration d))) = (dur_ns d mod 2 ^ 64)%Z.
Proof.
  intros d. destruct (uint_layout 64 (whole_nanoseconds_u64 d)) as [L V]; [discriminate|]. split; [exact L|].
  unfold encode_duration, encode_u64. rewrite V. unfold whole_nanoseconds_u64.
  pose proof (Z.mod_pos_bound (dur_ns d) (2 ^ 64) eq_refl) as B.
  rewrite uwrap_small; [apply Z2N.id; lia|]. apply N2Z.inj_lt. rewrite Z2N.id by lia. apply B.
Qed.

(** 257 children: the decoder returns the first one. *)
Lemma many_example : let l := repeat (PAbove (uwrap 64 7)) 257 in Forall (policy_fits 1) l /\ (length l mod 256 = 1)%nat.
Proof. split; [|reflexivity]. apply Forall_forall. intros q H. apply repeat_spec in H as ->. split; [exact I|cbn; lia]. Qed.

Lemma rounded_example : exists t, odt_nanos t <> 0 /\ Narrow (PThreshold x01 [PAfter t]) /\ depth (PThreshold x01 [PAfter t]) = 2%nat.
Proof.
  exists (MkOdt 1433600000 5 eq_refl). split; [discriminate|]. split; [|reflexivity].
  constructor; [cbn; lia|]. constructor; [|constructor]. apply Narrow_other. discriminate.
Qed.
