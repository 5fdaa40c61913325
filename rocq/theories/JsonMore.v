(** Base64 payloads, timestamp arrays and the values without a JSON form. *)

From Coq Require Import Permutation.
From Verif Require Import Base Io SpecUtf8 SpecText SpecWire SpecFormat SpecBase64 Model_encoding Model_common Model_v1 Model_currency
  Model_policy Model_v2 Model_consensus Model_text Model_json Model_jsontypes SpecJson JsonProofs Base64Proofs Base64Spec TimeProofs
  JsonLeafProofs TextMore JsonTypeProofs JsonStateProofs BasicProofs Samples.
Local Open Scope N_scope.
Local Open Scope jres_scope.

(** ** Base64 *)

Lemma base64_ser : forall v : vec 1 u8, json_bytes v -> c_ser j_base64 v = JOk (JStr (b64_encode (vlist v))).
Proof.
  intros v H. cbn [j_base64 c_ser]. unfold ser_base64, ser_text. pose proof (b64_fits _ v H).
  destruct (N.leb_spec (N.of_nat (length (b64_encode (vlist v)))) isize_max); [reflexivity|lia].
Qed.

Lemma base64_written : forall v : vec 1 u8, json_bytes v ->
  exists s, c_ser j_base64 v = JOk (JStr s) /\ Base64Text s (vlist v) /\ c_de j_base64 (JStr s) = JOk v.
Proof.
  intros v H. exists (b64_encode (vlist v)). split; [now apply base64_ser|]. split; [apply encode_is_base64|].
  destruct (ok_base64 v H) as (j & E & _ & _ & R). rewrite base64_ser in E by exact H.
  assert (j = JStr (b64_encode (vlist v))) by congruence. subst j. apply R. constructor.
Qed.

Lemma base64_accepts : forall s (v : vec 1 u8), c_de j_base64 (JStr s) = JOk v -> Base64Text s (vlist v).
Proof.
  intros s v H. cbn [j_base64 c_de] in H. unfold de_base64, de_text in H. cbn [de_string] in H.
  destruct (vec_of 1 s) as [w|] eqn:Ew; cbn [jopt jbind] in H; [|discriminate].
  destruct (rstring_of w) as [r|] eqn:Er; cbn [jopt jbind] in H; [|discriminate].
  assert (Es : vlist (sbytes r) = s).
  { apply vec_of_some in Ew. unfold rstring_of in Er. destruct (bool_dec (utf8_valid (vlist w)) true); [|discriminate].
    assert (r = MkStr w e) by congruence. subst r. exact Ew. }
  rewrite Es in H. destruct (b64_decode s) as [l|] eqn:El; cbn [jopt jbind] in H; [|discriminate].
  destruct (vec_of 1 l) as [v'|] eqn:Ev; [|discriminate]. assert (v = v') by congruence. subst v'.
  apply vec_of_some in Ev. unfold u8 in *. rewrite Ev. now apply base64_decode_iff.
Qed.

Lemma base64_reads : forall s (v : vec 1 u8), Base64Text s (vlist v) -> N.of_nat (length s) <= isize_max ->
  c_de j_base64 (JStr s) = JOk v.
Proof.
  intros s v H L. apply base64_is_encode in H. subst s.
  destruct (base64_written v) as (s & E & T & R).
  - unfold json_bytes. unfold u8 in *. rewrite b64_length in L. rewrite Nat2N.inj_mul, Nat2N.inj_div, Nat2N.inj_add in L. exact L.
  - apply base64_is_encode in T. now subst s.
Qed.

Lemma base64_reject : forall s, (forall l, ~ Base64Text s l) -> c_de j_base64 (JStr s) = JErr.
Proof.
  intros s H. destruct (c_de j_base64 (JStr s)) as [v| |p] eqn:E; [|reflexivity|].
  - apply base64_accepts in E. now apply H in E.
  - exfalso. cbn [j_base64 c_de] in E. unfold de_base64, de_text in E. cbn [de_string] in E.
    destruct (vec_of 1 s) as [w|] eqn:Ew; cbn [jopt jbind] in E; [|discriminate].
    destruct (rstring_of w) as [r|] eqn:Er; cbn [jopt jbind] in E; [|discriminate].
    destruct (b64_decode (vlist (sbytes r))) as [l|] eqn:El; cbn [jopt jbind] in E; [|discriminate].
    assert (Es : vlist (sbytes r) = s).
    { apply vec_of_some in Ew. unfold rstring_of in Er. destruct (bool_dec (utf8_valid (vlist w)) true); [|discriminate].
      assert (r = MkStr w e) by congruence. subst r. exact Ew. }
    rewrite Es in El. apply base64_decode_iff in El. exact (H l El).
Qed.

(** ** Timestamp arrays *)

Lemma stamp_reads : forall j t, c_de j_odt j = JOk t ->
  exists s, de_string j = JOk s /\ parse_rfc3339 (vlist (sbytes s)) = Some t.
Proof.
  intros j t H. cbn [j_odt c_de] in H. unfold de_odt, de_text in H.
  destruct (de_string j) as [s| |]; cbn [jbind] in H; try discriminate. exists s. split; [reflexivity|].
  destruct (parse_rfc3339 _); cbn [jopt] in H; [congruence|discriminate].
Qed.

Lemma stamps_read : forall ts js, (length ts <= 11)%nat -> Forall2 (fun t j => c_de j_odt j = JOk t) ts js ->
  exists a, c_de j_timestamps (JArr js) = JOk a /\ flist a = ts ++ repeat unix_epoch (11 - length ts).
Proof.
  intros ts js L F. cbn [j_timestamps c_de de_timestamps].
  rewrite (read_timestamps_ok ts js []).
  - cbn [jbind rev app length]. rewrite Nat.sub_0_r.
    destruct (farr_of_ok 11 _ (ts ++ repeat unix_epoch (11 - length ts))) as [a E].
    { rewrite app_length, repeat_length. lia. }
    exists a. rewrite E. split; [reflexivity|]. now apply farr_of_some in E.
  - cbn. lia.
  - clear L. induction F as [|t j ts js H F IH]; constructor; [now apply stamp_reads|exact IH].
Qed.

Lemma read_stamps_inv : forall js acc l, read_timestamps acc js = JOk l -> exists ts,
  Forall2 (fun t j => c_de j_odt j = JOk t) ts js /\ (length acc + length ts <= 11 \/ ts = [])%nat /\
  l = rev acc ++ ts ++ repeat unix_epoch (11 - length acc - length ts).
Proof.
  induction js as [|j js IH]; intros acc l H; cbn [read_timestamps] in H.
  - exists []. repeat split; [constructor|now right|]. cbn [app length]. rewrite Nat.sub_0_r.
    assert (l = rev acc ++ repeat unix_epoch (11 - length acc)) by congruence. assumption.
  - destruct (de_string j) as [s| |] eqn:Es; cbn [jbind] in H; try discriminate.
    destruct (Nat.leb_spec 11 (length acc)); [discriminate|].
    destruct (parse_rfc3339 (vlist (sbytes s))) as [t|] eqn:Ep; cbn [jopt jbind] in H; [|discriminate].
    apply IH in H. destruct H as (ts & F & L & E). exists (t :: ts). repeat split.
    + constructor; [|exact F]. cbn [j_odt c_de]. unfold de_odt, de_text. rewrite Es. cbn [jbind]. now rewrite Ep.
    + left. cbn [length] in *. destruct L as [L| ->]; [lia|cbn [length]; lia].
    + rewrite E. cbn [rev length]. rewrite <- app_assoc. cbn [app].
      replace (11 - S (length acc) - length ts)%nat with (11 - length acc - S (length ts))%nat by lia. reflexivity.
Qed.

Lemma stamps_accepted : forall js a, c_de j_timestamps (JArr js) = JOk a -> exists ts,
  Forall2 (fun t j => c_de j_odt j = JOk t) ts js /\ (length ts <= 11)%nat /\
  flist a = ts ++ repeat unix_epoch (11 - length ts).
Proof.
  intros js a H. cbn [j_timestamps c_de de_timestamps] in H.
  destruct (read_timestamps [] js) as [l| |] eqn:E; cbn [jbind] in H; try discriminate.
  apply read_stamps_inv in E. destruct E as (ts & F & L & E). exists ts. split; [exact F|].
  cbn [rev app length] in E, L. rewrite Nat.sub_0_r in E.
  destruct (farr_of 11 l) as [b|] eqn:Eb; cbn [jopt] in H; [|discriminate]. assert (a = b) by congruence. subst b.
  apply farr_of_some in Eb. split; [destruct L as [L| ->]; [lia|cbn; lia]|congruence].
Qed.

Lemma forall2_len : forall A B (R : A -> B -> Prop) l m, Forall2 R l m -> length l = length m.
Proof. induction 1; cbn; auto. Qed.

Lemma rstring_no_panic : forall j p, de_string j <> JPanic p.
Proof.
  intros j p. destruct j; cbn [de_string]; try discriminate.
  destruct (vec_of 1 s); cbn [jopt jbind]; [|discriminate]. destruct (rstring_of v); discriminate.
Qed.

Lemma stamps_no_panic : forall js acc p, read_timestamps acc js <> JPanic p.
Proof.
  induction js as [|j js IH]; intros acc p; cbn [read_timestamps]; [discriminate|].
  destruct (de_string j) as [s| |q] eqn:E; cbn [jbind]; try discriminate.
  - destruct (Nat.leb 11 (length acc)); [discriminate|]. destruct (parse_rfc3339 _); cbn [jopt jbind]; [apply IH|discriminate].
  - now apply rstring_no_panic in E.
Qed.

Lemma stamps_long : forall js, (11 < length js)%nat -> c_de j_timestamps (JArr js) = JErr.
Proof.
  intros js L. destruct (c_de j_timestamps (JArr js)) as [a| |p] eqn:E; [|reflexivity|].
  - apply stamps_accepted in E. destruct E as (ts & F & L' & _). apply forall2_len in F. lia.
  - exfalso. cbn [j_timestamps c_de de_timestamps] in E.
    destruct (read_timestamps [] js) as [l| |q] eqn:Er; cbn [jbind] in E; try discriminate.
    + destruct (farr_of 11 l); discriminate.
    + now apply stamps_no_panic in Er.
Qed.

Lemma stamps_early : forall a, ~ Forall json_time (flist a) -> c_ser j_timestamps a = JErr.
Proof.
  intros a H. cbn [j_timestamps c_ser]. unfold ser_timestamps, ser_list.
  enough (E : jmap ser_odt (flist a) = JErr) by now rewrite E.
  induction (flist a) as [|t l IH]; [exfalso; apply H; constructor|]. cbn [jmap]. fold (jmap ser_odt).
  destruct (Z.le_gt_cases year0 (odt_secs t)) as [L|L].
  - destruct (rfc3339_text_some t L) as [s E]. unfold ser_odt at 1. rewrite E. cbn [jbind].
    rewrite IH; [reflexivity|]. intros F. apply H. constructor; [exact L|exact F].
  - unfold ser_odt at 1. rewrite (rfc3339_text_none t L). reflexivity.
Qed.

(** ** Values without a JSON form *)

Lemma survives_inv : forall A (c : codec A) d a j, SurvivesJson c d a -> c_ser c a = JOk j -> c_de c j = JOk a.
Proof. intros A c d a j (j' & E & _ & _ & R & _) E'. assert (j = j') by congruence. subst. apply R. constructor. Qed.

Lemma from_unix_nanos : forall z t, from_unix_timestamp z = Some t -> odt_nanos t = 0.
Proof.
  intros z t. unfold from_unix_timestamp. destruct (bool_dec _ _); [|discriminate]. intros H.
  apply (f_equal (fun o => match o with Some x => x | None => t end)) in H. cbv beta iota in H. now subst t.
Qed.

Lemma after_ser : forall t, ser_policy (PAfter t) =
  JOk (JObj [(ascii "type", JStr (ascii "after")); (ascii "policy", JUint (s_as_u64 (unix_timestamp t)))]).
Proof. reflexivity. Qed.

Lemma after_read : forall stack n x,
  de_policy stack (JObj [(ascii "type", JStr (ascii "after")); (ascii "policy", JUint n)]) = JOk x ->
  exists t, x = PAfter t /\ odt_nanos t = 0.
Proof.
  intros [|st] n x H; [discriminate|].
  change (de_policy (S st) (JObj [(ascii "type", JStr (ascii "after")); (ascii "policy", JUint n)])) with
    (tv <- visit_policy None None [(ascii "type", JStr (ascii "after")); (ascii "policy", JUint n)] ;;
     t <- jopt (fst tv) ;; v <- jopt (snd tv) ;; policy_body st t v) in H.
  assert (V : visit_policy None None [(ascii "type", JStr (ascii "after")); (ascii "policy", JUint n)] =
    JOk (Some (ascii "after"), Some (JUint n))) by reflexivity.
  rewrite V in H. cbn [jbind fst snd jopt] in H. unfold policy_body in H.
  change (bytes_eqb (ascii "after") (ascii "above")) with false in H.
  change (bytes_eqb (ascii "after") (ascii "after")) with true in H. cbv iota in H.
  cbn [j_u64 c_de de_u64 jbind] in H.
  destruct (from_unix_timestamp _) as [t|] eqn:E; cbn [jopt jbind] in H; [|discriminate].
  exists t. split; [congruence|]. now apply from_unix_nanos in E.
Qed.

Lemma after_fraction : forall stack d t, odt_nanos t <> 0 -> ~ SurvivesJson (j_policy stack) d (PAfter t).
Proof.
  intros stack d t H S. pose proof (survives_inv _ _ _ _ _ S (after_ser t)) as R.
  apply after_read in R. destruct R as (t' & E & Z). assert (t = t') by congruence. now subst.
Qed.

(** The document of a policy has three levels for each threshold. *)
Lemma jmap_in : forall A B (f : A -> jres B) l m a, jmap f l = JOk m -> In a l -> exists b, In b m /\ f a = JOk b.
Proof.
  intros A B f. induction l as [|x l IH]; intros m a H I; [destruct I|]. cbn [jmap] in H. fold (jmap f) in H.
  destruct (f x) as [b| |] eqn:E; cbn [jbind] in H; try discriminate.
  destruct (jmap f l) as [m'| |] eqn:E'; cbn [jbind] in H; try discriminate.
  assert (m = b :: m') by congruence. subst m. destruct I as [->|I].
  - exists b. split; [now left|exact E].
  - destruct (IH _ _ eq_refl I) as (b' & I' & F). exists b'. split; [now right|exact F].
Qed.

Lemma depth_in_arr : forall l j, In j l -> json_depth j + 1 <= json_depth (JArr l).
Proof.
  intros l j H. cbn [json_depth]. enough (json_depth j <= fold_right (fun x m => N.max (json_depth x) m) 0 l) by lia.
  induction l as [|x l IH]; [destruct H|]. cbn [fold_right]. destruct H as [->|H]; [lia|]. apply IH in H. lia.
Qed.

Lemma depth_in_obj : forall l k j, In (k, j) l -> json_depth j + 1 <= json_depth (JObj l).
Proof.
  intros l k j H. cbn [json_depth].
  enough (json_depth j <= fold_right (fun (kv : bytes * json) m => N.max (json_depth (snd kv)) m) 0 l) by lia.
  induction l as [|x l IH]; [destruct H|]. cbn [fold_right]. destruct H as [->|H]; [cbn [snd]; lia|]. apply IH in H. lia.
Qed.

Lemma depth_child : forall l, (forall q, In q l -> True) ->
  exists q, (l = [] /\ fold_right (fun q acc => Nat.max (depth q) acc) O l = O) \/
            (In q l /\ fold_right (fun q acc => Nat.max (depth q) acc) O l = depth q).
Proof.
  induction l as [|x l IH]; intros _; [exists (PAbove (s_u64 0)); now left|]. cbn [fold_right].
  destruct (IH (fun _ _ => I)) as (q & [[-> E]|[Hq E]]).
  - exists x. right. split; [now left|]. cbn [fold_right]. lia.
  - destruct (Nat.max_dec (depth x) (fold_right (fun q acc => Nat.max (depth q) acc) O l)) as [M|M]; rewrite M.
    + exists x. right. split; [now left|reflexivity].
    + exists q. right. split; [now right|exact E].
Qed.

Lemma reordered_sym : forall j j', Reordered j j' -> Reordered j' j.
Proof.
  intros j. induction j as [| | | | | |l IH|l IH] using json_rect'; intros j' R;
    try (apply reordered_leaf in R; cbn in R; subst j'; constructor).
  - apply reordered_arr_inv in R. destruct R as (l' & -> & F). apply reordered_array.
    revert l' F. induction IH as [|x l Hx _ IHl]; intros l' F; inversion F; subst; constructor; auto.
  - apply reordered_obj_inv in R. destruct R as (m & l' & -> & F & P).
    assert (F' : Forall2 (fun x y : bytes * json => fst x = fst y /\ Reordered (snd x) (snd y)) m l).
    { clear P l'. revert m F. induction IH as [|x l Hx _ IHl]; intros m F; inversion F as [|? ? ? ? [E R]]; subst; constructor; auto. }
    destruct (Permutation_Forall2 P F') as (l2 & P2 & F2).
    apply reordered_object with (m := l2); [exact F2|now apply Permutation_sym].
Qed.

Lemma value_depth : forall j, DistinctKeys j -> json_depth j <= json_depth (value_of j).
Proof. intros j D. apply depth_reordered. apply reordered_sym. now apply value_of_reordered. Qed.

Lemma policy_child : forall n of q, json_policy (PThreshold n of) -> In q of -> json_policy q.
Proof.
  intros n of q H. cbn [json_policy] in H. induction of as [|x of IH]; intros I; [destruct I|].
  destruct H as [H1 H2]. destruct I as [->|I]; auto.
Qed.

Lemma policy_distinct : forall x j, json_policy x -> ser_policy x = JOk j -> DistinctKeys j.
Proof.
  intros x j H E. destruct (ok_policy (depth x) (depth x) x) as (j' & E' & D & _); [lia|split; [exact H|lia]|].
  cbn [j_policy c_ser] in E'. assert (j = j') by congruence. now subst.
Qed.

Lemma doc_object : forall x j, ser_policy x = JOk j -> exists v, j = JObj [(ascii "type", JStr (type_str x)); (ascii "policy", v)].
Proof.
  intros x j E. destruct x; cbn [ser_policy] in E;
    match type of E with (jbind ?r _ = _) => destruct r as [v| |]; cbn [jbind] in E; try discriminate | _ => idtac end;
    eexists; symmetry; apply (f_equal (fun r => match r with JOk y => y | _ => j end)) in E; cbv beta iota in E; exact E.
Qed.

Lemma doc_depth : forall x j, json_policy x -> ser_policy x = JOk j ->
  3 * N.of_nat (depth x) <= json_depth j + 2.
Proof.
  intros x. induction x as [h|t|pk|h|n of IH|a|u] using policy_ind'; intros j H E;
    destruct (doc_object _ _ E) as [v Ev];
    try (subst j; cbn [depth json_depth]; lia).
  rewrite ser_threshold in E. cbn [j_u8 c_ser ser_u8 junwrap jbind] in E.
  destruct (jmap ser_policy of) as [l| |] eqn:El; cbn [junwrap jbind] in E; try discriminate.
  set (w := JObj [(ascii "n", JUint (uwrap 64 (b2n n))); (ascii "of", JArr l)]) in E.
  assert (Ew : v = value_of w).
  { subst j. apply (f_equal (fun r => match r with JOk (JObj [_; (_, y)]) => y | _ => v end)) in E. cbv beta iota in E. now symmetry. }
  assert (Dw : DistinctKeys w).
  { constructor.
    - apply distinct_names_nodup. reflexivity.
    - repeat constructor. cbn [snd]. apply Forall_forall. intros y Hy.
      assert (G : exists q, In q of /\ ser_policy q = JOk y).
      { clear -El Hy. revert l El Hy. induction of as [|q of IHo]; intros l El Hy.
        - cbn in El. assert (l = []) by congruence. subst. destruct Hy.
        - cbn [jmap] in El. fold (jmap ser_policy) in El. destruct (ser_policy q) as [b| |] eqn:Eq; cbn [jbind] in El; try discriminate.
          destruct (jmap ser_policy of) as [m| |]; cbn [jbind] in El; try discriminate.
          assert (l = b :: m) by congruence. subst l. destruct Hy as [<-|Hy]; [exists q; split; [now left|exact Eq]|].
          destruct (IHo m eq_refl Hy) as (q' & I & E). exists q'. split; [now right|exact E]. }
      destruct G as (q & Hq & Eq). apply (policy_distinct q); [|exact Eq]. eapply policy_child; eauto. }
  assert (L1 : json_depth v + 1 <= json_depth j).
  { rewrite Ev. eapply depth_in_obj. right. now left. }
  assert (L2 : json_depth w <= json_depth v) by (rewrite Ew; now apply value_depth).
  assert (L3 : json_depth (JArr l) + 1 <= json_depth w).
  { unfold w. eapply depth_in_obj. right. now left. }
  cbn [depth]. destruct (depth_child of (fun _ _ => I)) as (q & [[-> Z]|[Hq Z]]); rewrite Z.
  - cbn [json_depth] in L3. lia.
  - destruct (jmap_in _ _ _ _ _ _ El Hq) as (y & Hy & Ey). apply depth_in_arr in Hy.
    rewrite Forall_forall in IH. pose proof (IH q Hq y (policy_child _ _ _ H Hq) Ey). lia.
Qed.

Lemma policy_text_depth : forall stack x, json_policy x -> (44 <= depth x)%nat -> ~ SurvivesText (j_policy stack) x.
Proof.
  intros stack x H L (j & E & T). cbn [j_policy c_ser] in E. pose proof (doc_depth x j H E).
  unfold from_text, text_depth_limit in T. destruct (N.ltb_spec (json_depth j) 128); [lia|discriminate].
Qed.

Lemma duration_lost : forall depth d, ~ json_duration d -> ~ SurvivesJson j_duration depth d.
Proof.
  intros depth d H S. pose proof (survives_inv _ _ _ _ _ S eq_refl) as R. cbn [j_duration c_de] in R.
  unfold de_duration in R. cbn [de_u64 jbind] in R.
  apply (f_equal (fun r => match r with JOk y => dur_ns y | _ => 0%Z end)) in R. cbv beta iota in R.
  apply H. unfold json_duration. rewrite <- R. unfold nanoseconds. cbn [dur_ns].
  match goal with |- context [sval ?z] => exact (sint_range 64 z) end.
Qed.

Lemma accumulator_lost : forall depth a, ~ ea_normal a -> ~ SurvivesJson j_element_accumulator depth a.
Proof.
  intros depth a H S. destruct S as (j & E & _ & _ & R & _). specialize (R j (reordered_same j)).
  apply accumulator_shape in R. destruct R as (x & _ & _ & _ & N). contradiction.
Qed.

Lemma colon_lost : forall depth, ~ SurvivesJson j_unlock_key depth colon_key.
Proof.
  intros depth S.
  assert (E : c_ser j_unlock_key colon_key = JOk (JStr (ascii "a:b:01"))) by (vm_compute; reflexivity).
  pose proof (survives_inv _ _ _ _ _ S E) as R.
  assert (E2 : c_de j_unlock_key (JStr (ascii "a:b:01")) = JErr) by (vm_compute; reflexivity).
  rewrite E2 in R. discriminate.
Qed.

Lemma early_lost : forall depth t, ~ json_time t -> ~ SurvivesJson j_odt depth t.
Proof.
  intros depth t H (j & E & _). cbn [j_odt c_ser] in E. unfold ser_odt in E.
  rewrite rfc3339_text_none in E; [discriminate|]. unfold json_time in H. unfold year0. lia.
Qed.
