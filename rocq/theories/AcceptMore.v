(** Proofs: reading leaves, lists, spend policies and resolutions. *)

From Coq Require Import Permutation.
From Verif Require Import Base SpecUtf8 Model_encoding Model_currency Model_common Model_v1 Model_policy Model_v2
  Model_consensus Model_text Model_json Model_jsontypes SpecJson TextProofs JsonProofs DocProofs SpecAccept AcceptProofs.
Local Open Scope jres_scope.

(** ** Consequences for every struct *)

Lemma finds_perm : forall l l' w, Permutation l l' -> finds l w -> finds l' w.
Proof.
  intros l l' [k [f d]] P [(l1 & v & l2 & -> & N & H)|[N H]].
  - assert (I : In (ascii k, v) l') by (eapply Permutation_in; [exact P|apply in_elt]).
    apply in_split in I. destruct I as (m1 & m2 & ->). left. exists m1, v, m2. repeat split; auto.
    intros X. apply N. eapply Permutation_in; [|exact X]. apply Permutation_map. apply Permutation_sym.
    eapply Permutation_app_inv. exact P.
  - right. split; [|exact H]. intros X. apply N. eapply Permutation_in; [|exact X]. apply Permutation_map. now apply Permutation_sym.
Qed.

Lemma reader_order : forall A (c : codec A) ws, StructReader c ws -> forall l l' a, Permutation l l' ->
  c_de c (JObj l) = JOk a -> c_de c (JObj l') = JOk a.
Proof.
  intros A c ws R l l' a P H. apply R in H. apply R. left. exists l'. split; [reflexivity|].
  destruct H as [(x & X & H)|(x & X & _)]; [|discriminate]. injection X as <-.
  eapply Forall_impl; [|exact H]. intros w. now apply finds_perm.
Qed.

Lemma reader_unknown : forall A (c : codec A) ws, StructReader c ws -> forall l1 k v l2 a,
  ~ In k (map (fun w : wanted => ascii (fst w)) (ws a)) ->
  (c_de c (JObj (l1 ++ (k, v) :: l2)) = JOk a <-> c_de c (JObj (l1 ++ l2)) = JOk a).
Proof.
  intros A c ws R l1 k v l2 a U.
  assert (G : Forall (finds (l1 ++ (k, v) :: l2)) (ws a) <-> Forall (finds (l1 ++ l2)) (ws a)).
  { revert U. induction (ws a) as [|w ws' IH]; intros U; [split; constructor|].
    rewrite !forall_cons_iff, IH by (intros I; apply U; now right).
    assert (K : ascii (fst w) <> k) by (intros E; apply U; now left). clear IH U.
    assert (F : finds (l1 ++ (k, v) :: l2) w <-> finds (l1 ++ l2) w); [|tauto].
    split.
    - intros F. apply (finds_perm _ ((k, v) :: l1 ++ l2)) in F; [|apply Permutation_sym, Permutation_middle].
      destruct w as [k' [f d]]. cbn [fst] in K. destruct F as [(m1 & x & m2 & E & N & H)|[N H]].
      + destruct m1 as [|y m1]; cbn [app] in E; [injection E; congruence|]. injection E as <- E. left. exists m1, x, m2.
        rewrite E. repeat split; auto. intros I. apply N. now right.
      + right. split; [|exact H]. intros I. apply N. now right.
    - intros F. apply (finds_perm ((k, v) :: l1 ++ l2)); [apply Permutation_middle|].
      destruct w as [k' [f d]]. cbn [fst] in K. destruct F as [(m1 & x & m2 & E & N & H)|[N H]].
      + left. exists ((k, v) :: m1), x, m2. rewrite E. repeat split; auto. cbn [app map fst]. intros [I|I]; auto.
      + right. split; [|exact H]. cbn [map fst]. intros [I|I]; auto. }
  rewrite !(R a). split; (intros [(x & X & H)|(x & X & _)]; [|discriminate]); injection X as <-; left; eexists;
    (split; [reflexivity|]); now apply G.
Qed.

Lemma reader_repeated : forall A (c : codec A) ws, StructReader c ws -> forall l1 k v l2 w l3 a,
  In k (map (fun x : wanted => ascii (fst x)) (ws a)) ->
  c_de c (JObj (l1 ++ (k, v) :: l2 ++ (k, w) :: l3)) <> JOk a.
Proof.
  intros A c ws R l1 k v l2 w l3 a K H. apply R in H. destruct H as [(x & X & H)|(x & X & _)]; [|discriminate]. injection X as <-.
  apply in_map_iff in K. destruct K as ([k' [f d]] & <- & I). rewrite Forall_forall in H. specialize (H _ I). cbn [fst] in *.
  apply (finds_perm _ ((ascii k', v) :: (ascii k', w) :: l1 ++ l2 ++ l3)) in H.
  - destruct H as [(m1 & y & m2 & E & N & _)|[N _]]; [|apply N; now left].
    destruct m1 as [|z m1]; cbn [app] in E; injection E as <- E; apply N.
    + subst m2. now left.
    + now left.
  - rewrite <- Permutation_middle. constructor. rewrite app_assoc, <- Permutation_middle. constructor. now rewrite app_assoc.
Qed.

Lemma reader_missing : forall A (c : codec A) ws, StructReader c ws -> forall l k f a,
  In (must k f) (ws a) -> ~ In (ascii k) (map fst l) -> c_de c (JObj l) <> JOk a.
Proof.
  intros A c ws R l k f a I N H. apply R in H. destruct H as [(x & X & H)|(x & X & _)]; [|discriminate]. injection X as <-.
  rewrite Forall_forall in H. destruct (H _ I) as [(l1 & v & l2 & -> & _ & _)|[_ []]].
  apply N. rewrite map_app, in_app_iff. right. now left.
Qed.

(** ** Leaves and lists *)

Lemma string_iff : forall j s, c_de j_string j = JOk s <-> j = JStr (vlist (sbytes s)).
Proof.
  intros j s. split.
  - destruct j; try discriminate. cbn [j_string c_de de_string]. intros H.
    destruct (vec_of 1 s0) as [v|] eqn:E; [|discriminate]. cbn [jopt jbind] in H.
    destruct (rstring_of v) as [r|] eqn:E'; [|discriminate]. apply jok_inj in H. subst r.
    f_equal. apply vec_of_some in E. subst. f_equal.
    unfold rstring_of in E'. destruct (bool_dec _ _); [|discriminate]. injection E' as <-. reflexivity.
  - intros ->. apply de_string_id.
Qed.

Lemma jmap_iff : forall A (de : jde A) js l, jmap de js = JOk l <-> Forall2 (fun a j => de j = JOk a) l js.
Proof.
  intros A de js. induction js as [|j js IH]; intros l; cbn [jmap].
  - split; intros H; [apply jok_inj in H; subst; constructor|inversion H; reflexivity].
  - split.
    + intros H. apply jbind_ok in H. destruct H as (a & Ha & H). apply jbind_ok in H. destruct H as (r & Hr & H).
      apply jok_inj in H. subst. constructor; [exact Ha|]. now apply IH.
    + intros H. inversion H as [|a ? r ? Ha Hr]; subst. rewrite Ha. cbn [jbind]. apply IH in Hr. rewrite Hr. reflexivity.
Qed.

Lemma list_iff : forall A (c : codec A) j l, c_de (j_list c) j = JOk l <-> exists js, j = JArr js /\ Forall2 (reads c) l js.
Proof.
  intros A c j l. cbn [j_list c_de]. unfold de_list. destruct j; try (split; [discriminate|intros (x & X & _); discriminate]).
  rewrite jmap_iff. split; [intros H; eauto|]. intros (x & X & H). now injection X as ->.
Qed.

Lemma vec_iff : forall A sz (c : codec A) j v, c_de (j_vec sz c) j = JOk v <-> exists js, j = JArr js /\ Forall2 (reads c) (vlist v) js.
Proof.
  intros A sz c j v. cbn [j_vec c_de]. unfold de_vec. change (de_list (c_de c) j) with (c_de (j_list c) j). split.
  - intros H. apply jbind_ok in H. destruct H as (l & Hl & H). apply list_iff in Hl.
    destruct (vec_of sz l) as [w|] eqn:E; [|discriminate]. apply jok_inj in H. subst w. apply vec_of_some in E. now subst.
  - intros H. apply list_iff in H. rewrite H. cbn [jbind]. now rewrite vec_of_vlist.
Qed.

Lemma option_iff : forall A (c : codec A) j o, c_de (j_option c) j = JOk o <->
  (j = JNull /\ o = None) \/ (exists a, j <> JNull /\ o = Some a /\ reads c a j).
Proof.
  intros A c j o. cbn [j_option c_de]. unfold de_option, reads.
  assert (G : j <> JNull -> ((a <- c_de c j ;; JOk (Some a)) = JOk o <-> exists a, o = Some a /\ c_de c j = JOk a)).
  { intros _. split.
    - intros H. apply jbind_ok in H. destruct H as (a & Ha & H). apply jok_inj in H. eauto.
    - intros (a & -> & ->). reflexivity. }
  destruct j; try (rewrite G by discriminate; split; [intros (a & ? & ?); right; exists a; repeat split; auto; discriminate|];
    intros [[X _]|(a & _ & ? & ?)]; [discriminate|eauto]).
  split; [intros H; apply jok_inj in H; auto|]. intros [[_ ->]|(a & X & _)]; [reflexivity|]. now destruct X.
Qed.

(** ** Spend policies *)

Lemma last_none : forall k l v, last_is k l v -> In (ascii k) (map fst l).
Proof. intros k l v (l1 & l2 & -> & _). rewrite map_app, in_app_iff. right. now left. Qed.

Lemma last_cons : forall k l x v, In (ascii k) (map fst l) -> (last_is k (x :: l) v <-> last_is k l v).
Proof.
  intros k l x v I. split.
  - intros (l1 & l2 & E & N). destruct l1 as [|y l1]; cbn [app] in E.
    + injection E as -> ->. contradiction.
    + injection E as <- ->. exists l1, l2. auto.
  - intros (l1 & l2 & -> & N). exists (x :: l1), l2. auto.
Qed.

Lemma last_here : forall k l v w, ~ In (ascii k) (map fst l) -> (last_is k ((ascii k, v) :: l) w <-> w = v).
Proof.
  intros k l v w N. split.
  - intros (l1 & l2 & E & N'). destruct l1 as [|y l1]; cbn [app] in E.
    + injection E as -> ->. reflexivity.
    + injection E as <- ->. exfalso. apply N. rewrite map_app, in_app_iff. right. now left.
  - intros ->. exists [], l. auto.
Qed.

Lemma last_other : forall k l x v, fst x <> ascii k -> (last_is k (x :: l) v <-> last_is k l v).
Proof.
  intros k l x v D. split.
  - intros (l1 & l2 & E & N). destruct l1 as [|y l1]; cbn [app] in E.
    + injection E as -> ->. now destruct D.
    + injection E as <- ->. exists l1, l2. auto.
  - intros (l1 & l2 & -> & N). exists (x :: l1), l2. auto.
Qed.

Lemma last_dec : forall k l, (exists v, last_is k l v) \/ ~ In (ascii k) (map fst l).
Proof.
  intros k l. induction l as [|[k' v] l IH]; [right; intros []|]. destruct IH as [(w & W)|N].
  - left. exists w. apply last_cons; [eapply last_none; exact W|exact W].
  - destruct (list_eq_dec Byte.byte_eq_dec k' (ascii k)) as [->|D].
    + left. exists v. now apply last_here.
    + right. cbn [map fst]. intros [I|I]; auto.
Qed.

Lemma last_unique : forall k l v w, last_is k l v -> last_is k l w -> v = w.
Proof.
  intros k l. induction l as [|[k' x] l IH]; intros v w V W; [apply last_none in V; destruct V|].
  destruct (last_dec k l) as [(u & U)|N].
  - apply last_none in U. rewrite last_cons in V by exact U. rewrite last_cons in W by exact U. eauto.
  - destruct (list_eq_dec Byte.byte_eq_dec k' (ascii k)) as [->|D].
    + rewrite last_here in V by exact N. rewrite last_here in W by exact N. congruence.
    + rewrite last_other in V by exact D. apply last_none in V. contradiction.
Qed.

(** The result of the visitor, with what was read before. *)
Definition last_or (k : string) (l : list (bytes * json)) {A} (f : json -> A -> Prop) (before : option A) (o : option A) : Prop :=
  (exists v a, last_is k l v /\ f v a /\ o = Some a) \/ (~ In (ascii k) (map fst l) /\ o = before).

Lemma last_or_nil : forall k A (f : json -> A -> Prop) b o, last_or k [] f b o <-> o = b.
Proof.
  intros k A f b o. split; [intros [(v & a & V & _)|[_ H]]; [apply last_none in V; destruct V|exact H]|].
  intros ->. right. split; [intros []|reflexivity].
Qed.

Lemma last_or_other : forall k l x A (f : json -> A -> Prop) b o, fst x <> ascii k ->
  (last_or k (x :: l) f b o <-> last_or k l f b o).
Proof.
  intros k l x A f b o D. unfold last_or. cbn [map].
  split; (intros [(v & a & V & R)|[N H]]; [left; exists v, a; split; [|exact R]; (first [rewrite last_other in V by exact D; exact V|rewrite last_other by exact D; exact V])|right; split; [|exact H]]).
  - intros I. apply N. now right.
  - intros [I|I]; auto.
Qed.

Lemma last_or_here : forall k l v A (f : json -> A -> Prop) b o a, f v a -> (forall a', f v a' -> a' = a) ->
  (last_or k ((ascii k, v) :: l) f b o <-> last_or k l f (Some a) o).
Proof.
  intros k l v A f b o a F U. unfold last_or. split.
  - intros [(w & x & W & R & ->)|[N _]]; [|exfalso; apply N; now left].
    destruct (last_dec k l) as [(u & L)|N].
    + left. exists w, x. repeat split; auto. rewrite last_cons in W; [exact W|]. eapply last_none; exact L.
    + rewrite last_here in W by exact N. subst w. right. split; [exact N|]. now rewrite (U x R).
  - intros [(w & x & W & R & ->)|[N ->]].
    + left. exists w, x. repeat split; auto. apply last_cons; [eapply last_none; exact W|exact W].
    + left. exists v, a. repeat split; auto. now apply last_here.
Qed.

Definition text_value (v : json) (t : bytes) : Prop := exists s, c_de j_string v = JOk s /\ t = vlist (sbytes s).

Lemma visit_policy_iff : forall l t0 v0 t v, visit_policy t0 v0 l = JOk (t, v) <->
  (forall k w, In (k, w) l -> (k = ascii "type" /\ some_string w) \/ k = ascii "policy") /\
  last_or "type" l text_value t0 t /\ last_or "policy" l (fun w x => x = value_of w) v0 v.
Proof.
  induction l as [|[k w] l IH]; intros t0 v0 t v; cbn [visit_policy].
  - rewrite !last_or_nil. split.
    + intros H. apply jok_inj in H. injection H as -> ->. repeat split; auto. intros k w [].
    + intros (_ & -> & ->). reflexivity.
  - destruct (bytes_eqb k (ascii "type")) eqn:K1; [|destruct (bytes_eqb k (ascii "policy")) eqn:K2].
    + apply bytes_eqb_iff in K1. subst k. rewrite (last_or_other "policy") by discriminate. split.
      * intros H. apply jbind_ok in H. destruct H as (s & S & H). apply IH in H. destruct H as (A & T & V).
        split; [|split; [|exact V]].
        -- intros k w' [I|I]; [|eauto]. injection I as <- <-. left. split; [reflexivity|]. exists s. exact S.
        -- eapply last_or_here; [| |exact T]; [exists s; auto|].
           intros a' (s' & S' & ->). cbn [j_string c_de] in S'. congruence.
      * intros (A & T & V). destruct (A _ w (or_introl eq_refl)) as [[_ [s S]]|X]; [|discriminate X].
        cbn [j_string c_de] in S. rewrite S. cbn [jbind]. apply IH. split; [intros; apply A; now right|]. split; [|exact V].
        rewrite (last_or_here _ _ _ _ text_value t0 t (vlist (sbytes s))) in T; [exact T|exists s; auto|].
        intros a' (s' & S' & ->). cbn [j_string c_de] in S'. congruence.
    + apply bytes_eqb_iff in K2. subst k. rewrite (last_or_other "type") by discriminate.
      rewrite (last_or_here "policy" l w json (fun w x => x = value_of w) v0 v (value_of w)) by auto. rewrite IH.
      split; intros (A & T & V); (split; [|split; assumption]).
      * intros k w' [I|I]; [|eauto]. injection I as <- <-. now right.
      * intros; apply A; now right.
    + split; [discriminate|]. intros (A & _). destruct (A k w (or_introl eq_refl)) as [[-> _]| ->];
        rewrite bytes_eqb_refl in *; discriminate.
Qed.

Lemma u64_iff : forall j n, c_de j_u64 j = JOk n <-> j = JUint n.
Proof. intros j n. destruct j; cbn; split; intros H; try discriminate; congruence. Qed.

Lemma after_iff : forall (n : u64) t, from_unix_timestamp (swrap 64 w64_nz (Z.of_N (uval n))) = Some t <->
  odt_nanos t = 0%N /\ (Z.of_N (uval n) = odt_secs t mod 2 ^ 64)%Z.
Proof.
  intros n t. pose proof (uint_lt 64 n) as L. unfold from_unix_timestamp.
  set (s := swrap 64 w64_nz (Z.of_N (uval n))).
  assert (S : sval s = if (Z.of_N (uval n) <? 2 ^ 63)%Z then Z.of_N (uval n) else (Z.of_N (uval n) - 2 ^ 64)%Z).
  { unfold s, swrap. cbn [sval]. unfold swrap_Z. change (Z.of_N 64) with 64%Z.
    rewrite Z.mod_small by (change (2 ^ 64)%Z with (Z.of_N (2 ^ 64)); lia). reflexivity. }
  clearbody s.
  change (2 ^ 64)%N with 18446744073709551616%N in L.
  assert (R : forall z, (ts_min <= z <= ts_max)%Z -> (Z.of_N (uval n) = z mod 2 ^ 64)%Z -> sval s = z).
  { intros z Hz E. rewrite S. assert (-2 ^ 63 <= z < 2 ^ 63)%Z by (unfold ts_min, ts_max in Hz; lia).
    destruct (Z.ltb_spec z 0).
    - rewrite <- (Z.mod_add z 1 (2 ^ 64)) in E by lia. rewrite Z.mod_small in E by lia.
      destruct (Z.ltb_spec (Z.of_N (uval n)) (2 ^ 63)); lia.
    - rewrite Z.mod_small in E by lia. destruct (Z.ltb_spec (Z.of_N (uval n)) (2 ^ 63)); lia. }
  destruct (bool_dec _ true) as [h|h]; split; intros H.
  - injection H as <-. cbn [odt_nanos odt_secs]. split; [reflexivity|]. rewrite S.
    destruct (Z.ltb_spec (Z.of_N (uval n)) (2 ^ 63)).
    + now rewrite Z.mod_small by lia.
    + rewrite <- (Z.mod_add _ 1 (2 ^ 64)) by lia. rewrite Z.mod_small by lia. lia.
  - destruct H as [H1 H2]. f_equal. apply odt_eq; cbn [odt_nanos odt_secs]; [|congruence].
    apply R; [|exact H2]. destruct t as [ts tn tp]. cbn [odt_nanos odt_secs] in *. lia.
  - discriminate.
  - exfalso. apply h. destruct H as [H1 H2]. destruct t as [ts tn tp]. cbn [odt_nanos odt_secs] in *. subst tn.
    assert (E : sval s = ts) by (apply R; [|exact H2]; lia). rewrite E. exact tp.
Qed.

Lemma thresh_iff : forall (c : codec policy) v n of,
  de_struct (thresh_fields c) v = JOk (n, (of, tt)) <->
  let ws := [must "n" (reads j_u8 n); must "of" (reads (j_list c) of)] in
  ((exists m, v = JObj m /\ Forall (finds m) ws) \/ (exists m, v = JArr m /\ lists ws m)).
Proof.
  intros c v n of.
  assert (W : Wants (thresh_fields c) (n, (of, tt)) [must "n" (reads j_u8 n); must "of" (reads (j_list c) of)]).
  { unfold thresh_fields. apply wants_plain, wants_plain, wants_nil. }
  destruct W as [WO WA]. cbv zeta. destruct v as [| | | | | |l|l];
    try (cbn [de_struct]; split; [discriminate|intros [(x & X & _)|(x & X & _)]; discriminate]).
  - cbn [de_struct]. rewrite WA. split; [intros H; right; eauto|].
    intros [(x & X & _)|(x & X & H)]; [discriminate|]. now injection X as ->.
  - rewrite object_iff, WO. split; [intros H; left; eauto|].
    intros [(x & X & H)|(x & X & _)]; [|discriminate]. now injection X as ->.
Qed.

Lemma policy_cases : forall (stack : nat) t v x,
  (if bytes_eqb t (ascii "above") then height <- c_de j_u64 v ;; JOk (PAbove height)
      else if bytes_eqb t (ascii "after") then
        unix_seconds <- c_de j_u64 v ;;
        timestamp <- jopt (from_unix_timestamp (swrap 64 w64_nz (Z.of_N (uval unix_seconds)))) ;;
        JOk (PAfter timestamp)
      else if bytes_eqb t (ascii "pk") then pk <- c_de j_public_key v ;; JOk (PPublicKey pk)
      else if bytes_eqb t (ascii "h") then h <- c_de j_hash v ;; JOk (PHash h)
      else if bytes_eqb t (ascii "thresh") then
        thresh <- de_struct (thresh_fields (j_policy stack)) v ;;
        JOk (PThreshold (fst thresh) (fst (snd thresh)))
      else if bytes_eqb t (ascii "opaque") then a <- c_de j_address v ;; JOk (POpaque a)
      else if bytes_eqb t (ascii "uc") then u <- c_de j_unlock_conditions v ;; JOk (PUnlockConditions u)
      else JErr) = JOk x <->
  match x with
      | PAbove height => t = ascii "above" /\ reads j_u64 height v
      | PAfter time => t = ascii "after" /\ odt_nanos time = 0%N /\
          exists n, reads j_u64 n v /\ (Z.of_N (uval n) = odt_secs time mod 2 ^ 64)%Z
      | PPublicKey k => t = ascii "pk" /\ reads j_public_key k v
      | PHash h => t = ascii "h" /\ reads j_hash h v
      | PThreshold n of => t = ascii "thresh" /\
          let ws := [must "n" (reads j_u8 n); must "of" (reads (j_list (j_policy stack)) of)] in
          ((exists m, v = JObj m /\ Forall (finds m) ws) \/ (exists m, v = JArr m /\ lists ws m))
      | POpaque a => t = ascii "opaque" /\ reads j_address a v
      | PUnlockConditions u => t = ascii "uc" /\ reads j_unlock_conditions u v
      end.
Proof.
  intros stack t v x.
  destruct (bytes_eqb t (ascii "above")) eqn:K1; [apply bytes_eqb_iff in K1; subst t|].
  { destruct x; (split; [intros H; apply jbind_ok in H; destruct H as (a & Ha & H); apply jok_inj in H; try discriminate H|
      intros [E H]; try discriminate E]).
    - injection H as ->. split; [reflexivity|exact Ha].
    - unfold reads in H. rewrite H. reflexivity. }
  destruct (bytes_eqb t (ascii "after")) eqn:K2; [apply bytes_eqb_iff in K2; subst t|].
  { destruct x; (split; [intros H; apply jbind_ok in H; destruct H as (a & Ha & H); apply jbind_ok in H; destruct H as (b & Hb & H);
      apply jok_inj in H; try discriminate H| intros [E H]; try discriminate E]).
    - injection H as ->. split; [reflexivity|].
      destruct (from_unix_timestamp _) as [t|] eqn:F; [|discriminate]. apply jok_inj in Hb. subst t.
      apply after_iff in F. destruct F as [F1 F2]. split; [exact F1|]. exists a. split; [exact Ha|exact F2].
    - destruct H as (Hn & n & Hr & Hs). unfold reads in Hr. rewrite Hr. cbn [jbind].
      rewrite (proj2 (after_iff n time) (conj Hn Hs)). reflexivity. }
  destruct (bytes_eqb t (ascii "pk")) eqn:K3; [apply bytes_eqb_iff in K3; subst t|].
  { destruct x; (split; [intros H; apply jbind_ok in H; destruct H as (a & Ha & H); apply jok_inj in H; try discriminate H|
      intros [E H]; try discriminate E]).
    - injection H as ->. split; [reflexivity|exact Ha].
    - unfold reads in H. rewrite H. reflexivity. }
  destruct (bytes_eqb t (ascii "h")) eqn:K4; [apply bytes_eqb_iff in K4; subst t|].
  { destruct x; (split; [intros H; apply jbind_ok in H; destruct H as (a & Ha & H); apply jok_inj in H; try discriminate H|
      intros [E H]; try discriminate E]).
    - injection H as ->. split; [reflexivity|exact Ha].
    - unfold reads in H. rewrite H. reflexivity. }
  destruct (bytes_eqb t (ascii "thresh")) eqn:K5; [apply bytes_eqb_iff in K5; subst t|].
  { destruct x; (split; [intros H; apply jbind_ok in H; destruct H as (a & Ha & H); apply jok_inj in H; try discriminate H|
      intros [E H]; try discriminate E]).
    - destruct a as [n' [of' []]]. cbn [fst snd] in H. injection H as -> ->. split; [reflexivity|].
      now apply (thresh_iff (j_policy stack)).
    - apply (thresh_iff (j_policy stack)) in H. rewrite H. reflexivity. }
  destruct (bytes_eqb t (ascii "opaque")) eqn:K6; [apply bytes_eqb_iff in K6; subst t|].
  { destruct x; (split; [intros H; apply jbind_ok in H; destruct H as (a & Ha & H); apply jok_inj in H; try discriminate H|
      intros [E H]; try discriminate E]).
    - injection H as ->. split; [reflexivity|exact Ha].
    - unfold reads in H. rewrite H. reflexivity. }
  destruct (bytes_eqb t (ascii "uc")) eqn:K7; [apply bytes_eqb_iff in K7; subst t|].
  { destruct x; (split; [intros H; apply jbind_ok in H; destruct H as (a & Ha & H); apply jok_inj in H; try discriminate H|
      intros [E H]; try discriminate E]).
    - injection H as ->. split; [reflexivity|exact Ha].
    - unfold reads in H. rewrite H. reflexivity. }
  split; [discriminate|]. destruct x; intros [-> _]; rewrite bytes_eqb_refl in *; discriminate.
Qed.

Lemma last_or_some : forall k l A (f : json -> A -> Prop) a, last_or k l f None (Some a) <-> exists v, last_is k l v /\ f v a.
Proof.
  intros k l A f a. split.
  - intros [(v & b & V & F & E)|[_ E]]; [|discriminate]. injection E as <-. eauto.
  - intros (v & V & F). left. exists v, a. auto.
Qed.

Lemma read_policy : forall stack, PolicyReader (j_policy (S stack)) (j_policy stack).
Proof.
  intros stack x j. cbn [j_policy c_de de_policy].
  destruct j as [| | | | | | |l]; try (split; [discriminate|intros (l' & t & v & X & _); discriminate]).
  split.
  - intros H. apply jbind_ok in H. destruct H as ([ot ov] & V & H). cbn [fst snd] in H.
    destruct ot as [t|]; [|discriminate]. cbn [jopt jbind] in H. destruct ov as [v|]; [|discriminate]. cbn [jopt jbind] in H.
    apply visit_policy_iff in V. destruct V as (A & T & P). rewrite last_or_some in T, P.
    destruct T as (w & W & s & HS & ->). destruct P as (u & U & ->). apply string_iff in HS. subst w.
    exists l, (vlist (sbytes s)), u. repeat split; auto. now apply (policy_cases stack).
  - intros (l' & t & v & X & A & T & P & H). injection X as <-. cbv zeta in H. apply policy_cases in H.
    assert (I : In (ascii "type", JStr t) l) by (destruct T as (l1 & l2 & -> & _); apply in_elt).
    destruct (A _ _ I) as [[_ [s HS]]|E]; [|discriminate E].
    pose proof HS as HS'. apply string_iff in HS'. injection HS' as ->.
    assert (V : visit_policy None None l = JOk (Some (vlist (sbytes s)), Some (value_of v))).
    { apply visit_policy_iff. rewrite !last_or_some. repeat split; auto.
      - eexists. split; [exact T|]. exists s. auto.
      - exists v. auto. }
    rewrite V. cbn [jbind fst snd jopt]. exact H.
Qed.

(** ** Resolutions *)

Lemma visit_resolution_iff : forall p l e0 t0 v0 e t v, visit_resolution p e0 t0 v0 l = JOk (e, (t, v)) <->
  (forall k w, In (k, w) l ->
     (k = ascii "parent" /\ exists e, reads (j_file_contract_element p) e w) \/
     (k = ascii "type" /\ some_string w) \/ k = ascii "resolution") /\
  last_or "parent" l (fun w e => reads (j_file_contract_element p) e w) e0 e /\
  last_or "type" l text_value t0 t /\ last_or "resolution" l (fun w x => x = value_of w) v0 v.
Proof.
  intros p. induction l as [|[k w] l IH]; intros e0 t0 v0 e t v; cbn [visit_resolution].
  - rewrite !last_or_nil. split.
    + intros H. apply jok_inj in H. injection H as -> -> ->. repeat split; auto. intros k w [].
    + intros (_ & -> & -> & ->). reflexivity.
  - destruct (bytes_eqb k (ascii "parent")) eqn:K0; [|destruct (bytes_eqb k (ascii "type")) eqn:K1; [|destruct (bytes_eqb k (ascii "resolution")) eqn:K2]].
    + apply bytes_eqb_iff in K0. subst k. rewrite (last_or_other "type"), (last_or_other "resolution") by discriminate.
      assert (X : forall x, c_de (j_file_contract_element p) w = JOk x ->
        (last_or "parent" ((ascii "parent", w) :: l) (fun w e => reads (j_file_contract_element p) e w) e0 e <->
         last_or "parent" l (fun w e => reads (j_file_contract_element p) e w) (Some x) e)).
      { intros x Hx. apply last_or_here; [exact Hx|]. intros a' Ha'. unfold reads in Ha'. congruence. }
      split.
      * intros H. apply jbind_ok in H. destruct H as (x & Hx & H). apply IH in H. destruct H as (A & P & T & V).
        split; [|split; [now apply (X x Hx)|auto]].
        intros k w' [I|I]; [|eauto]. injection I as <- <-. left. split; [reflexivity|]. exists x. exact Hx.
      * intros (A & P & T & V). destruct (A _ w (or_introl eq_refl)) as [[_ [x Hx]]|[[E _]|E]]; [|discriminate E|discriminate E].
        unfold reads in Hx. rewrite Hx. cbn [jbind]. apply IH. split; [intros; apply A; now right|].
        split; [now apply (X x Hx)|auto].
    + apply bytes_eqb_iff in K1. subst k. rewrite (last_or_other "parent"), (last_or_other "resolution") by discriminate. split.
      * intros H. apply jbind_ok in H. destruct H as (s & HS & H). apply IH in H. destruct H as (A & P & T & V).
        split; [|split; [exact P|split; [|exact V]]].
        -- intros k w' [I|I]; [|eauto]. injection I as <- <-. right. left. split; [reflexivity|]. exists s. exact HS.
        -- eapply last_or_here; [| |exact T]; [exists s; auto|].
           intros a' (s' & S' & ->). cbn [j_string c_de] in S'. congruence.
      * intros (A & P & T & V). destruct (A _ w (or_introl eq_refl)) as [[X _]|[[_ [s HS]]|X]]; [discriminate X| |discriminate X].
        cbn [j_string c_de] in HS. rewrite HS. cbn [jbind]. apply IH. split; [intros; apply A; now right|].
        split; [exact P|]. split; [|exact V].
        rewrite (last_or_here _ _ _ _ text_value t0 t (vlist (sbytes s))) in T; [exact T|exists s; auto|].
        intros a' (s' & S' & ->). cbn [j_string c_de] in S'. congruence.
    + apply bytes_eqb_iff in K2. subst k. rewrite (last_or_other "parent"), (last_or_other "type") by discriminate.
      rewrite (last_or_here "resolution" l w json (fun w x => x = value_of w) v0 v (value_of w)) by auto. rewrite IH.
      split; intros (A & P & T & V); (split; [|auto]).
      * intros k w' [I|I]; [|eauto]. injection I as <- <-. now right; right.
      * intros; apply A; now right.
    + split; [discriminate|]. intros (A & _). destruct (A k w (or_introl eq_refl)) as [[-> _]|[[-> _]| ->]];
        rewrite bytes_eqb_refl in *; discriminate.
Qed.

Lemma resolution_cases : forall p parent t v x,
  (if bytes_eqb t (ascii "renewal") then
      r <- c_de (j_file_contract_renewal p) v ;; JOk (MkFcres parent (ResRenewal r))
    else if bytes_eqb t (ascii "storageProof") then
      r <- c_de j_v2_storage_proof v ;; JOk (MkFcres parent (ResStorageProof r))
    else if bytes_eqb t (ascii "expiration") then JOk (MkFcres parent ResExpiration)
    else JErr) = JOk x <->
  fcres_parent x = parent /\
  match fcres_resolution x with
  | ResRenewal r => t = ascii "renewal" /\ reads (j_file_contract_renewal p) r v
  | ResStorageProof r => t = ascii "storageProof" /\ reads j_v2_storage_proof r v
  | ResExpiration => t = ascii "expiration"
  end.
Proof.
  intros p parent t v [xp xr]. cbn [fcres_parent fcres_resolution].
  destruct (bytes_eqb t (ascii "renewal")) eqn:K1; [apply bytes_eqb_iff in K1; subst t|].
  { destruct xr; (split; [intros H; apply jbind_ok in H; destruct H as (a & Ha & H); apply jok_inj in H; try discriminate H|
      try (intros [_ [E _]]; discriminate E); try (intros [_ E]; discriminate E)]).
    - injection H as -> ->. repeat split; auto.
    - intros [-> [_ H]]. unfold reads in H. rewrite H. reflexivity. }
  destruct (bytes_eqb t (ascii "storageProof")) eqn:K2; [apply bytes_eqb_iff in K2; subst t|].
  { destruct xr; (split; [intros H; apply jbind_ok in H; destruct H as (a & Ha & H); apply jok_inj in H; try discriminate H|
      try (intros [_ [E _]]; discriminate E); try (intros [_ E]; discriminate E)]).
    - injection H as -> ->. repeat split; auto.
    - intros [-> [_ H]]. unfold reads in H. rewrite H. reflexivity. }
  destruct (bytes_eqb t (ascii "expiration")) eqn:K3; [apply bytes_eqb_iff in K3; subst t|].
  { destruct xr; (split; [intros H; apply jok_inj in H; try discriminate H|
      try (intros [_ [E _]]; discriminate E)]).
    - injection H as ->. auto.
    - intros [-> _]. reflexivity. }
  split; [discriminate|]. destruct xr; [intros [_ [-> _]]|intros [_ [-> _]]|intros [_ ->]]; rewrite bytes_eqb_refl in *; discriminate.
Qed.

Lemma read_resolution : forall p, ResolutionReader p (j_file_contract_resolution p).
Proof.
  intros p x j. cbn [j_file_contract_resolution c_de]. unfold de_file_contract_resolution.
  destruct j as [| | | | | | |l]; try (split; [discriminate|intros (l' & w & t & v & X & _); discriminate]).
  split.
  - intros H. apply jbind_ok in H. destruct H as ([oe [ot ov]] & V & H). cbn [fst snd] in H.
    destruct oe as [e|]; [|discriminate]. cbn [jopt jbind] in H.
    destruct ot as [t|]; [|discriminate]. cbn [jopt jbind] in H. destruct ov as [v|]; [|discriminate]. cbn [jopt jbind] in H.
    apply visit_resolution_iff in V. destruct V as (A & P & T & V). rewrite last_or_some in P, T, V.
    destruct P as (w & W & E). destruct T as (tw & TW & s & HS & ->). destruct V as (u & U & ->). apply string_iff in HS. subst tw.
    apply resolution_cases in H. destruct H as [Hp H].
    exists l, w, (vlist (sbytes s)), u. rewrite Hp. repeat (split; [assumption || reflexivity|]). exact H.
  - intros (l' & w & t & v & X & A & P & HP & T & V & H). injection X as <-.
    assert (I : In (ascii "type", JStr t) l) by (destruct T as (l1 & l2 & -> & _); apply in_elt).
    destruct (A _ _ I) as [[E _]|[[_ [s HS]]|E]]; [discriminate E| |discriminate E].
    pose proof HS as HS'. apply string_iff in HS'. injection HS' as ->.
    assert (VR : visit_resolution p None None None l = JOk (Some (fcres_parent x), (Some (vlist (sbytes s)), Some (value_of v)))).
    { apply visit_resolution_iff. rewrite !last_or_some. split; [exact A|]. split; [eauto|]. split.
      - eexists. split; [exact T|]. exists s. auto.
      - exists v. auto. }
    rewrite VR. cbn [jbind fst snd jopt]. apply resolution_cases. auto.
Qed.

(** ** The readers of text and numbers *)

Lemma text_iff : forall A (parse : bytes -> jres A) j a, de_text parse j = JOk a <->
  exists s : rstring, j = JStr (vlist (sbytes s)) /\ parse (vlist (sbytes s)) = JOk a.
Proof.
  intros A parse j a. unfold de_text. split.
  - intros H. apply jbind_ok in H. destruct H as (s & HS & H). change (de_string j) with (c_de j_string j) in HS. apply string_iff in HS. eauto.
  - intros (s & -> & H). rewrite de_string_id. exact H.
Qed.

Lemma jsum_iff : forall A E (x : A + E) a, jsum x = JOk a <-> x = inl a.
Proof. intros A E [b|e] a; cbn; split; intros H; try discriminate; congruence. Qed.

Lemma jopt_iff : forall A (x : option A) a, jopt x = JOk a <-> x = Some a.
Proof. intros A [b|] a; cbn; split; intros H; try discriminate; congruence. Qed.

Lemma ex_iff : forall A (P Q : A -> Prop), (forall a, P a <-> Q a) -> ((exists a, P a) <-> exists a, Q a).
Proof. intros A P Q H. split; intros [a K]; exists a; now apply H. Qed.

Lemma text_reader_sum : forall A E (parse : bytes -> A + E) j a, de_text (fun s => jsum (parse s)) j = JOk a <->
  exists s : rstring, j = JStr (vlist (sbytes s)) /\ parse (vlist (sbytes s)) = inl a.
Proof. intros. rewrite text_iff. apply ex_iff. intros s. now rewrite jsum_iff. Qed.

Lemma text_reader_opt : forall A (parse : bytes -> option A) j a, de_text (fun s => jopt (parse s)) j = JOk a <->
  exists s : rstring, j = JStr (vlist (sbytes s)) /\ parse (vlist (sbytes s)) = Some a.
Proof. intros. rewrite text_iff. apply ex_iff. intros s. now rewrite jopt_iff. Qed.

Lemma hash_iff : forall j h, c_de j_hash j = JOk h <-> exists s : rstring, j = JStr (vlist (sbytes s)) /\ parse_hash (vlist (sbytes s)) = inl h.
Proof. intros. apply text_reader_sum. Qed.
Lemma address_iff : forall j h, c_de j_address j = JOk h <-> exists s : rstring, j = JStr (vlist (sbytes s)) /\ parse_address (vlist (sbytes s)) = inl h.
Proof. intros. apply text_reader_sum. Qed.
Lemma signature_iff : forall j h, c_de j_signature j = JOk h <-> exists s : rstring, j = JStr (vlist (sbytes s)) /\ parse_signature (vlist (sbytes s)) = inl h.
Proof. intros. apply text_reader_sum. Qed.
Lemma public_key_iff : forall j h, c_de j_public_key j = JOk h <-> exists s : rstring, j = JStr (vlist (sbytes s)) /\ parse_public_key (vlist (sbytes s)) = Some h.
Proof. intros. apply text_reader_opt. Qed.
Lemma work_iff : forall j h, c_de j_work j = JOk h <-> exists s : rstring, j = JStr (vlist (sbytes s)) /\ parse_work (vlist (sbytes s)) = Some h.
Proof. intros. apply text_reader_opt. Qed.
Lemma odt_iff : forall j h, c_de j_odt j = JOk h <-> exists s : rstring, j = JStr (vlist (sbytes s)) /\ parse_rfc3339 (vlist (sbytes s)) = Some h.
Proof. intros. apply text_reader_opt. Qed.
Lemma unlock_key_iff : forall j h, c_de j_unlock_key j = JOk h <-> exists s : rstring, j = JStr (vlist (sbytes s)) /\ parse_unlock_key s = inl h.
Proof.
  intros j h. cbn [j_unlock_key c_de]. split.
  - intros H. apply jbind_ok in H. destruct H as (s & HS & H). change (de_string j) with (c_de j_string j) in HS. apply string_iff in HS.
    apply jsum_iff in H. eauto.
  - intros (s & -> & H). rewrite de_string_id. now apply jsum_iff.
Qed.
Lemma currency_iff : forall p j c, c_de (j_currency p) j = JOk c <->
  (exists s : rstring, j = JStr (vlist (sbytes s)) /\ parse_currency p (vlist (sbytes s)) = Val (inl c)) \/
  (exists n, j = JUint n /\ uval c = uval n).
Proof.
  intros p j c. cbn [j_currency c_de].
  assert (W : forall n : u64, uval (uwrap 128 (uval n)) = uval n).
  { intros n. apply uwrap_small. pose proof (uint_lt 64 n). change (2 ^ 64)%N with 18446744073709551616%N in *.
    change (2 ^ 128)%N with 340282366920938463463374607431768211456%N. lia. }
  destruct j as [| |n| | |t| |]; try (split; [discriminate|intros [(s & X & _)|(n & X & _)]; discriminate]).
  - split.
    + intros H. apply jok_inj in H. subst c. right. exists n. auto.
    + intros [(s & X & _)|(m & X & E)]; [discriminate|]. injection X as <-. apply (f_equal (@JOk currency)). apply uint_eq. now rewrite W.
  - split.
    + intros H. apply jbind_ok in H. destruct H as (s & HS & H). change (de_string (JStr t)) with (c_de j_string (JStr t)) in HS.
      apply string_iff in HS. left. exists s. split; [exact HS|].
      destruct (parse_currency p (vlist (sbytes s))) as [[c'|]|]; try discriminate. apply jok_inj in H. now subst.
    + intros [(s & X & H)|(m & X & _)]; [|discriminate]. rewrite X, de_string_id. cbn [jbind]. now rewrite H.
Qed.
Lemma bool_iff : forall j b, c_de j_bool j = JOk b <-> j = JBool b.
Proof. intros j b. destruct j; cbn; split; intros H; try discriminate; congruence. Qed.
Lemma u8_iff : forall j b, c_de j_u8 j = JOk b <-> exists n, j = JUint n /\ uval n = b2n b.
Proof.
  intros j b. destruct j as [| |n| | | | |]; cbn [j_u8 c_de de_u8]; try (split; [discriminate|intros (m & X & _); discriminate]).
  split.
  - destruct (N.ltb_spec (uval n) 256); [|discriminate]. intros X. apply jok_inj in X. exists n. split; [reflexivity|]. subst.
    rewrite b2n_n2b. symmetry. apply N.mod_small. lia.
  - intros (m & X & E). injection X as <-. rewrite E. pose proof (b2n_lt b). destruct (N.ltb_spec (b2n b) 256); [|lia]. now rewrite n2b_b2n.
Qed.
