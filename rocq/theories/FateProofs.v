(** What becomes of transactions in JSON. *)

From Coq Require Import Permutation Lia.
From Verif Require Import Base Io SpecUtf8 SpecText SpecWire Model_encoding Model_currency Model_common Model_v1 Model_policy
  Model_v2 Model_consensus Model_text Model_json Model_jsontypes SpecJson SpecCodecs Model_jsontext SpecJsonText SpecFate JsonTextProofs JsonTextMore TextProofs TextMore BasicProofs PolicyProofs JsonProofs JsonLeafProofs JsonTypeProofs TimeProofs TableProofs WireProofs Samples.
Local Open Scope N_scope.
Local Open Scope jres_scope.

(** ** Lists and structs some parts of which are lost *)

Definition written {A} (c : codec A) (a : A) : Prop := exists j, c_ser c a = JOk j.

Lemma ok_written : forall A (c : codec A) d a, ok c d a -> written c a.
Proof. intros A c d a (j & S & _). now exists j. Qed.
Lemma lost_written : forall A (c : codec A) d a, LostJson c d a -> written c a.
Proof. intros A c d a (j & S & _). now exists j. Qed.
Lemma lost_weaken : forall A (c : codec A) d d' a, LostJson c d a -> d <= d' -> LostJson c d' a.
Proof. intros A c d d' a (j & S & D & L & R) H. exists j. repeat split; auto. lia. Qed.

Lemma list_lost : forall A (c : codec A) d l, Forall (fun a => ok c d a \/ LostJson c d a) l -> Exists (LostJson c d) l ->
  LostJson (j_list c) (1 + d) l.
Proof.
  intros A c d l H E.
  assert (G : exists js, jmap (c_ser c) l = JOk js /\ Forall DistinctKeys js /\ Forall (fun j => json_depth j <= d) js /\
    (Exists (LostJson c d) l -> forall js', Forall2 Reordered js js' -> jmap (c_de c) js' = JErr)).
  { clear E. induction H as [|a l M _ (js & S' & D' & L' & R')].
    - exists []. repeat split; try constructor. intros E. inversion E.
    - assert (W : exists j, c_ser c a = JOk j /\ DistinctKeys j /\ json_depth j <= d /\
        ((forall j', Reordered j j' -> c_de c j' = JOk a) \/ (forall j', Reordered j j' -> c_de c j' = JErr))).
      { destruct M as [(j & S & D & L & R)|(j & S & D & L & R)]; exists j; auto. }
      destruct W as (j & S & D & L & R).
      exists (j :: js). cbn [jmap]. rewrite S. cbn [jbind]. fold (jmap (c_ser c)). rewrite S'. cbn [jbind].
      repeat split; [now constructor|now constructor|]. intros E js' F. inversion F as [|? j' ? js'' Hj Hjs]; subst.
      cbn [jmap]. destruct R as [R|R]; rewrite (R _ Hj); cbn [jbind]; [|reflexivity]. fold (jmap (c_de c)).
      rewrite R'; [reflexivity| |exact Hjs]. inversion E as [? ? (i & Si & _ & _ & Ri)|]; subst; [|assumption].
      exfalso. rewrite S in Si. injection Si as <-. specialize (R _ (value_of_reordered _ D)).
      specialize (Ri _ (value_of_reordered _ D)). congruence. }
  destruct G as (js & S & D & L & R). exists (JArr js). cbn [j_list c_ser c_de]. unfold ser_list. rewrite S.
  split; [reflexivity|]. split; [exact (distinct_array _ D)|]. split; [exact (depth_arr _ _ L)|]. intros j' Rj.
  apply reordered_arr_inv in Rj. destruct Rj as (l' & -> & F). cbn [de_list]. auto.
Qed.

Lemma jvec_lost : forall A (c : codec A) sz d (v : vec sz A), VecAll (fun a => ok c d a \/ LostJson c d a) v ->
  Exists (LostJson c d) (vlist v) -> LostJson (j_vec sz c) (1 + d) v.
Proof.
  intros A c sz d v H E. destruct (list_lost _ _ _ _ H E) as (j & S & D & L & R). exists j.
  repeat split; auto. intros j' Rj. cbn [j_vec c_de]. unfold de_vec. apply R in Rj. cbn [j_list c_de] in Rj.
  now rewrite Rj.
Qed.

Lemma list_panics : forall A (c : codec A) l, Forall (fun a => written c a \/ PanicsJson c a) l -> Exists (PanicsJson c) l ->
  exists q, jmap (c_ser c) l = JPanic q.
Proof.
  intros A c l H. induction H as [|a l W H IH]; intros E; [inversion E|]. cbn [jmap]. fold (jmap (c_ser c)).
  inversion E as [? ? [q Q]|? ? E1]; subst.
  - rewrite Q. now exists q.
  - destruct W as [[j ->]|[q ->]]; [|now exists q]. cbn [jbind]. destruct (IH E1) as [q ->]. now exists q.
Qed.

Lemma jvec_panics : forall A (c : codec A) sz (v : vec sz A), VecAll (fun a => written c a \/ PanicsJson c a) v ->
  Exists (PanicsJson c) (vlist v) -> PanicsJson (j_vec sz c) v.
Proof.
  intros A c sz v H E. destruct (list_panics _ _ _ H E) as [q Q]. exists q. cbn [j_vec c_ser]. unfold ser_vec, ser_list.
  now rewrite Q.
Qed.

Definition field_gone {A} (f : field A) (d : N) (a : A) : Prop :=
  f_skip f a = false /\ exists j, f_ser f a = JOk j /\ DistinctKeys j /\ json_depth j <= d /\
    forall j', Reordered j j' -> f_de f j' = JErr.
Definition field_panics {A} (f : field A) (a : A) : Prop := f_skip f a = false /\ exists q, f_ser f a = JPanic q.
Definition field_written {A} (f : field A) (a : A) : Prop := f_skip f a = true \/ exists j, f_ser f a = JOk j.

Fixpoint fields_mixed {T} (fs : fields T) (d : N) : T -> Prop :=
  match fs with
  | FNil => fun _ => True
  | FCons f r => fun t => (field_ok f d (fst t) \/ field_gone f d (fst t)) /\ fields_mixed r d (snd t)
  end.
Fixpoint some_gone {T} (fs : fields T) (d : N) : T -> Prop :=
  match fs with
  | FNil => fun _ => False
  | FCons f r => fun t => field_gone f d (fst t) \/ some_gone r d (snd t)
  end.
Fixpoint fields_done {T} (fs : fields T) : T -> Prop :=
  match fs with
  | FNil => fun _ => True
  | FCons f r => fun t => (field_written f (fst t) \/ field_panics f (fst t)) /\ fields_done r (snd t)
  end.
Fixpoint some_panics {T} (fs : fields T) : T -> Prop :=
  match fs with
  | FNil => fun _ => False
  | FCons f r => fun t => field_panics f (fst t) \/ some_panics r (snd t)
  end.

Lemma fields_panic : forall T (fs : fields T) t, fields_done fs t -> some_panics fs t -> exists q, ser_fields fs t = JPanic q.
Proof.
  intros T fs. induction fs as [|A R f r IH]; intros t H E; [contradiction|]. cbn [fields_done some_panics ser_fields] in *.
  destruct H as [H1 H2]. destruct E as [[K [q Q]]|E].
  - rewrite K, Q. now exists q.
  - destruct (IH _ H2 E) as [q Q]. destruct (f_skip f (fst t)) eqn:K; [now exists q|].
    destruct H1 as [[H1|[j ->]]|[_ [q' ->]]]; [congruence| |now exists q']. cbn [jbind]. rewrite Q. now exists q.
Qed.

Lemma struct_panics : forall T A (fs : fields T) (tuple : A -> T) make a, fields_done fs (tuple a) -> some_panics fs (tuple a) ->
  PanicsJson (struct_codec fs tuple make) a.
Proof.
  intros T A fs tuple make a H E. destruct (fields_panic _ _ _ H E) as [q Q]. exists q. cbn [struct_codec c_ser].
  unfold ser_struct. now rewrite Q.
Qed.

Lemma check_mixed : forall T (fs : fields T) l seen,
  Forall (fun x => check_entry fs (fst x) (snd x) = Some (JOk tt) \/ check_entry fs (fst x) (snd x) = Some JErr) l ->
  Exists (fun x => check_entry fs (fst x) (snd x) = Some JErr) l -> check_entries fs seen l = JErr.
Proof.
  intros T fs. induction l as [|[k v] l IH]; intros seen F E; [inversion E|]. inversion F; subst. cbn [fst snd check_entries] in *.
  inversion E as [? ? Q|]; subst; cbn [fst snd] in *.
  - rewrite Q. now destruct (seen_before k seen).
  - destruct H1 as [->| ->]; destruct (seen_before k seen); try reflexivity. cbn [jbind]. now apply IH.
Qed.

Lemma ser_fields_mixed : forall T (fs : fields T) d t, NoDup (names fs) -> fields_mixed fs d t ->
  exists l, ser_fields fs t = JOk l /\ NoDup (map fst l) /\ incl (map fst l) (names fs) /\
    Forall (fun x => DistinctKeys (snd x)) l /\ Forall (fun x => json_depth (snd x) <= d) l /\
    Forall (fun x => (forall v', Reordered (snd x) v' -> check_entry fs (fst x) v' = Some (JOk tt)) \/
                     (forall v', Reordered (snd x) v' -> check_entry fs (fst x) v' = Some JErr)) l /\
    (some_gone fs d t -> Exists (fun x => forall v', Reordered (snd x) v' -> check_entry fs (fst x) v' = Some JErr) l).
Proof.
  intros T fs d. induction fs as [|A R f r IH]; intros t N H.
  - exists []. split; [reflexivity|]. split; [constructor|]. split; [intros x []|].
    repeat (split; [constructor|]). intros [].
  - cbn [names] in N. inversion N as [|? ? N1 N2]; subst. cbn [fields_mixed] in H. destruct H as [H1 H2].
    destruct (IH (snd t) N2 H2) as (l & S & ND & I & D & L & C & G). clear IH.
    assert (Q : forall x v', In x l -> check_entry (FCons f r) (fst x) v' = check_entry r (fst x) v').
    { intros x v' Hx. cbn [check_entry]. rewrite bytes_eqb_ne; [reflexivity|]. intros E. apply N1. rewrite <- E. apply I. now apply in_map. }
    assert (C' : Forall (fun x => (forall v', Reordered (snd x) v' -> check_entry (FCons f r) (fst x) v' = Some (JOk tt)) \/
                     (forall v', Reordered (snd x) v' -> check_entry (FCons f r) (fst x) v' = Some JErr)) l).
    { rewrite Forall_forall in *. intros x Hx. destruct (C x Hx) as [Y|Y]; [left|right]; intros v' Hv; rewrite Q; auto. }
    assert (G' : some_gone r d (snd t) -> Exists (fun x => forall v', Reordered (snd x) v' -> check_entry (FCons f r) (fst x) v' = Some JErr) l).
    { intros E. apply G in E. apply Exists_exists in E as (x & Hx & Hv). apply Exists_exists. exists x. split; [exact Hx|].
      intros v' Rv. rewrite Q; auto. }
    cbn [ser_fields some_gone]. destruct (f_skip f (fst t)) eqn:K.
    + exists l. split; [exact S|]. split; [exact ND|]. split; [intros x Hx; right; now apply I|].
      split; [exact D|]. split; [exact L|]. split; [exact C'|]. intros [[E _]|E]; [congruence|now apply G'].
    + assert (W : exists j, f_ser f (fst t) = JOk j /\ DistinctKeys j /\ json_depth j <= d /\
        ((forall j', Reordered j j' -> f_de f j' = JOk (fst t)) \/ (forall j', Reordered j j' -> f_de f j' = JErr))).
      { destruct H1 as [H1|[_ (j & Sj & Dj & Lj & Rj)]].
        - unfold field_ok in H1. rewrite K in H1. destruct H1 as (j & Sj & Dj & Lj & Rj). exists j; auto.
        - exists j; auto. }
      destruct W as (j & Sj & Dj & Lj & Rj). exists ((f_name f, j) :: l). rewrite Sj. cbn [jbind]. rewrite S.
      cbn [jbind map fst]. split; [reflexivity|].
      assert (NI : ~ In (f_name f) (map fst l)) by (intros Hx; apply N1; now apply I).
      split; [now constructor|]. split; [intros x [Hx|Hx]; [now left|right; now apply I]|].
      split; [now constructor|]. split; [now constructor|]. split.
      * constructor; [|exact C']. cbn [fst snd check_entry]. rewrite bytes_eqb_refl.
        destruct Rj as [Rj|Rj]; [left|right]; intros v' Hv; now rewrite (Rj _ Hv).
      * intros [[_ (i & Si & _ & _ & Ri)]|E].
        -- apply Exists_cons_hd. cbn [fst snd check_entry]. rewrite bytes_eqb_refl. intros v' Hv.
           rewrite Sj in Si. injection Si as <-. now rewrite (Ri _ Hv).
        -- apply Exists_cons_tl. now apply G'.
Qed.

Lemma de_struct_gone : forall T (fs : fields T) d t, distinct_names (names fs) = true -> fields_mixed fs d t -> some_gone fs d t ->
  exists j, ser_struct fs t = JOk j /\ DistinctKeys j /\ json_depth j <= 1 + d /\
    forall j', Reordered j j' -> de_struct fs j' = JErr.
Proof.
  intros T fs d t N H E. apply distinct_names_nodup in N.
  destruct (ser_fields_mixed _ _ _ _ N H) as (l & S & ND & I & D & L & C & G). specialize (G E).
  exists (JObj l). unfold ser_struct. rewrite S. cbn [jbind]. split; [reflexivity|]. split; [exact (distinct_object _ ND D)|]. split; [exact (depth_obj _ _ L)|].
  intros j' R. apply reordered_obj_inv in R. destruct R as (m & l' & -> & F & Q). cbn [de_struct].
  rewrite check_mixed; [reflexivity| |].
  - eapply Permutation_Forall; [exact Q|]. rewrite Forall_forall in *. intros y Iy.
    destruct (forall2_in_r _ _ _ _ _ _ F Iy) as (x & Ix & [Ek Rx]). rewrite <- Ek.
    destruct (C x Ix) as [Y|Y]; [left|right]; now apply Y.
  - apply Exists_exists in G as (x & Ix & Hx). destruct (forall2_in_l _ _ _ _ _ _ F Ix) as (y & Iy & [Ek Ry]).
    apply Exists_exists. exists y. split; [eapply Permutation_in; [exact Q|exact Iy]|]. rewrite <- Ek. now apply Hx.
Qed.

Lemma struct_gone : forall T A (fs : fields T) (tuple : A -> T) make d a,
  distinct_names (names fs) = true -> fields_mixed fs d (tuple a) -> some_gone fs d (tuple a) ->
  LostJson (struct_codec fs tuple make) (1 + d) a.
Proof.
  intros T A fs tuple make d a N H E. destruct (de_struct_gone _ _ _ _ N H E) as (j & S & D & L & R).
  exists j. repeat split; auto. intros j' Rj. cbn [struct_codec c_de]. now rewrite (R _ Rj).
Qed.

(** ** The keys decide *)

Lemma printable_iff : forall k, printable k <-> utf8_valid (trim_zeros (aval (uk_algorithm k))) = true.
Proof.
  intros k. split.
  - intros (t & n & E & Z & U). rewrite E, trim_zeros_pad by exact Z. now apply utf8_spec.
  - intros U. destruct (trim_zeros_spec (aval (uk_algorithm k))) as [n E].
    exists (trim_zeros (aval (uk_algorithm k))), n. split; [exact E|]. split; [apply trim_zeros_no_trailing|now apply utf8_spec].
Qed.

Lemma printable_dec : forall k, printable k \/ ~ printable k.
Proof. intros k. rewrite printable_iff. destruct (utf8_valid _); [now left|right; discriminate]. Qed.

Lemma named_dec : forall k, named k \/ ~ named k.
Proof.
  intros k. destruct (printable_dec k) as [P|P]; [|right; intros [H _]; contradiction].
  destruct (in_dec byte_eq_dec ":"%byte (aval (uk_algorithm k))) as [I|I]; [right; intros [_ H]; contradiction|left; now split].
Qed.

Lemma forall_dec : forall A (P : A -> Prop) l, (forall a, P a \/ ~ P a) -> Forall P l \/ Exists (fun a => ~ P a) l.
Proof.
  intros A P l D. induction l as [|a l IH]; [left; constructor|]. destruct (D a) as [H|H]; [|right; now constructor].
  destruct IH; [left; now constructor|right; now constructor 2].
Qed.

Lemma named_printable : forall K, Forall named K -> Forall printable K.
Proof. intros K H. eapply Forall_impl; [|exact H]. intros k [P _]. exact P. Qed.

Lemma keys_cases : forall K, Forall named K \/ (Forall printable K /\ ~ Forall named K) \/ ~ Forall printable K.
Proof.
  intros K. destruct (forall_dec _ _ K printable_dec) as [P|P].
  - destruct (forall_dec _ _ K named_dec) as [N|N]; [now left|right; left]. split; [exact P|].
    intros F. apply Exists_exists in N as (x & I & N). rewrite Forall_forall in F. auto.
  - right; right. intros F. apply Exists_exists in P as (x & I & N). rewrite Forall_forall in F. auto.
Qed.

Definition fate {A} (c : codec A) (d : N) (K : list unlock_key) (a : A) : Prop :=
  (Forall named K -> ok c d a) /\ (Forall printable K -> ~ Forall named K -> LostJson c d a) /\
  (~ Forall printable K -> PanicsJson c a).

Lemma fate_spec : forall A (c : codec A) d K a, fate c d K a -> FateByKeys c d K a.
Proof. intros A c d K a (H1 & H2 & H3). split; [|split]; auto. intros H. now apply ok_survives, H1. Qed.

Lemma fate_const : forall A (c : codec A) d a, ok c d a -> fate c d [] a.
Proof.
  intros A c d a H. split; [auto|]. split; [intros _ N; exfalso; apply N; constructor|intros N; exfalso; apply N; constructor].
Qed.

Lemma fate_weaken : forall A (c : codec A) d d' K a, fate c d K a -> d <= d' -> fate c d' K a.
Proof.
  intros A c d d' K a (H1 & H2 & H3) L. split; [|split]; auto.
  - intros H. eapply ok_weaken; [now apply H1|exact L].
  - intros P N. eapply lost_weaken; [now apply H2|exact L].
Qed.

Lemma fate_both : forall A (c : codec A) d K a, fate c d K a -> written c a \/ PanicsJson c a.
Proof.
  intros A c d K a (H1 & H2 & H3). destruct (keys_cases K) as [N|[[P N]|P]].
  - left. eapply ok_written; eauto.
  - left. eapply lost_written; eauto.
  - right; auto.
Qed.

Lemma fate_printable : forall A (c : codec A) d K a, fate c d K a -> Forall printable K -> ok c d a \/ LostJson c d a.
Proof.
  intros A c d K a (H1 & H2 & H3) P. destruct (forall_dec _ _ K named_dec) as [N|N]; [left; auto|right]. apply H2; [exact P|].
  intros F. apply Exists_exists in N as (x & I & N). rewrite Forall_forall in F. auto.
Qed.

Lemma flat_map_forall : forall A (f : A -> list unlock_key) (P : unlock_key -> Prop) l,
  Forall P (flat_map f l) <-> Forall (fun a => Forall P (f a)) l.
Proof.
  intros A f P l. induction l as [|a l IH]; cbn [flat_map]; [split; constructor|]. rewrite Forall_app, IH. split.
  - intros [H1 H2]. now constructor.
  - intros H. inversion H; now split.
Qed.

Lemma not_forall_exists : forall A (P : A -> Prop) l, (forall a, P a \/ ~ P a) -> ~ Forall P l -> Exists (fun a => ~ P a) l.
Proof. intros A P l D N. destruct (forall_dec _ _ l D); [contradiction|assumption]. Qed.

Lemma forall_keys_dec : forall (P : unlock_key -> Prop) K, (forall k, P k \/ ~ P k) -> Forall P K \/ ~ Forall P K.
Proof.
  intros P K D. destruct (forall_dec _ _ K D) as [H|H]; [now left|right]. intros F.
  apply Exists_exists in H as (x & I & N). rewrite Forall_forall in F. auto.
Qed.

Lemma mixed_list : forall A (c : codec A) d (f : A -> list unlock_key) l, Forall (fun a => fate c d (f a) a) l ->
  Forall printable (flat_map f l) -> Forall (fun a => ok c d a \/ LostJson c d a) l.
Proof.
  intros A c d f l H P. rewrite flat_map_forall in P. rewrite Forall_forall in *. intros a I.
  eapply fate_printable; [now apply H|now apply P].
Qed.

Lemma gone_list : forall A (c : codec A) d (f : A -> list unlock_key) l, Forall (fun a => fate c d (f a) a) l ->
  Forall printable (flat_map f l) -> ~ Forall named (flat_map f l) -> Exists (LostJson c d) l.
Proof.
  intros A c d f l H P N. rewrite flat_map_forall in P, N.
  apply not_forall_exists in N; [|intros a; apply forall_keys_dec, named_dec].
  apply Exists_exists in N as (a & I & N). apply Exists_exists. exists a. split; [exact I|].
  rewrite Forall_forall in H, P. destruct (H a I) as (_ & H2 & _). apply H2; [now apply P|exact N].
Qed.

Lemma panic_list : forall A (c : codec A) d (f : A -> list unlock_key) l, Forall (fun a => fate c d (f a) a) l ->
  ~ Forall printable (flat_map f l) -> Exists (PanicsJson c) l.
Proof.
  intros A c d f l H N. rewrite flat_map_forall in N.
  apply not_forall_exists in N; [|intros a; apply forall_keys_dec, printable_dec].
  apply Exists_exists in N as (a & I & N). apply Exists_exists. exists a. split; [exact I|].
  rewrite Forall_forall in H. destruct (H a I) as (_ & _ & H3). now apply H3.
Qed.

Lemma done_list : forall A (c : codec A) d (f : A -> list unlock_key) l, Forall (fun a => fate c d (f a) a) l ->
  Forall (fun a => written c a \/ PanicsJson c a) l.
Proof. intros A c d f l H. eapply Forall_impl; [|exact H]. intros a. cbv beta. apply fate_both. Qed.

Lemma fate_vec : forall A (c : codec A) sz d (f : A -> list unlock_key) (v : vec sz A), VecAll (fun a => fate c d (f a) a) v ->
  fate (j_vec sz c) (1 + d) (flat_map f (vlist v)) v.
Proof.
  intros A c sz d f v H. unfold VecAll in H. split; [|split].
  - intros N. rewrite flat_map_forall in N. apply jvec_ok. apply Forall_forall. intros a I.
    rewrite Forall_forall in H, N. now apply (H a I), N.
  - intros P N. apply jvec_lost; [eapply mixed_list; eauto|eapply gone_list; eauto].
  - intros P. apply jvec_panics; [eapply done_list; eauto|eapply panic_list; eauto].
Qed.

Definition field_fate {A} (f : field A) (d : N) (K : list unlock_key) (a : A) : Prop :=
  (Forall named K -> field_ok f d a) /\ (Forall printable K -> ~ Forall named K -> field_gone f d a) /\
  (~ Forall printable K -> field_panics f a).

Fixpoint fields_fate {T} (fs : fields T) (d : N) : list (list unlock_key) -> T -> Prop :=
  match fs with
  | FNil => fun Ks _ => Ks = []
  | FCons f r => fun Ks t => match Ks with
    | [] => False
    | K :: Ks => field_fate f d K (fst t) /\ fields_fate r d Ks (snd t)
    end
  end.

Lemma plain_fate : forall A (c : codec A) n d K a, fate c d K a -> field_fate (plain n c) d K a.
Proof.
  intros A c n d K a (H1 & H2 & H3). split; [exact H1|]. split.
  - intros P N. split; [reflexivity|]. exact (H2 P N).
  - intros P. split; [reflexivity|]. exact (H3 P).
Qed.

Lemma opt_vec_fate : forall sz A (c : codec (vec sz A)) n d (f : A -> list unlock_key) a, fate c d (flat_map f (vlist a)) a ->
  field_fate (opt_vec n c) d (flat_map f (vlist a)) a.
Proof.
  intros sz A c n d f a (H1 & H2 & H3).
  assert (K : vec_is_empty a = true -> vlist a = []) by (unfold vec_is_empty; now destruct (vlist a)).
  split; [intros H; now apply opt_vec_ok, H1|]. split.
  - intros P N. split; [|exact (H2 P N)]. cbn [opt_vec f_skip]. destruct (vec_is_empty a); [|reflexivity].
    exfalso. apply N. rewrite K by reflexivity. constructor.
  - intros P. split; [|exact (H3 P)]. cbn [opt_vec f_skip]. destruct (vec_is_empty a); [|reflexivity].
    exfalso. apply P. rewrite K by reflexivity. constructor.
Qed.

Lemma field_const : forall A (f : field A) d a, field_ok f d a -> field_fate f d [] a.
Proof.
  intros A f d a H. split; [auto|]. split; [intros _ N; exfalso; apply N; constructor|intros N; exfalso; apply N; constructor].
Qed.

Lemma fields_fate_ok : forall T (fs : fields T) d Ks t, fields_fate fs d Ks t -> Forall named (concat Ks) -> fields_ok fs d t.
Proof.
  intros T fs d. induction fs as [|A R f r IH]; intros Ks t H N; [exact I|]. destruct Ks as [|K Ks]; [contradiction|].
  cbn [fields_fate fields_ok concat] in *. apply Forall_app in N. destruct N as [N1 N2], H as [(H1 & _) H2]. split; [auto|eauto].
Qed.

Lemma fields_fate_mixed : forall T (fs : fields T) d Ks t, fields_fate fs d Ks t -> Forall printable (concat Ks) ->
  fields_mixed fs d t /\ (~ Forall named (concat Ks) -> some_gone fs d t).
Proof.
  intros T fs d. induction fs as [|A R f r IH]; intros Ks t H P.
  - cbn [fields_fate] in H. subst. split; [exact I|]. intros N. apply N. constructor.
  - destruct Ks as [|K Ks]; [contradiction|].
    cbn [fields_fate fields_mixed some_gone concat] in *. apply Forall_app in P. destruct P as [P1 P2], H as [(H1 & Hg & _) H2].
    destruct (IH _ _ H2 P2) as [M G]. rewrite Forall_app.
    destruct (forall_keys_dec named K named_dec) as [N|N]; (split; [split; [auto|exact M]|]); [|auto].
    intros Q. right. apply G. intros F. apply Q. now split.
Qed.

Lemma fields_fate_done : forall T (fs : fields T) d Ks t, fields_fate fs d Ks t ->
  fields_done fs t /\ (~ Forall printable (concat Ks) -> some_panics fs t).
Proof.
  intros T fs d. induction fs as [|A R f r IH]; intros Ks t H.
  - cbn [fields_fate] in H. subst. split; [exact I|]. intros N. apply N. constructor.
  - destruct Ks as [|K Ks]; [contradiction|].
    cbn [fields_fate fields_done some_panics concat] in *. destruct H as [(H1 & Hg & Hp) H2].
    destruct (IH _ _ H2) as [M G]. rewrite Forall_app.
    destruct (forall_keys_dec printable K printable_dec) as [P|P]; (split; [split; [|exact M]|]); [ | |auto|auto].
    + left. destruct (forall_keys_dec named K named_dec) as [N|N].
      * specialize (H1 N). unfold field_ok in H1. unfold field_written. destruct (f_skip f (fst t)); [now left|right].
        destruct H1 as (j & S & _). now exists j.
      * right. destruct (Hg P N) as [_ (j & S & _)]. now exists j.
    + intros Q. right. apply G. intros F. apply Q. now split.
Qed.

Lemma fate_struct : forall T A (fs : fields T) (tuple : A -> T) make d Ks K a,
  distinct_names (names fs) = true -> make (tuple a) = a -> fields_fate fs d Ks (tuple a) -> concat Ks = K ->
  fate (struct_codec fs tuple make) (1 + d) K a.
Proof.
  intros T A fs tuple make d Ks K a N E H <-. split; [|split].
  - intros F. apply struct_ok; [exact N| |exact E]. eapply fields_fate_ok; eauto.
  - intros P F. destruct (fields_fate_mixed _ _ _ _ _ H P) as [M G]. apply struct_gone; auto.
  - intros P. destruct (fields_fate_done _ _ _ _ _ H) as [M G]. apply struct_panics; auto.
Qed.

(** ** Unlock keys *)

Lemma colon_no_digit : forall v, ~ hex_digit ":"%byte v.
Proof.
  intros v [D|D]; apply nth_error_In in D; vm_compute in D; repeat (destruct D as [D|D]; [discriminate D|]); exact D.
Qed.

Lemma colon_not_hex : forall s l, HexText s l -> ~ In ":"%byte s.
Proof.
  intros s l H. induction H as [|c1 v1 c2 v2 s l b D1 D2 _ _ IH]; [intros []|].
  intros [->|[->|E]]; [now apply colon_no_digit in D1|now apply colon_no_digit in D2|contradiction].
Qed.

Lemma named_key : forall k, fits (uk_key k) -> named k -> json_key k.
Proof.
  intros k L [(t & n & E & Z & U) C]. unfold fits in L. assert (L16 := arr_len _ (uk_algorithm k)). exists t, n. repeat split; auto.
  - apply Forall_forall. intros c I ->. apply C. rewrite E. apply in_or_app. now left.
  - assert (length t <= 16)%nat by (rewrite E, app_length in L16; lia). unfold isize_max, u8 in *. lia.
Qed.

Lemma fate_unlock_key : forall k, fits (uk_key k) -> fate j_unlock_key 0 [k] k.
Proof.
  intros k L. unfold fits in L. assert (L16 := arr_len _ (uk_algorithm k)).
  split; [|split].
  - intros H. inversion H; subst. now apply ok_unlock_key, named_key.
  - intros P N. inversion P as [|? ? (t & n & E & Z & U) _]; subst.
    assert (I : In ":"%byte t).
    { destruct (in_dec byte_eq_dec ":"%byte t) as [I|I]; [exact I|]. exfalso. apply N. constructor; [|constructor]. split.
      - exists t, n. auto.
      - rewrite E. intros J. apply in_app_or in J as [J|J]; [contradiction|]. apply repeat_spec in J. discriminate J. }
    assert (Eh : unlock_key_text k = Val (t ++ ascii ":" ++ hex_encode (vlist (uk_key k)))).
    { unfold unlock_key_text. destruct (specifier_print _ t n E Z) as [H1 _]. destruct (H1 U) as [-> _]. reflexivity. }
    assert (Lt : (length t <= 16)%nat) by (rewrite E, app_length in L16; lia).
    set (s := t ++ ascii ":" ++ hex_encode (vlist (uk_key k))) in *.
    assert (Ls : N.of_nat (length s) <= isize_max).
    { unfold s. rewrite !app_length, hex_encode_length. change (length (ascii ":")) with 1%nat.
      unfold isize_max, u8 in *. lia. }
    assert (Us : utf8_valid s = true).
    { unfold s. apply utf8_app_ascii; [now apply utf8_spec|]. apply Forall_app.
      split; [repeat constructor; reflexivity|apply hex_encode_ascii]. }
    exists (JStr s). split; [|split; [constructor|split; [cbn; lia|]]].
    + cbn [j_unlock_key c_ser]. rewrite Eh. cbn [joutcome jbind]. unfold ser_text.
      destruct (N.leb_spec (N.of_nat (length s)) isize_max); [reflexivity|lia].
    + intros j' R. apply reordered_leaf in R. cbn in R. subst j'. cbn [j_unlock_key c_de].
      destruct (de_string_ok s Us Ls) as (rs & -> & Er). cbn [jbind].
      assert (F : exists e, parse_unlock_key rs = inr e); [|destruct F as [e ->]; reflexivity].
      unfold parse_unlock_key. rewrite Er. apply in_split in I as (a & b & Ea).
      assert (G : exists a' b', t = a' ++ ":"%byte :: b' /\ Forall (fun c => c <> ":"%byte) a').
      { clear -Ea. revert a b Ea. induction t as [|c t IH]; intros a b Ea; [destruct a; discriminate|].
        destruct (byte_eq_dec c ":"%byte) as [->|H]; [exists [], t; split; [reflexivity|constructor]|].
        destruct a as [|c' a]; cbn in Ea; injection Ea as -> Ea; [contradiction|].
        destruct (IH _ _ Ea) as (a' & b' & -> & F). exists (c' :: a'), b'. split; [reflexivity|now constructor]. }
      clear a b Ea. destruct G as (a & b & Et & Fa). unfold s. rewrite Et, <- app_assoc. cbn [app].
      rewrite split_once_some by exact Fa.
      destruct (hex_decode _) as [key|e] eqn:Ed; [|eauto]. exfalso. apply hex_decode_iff in Ed.
      apply colon_not_hex in Ed. apply Ed. apply in_or_app. right. now left.
  - intros P. exists UnwrapNone. cbn [j_unlock_key c_ser]. unfold unlock_key_text.
    rewrite specifier_text_panics; [reflexivity|]. apply not_true_iff_false. rewrite <- printable_iff. intros H. apply P. now repeat constructor.
Qed.

(** ** Structs *)

Ltac fconst := apply field_const; jfield.
Ltac fstruct fs tup Ks :=
  apply (fate_struct _ _ _ tup _ _ Ks); [reflexivity|match goal with |- _ = ?a => destruct a; reflexivity end|
    unfold fs, tup; cbn [fields_fate fst snd];
    repeat match goal with |- _ /\ _ => split | |- [] = [] => reflexivity end; try fconst|
    cbn [concat app]; rewrite ?app_nil_r; try reflexivity].

Lemma flat_map_single : forall A (l : list A), flat_map (fun a => [a]) l = l.
Proof. intros A l. induction l; cbn [flat_map app]; congruence. Qed.

Definition uc_keys (u : unlock_conditions) : list unlock_key := vlist (uc_public_keys u).
Notation fit_all K := (Forall (fun k => fits (uk_key k)) K).

Lemma fate_unlock_conditions : forall u, fit_all (uc_keys u) -> fate j_unlock_conditions (1 + 1) (uc_keys u) u.
Proof.
  intros u H. unfold j_unlock_conditions.
  fstruct unlock_conditions_fields unlock_conditions_tuple [[]; uc_keys u; []].
  apply plain_fate. unfold uc_keys. rewrite <- (flat_map_single _ (vlist (uc_public_keys u))).
  apply (fate_vec _ j_unlock_key _ 0). unfold VecAll. eapply Forall_impl; [|exact H]. intros k. apply fate_unlock_key.
Qed.

Lemma fate_v1_siacoin_input : forall i, fit_all (uc_keys (v1sci_unlock_conditions i)) ->
  fate j_v1_siacoin_input (1 + 2) (uc_keys (v1sci_unlock_conditions i)) i.
Proof.
  intros i H. unfold j_v1_siacoin_input.
  fstruct v1_siacoin_input_fields v1_siacoin_input_tuple [[]; uc_keys (v1sci_unlock_conditions i)].
  apply plain_fate. now apply fate_unlock_conditions.
Qed.

Lemma fate_v1_siafund_input : forall i, fit_all (uc_keys (v1sfi_unlock_conditions i)) ->
  fate j_v1_siafund_input (1 + 2) (uc_keys (v1sfi_unlock_conditions i)) i.
Proof.
  intros i H. unfold j_v1_siafund_input.
  fstruct v1_siafund_input_fields v1_siafund_input_tuple [[]; uc_keys (v1sfi_unlock_conditions i); []].
  apply plain_fate. now apply fate_unlock_conditions.
Qed.

Lemma fate_v1_revision : forall p r, fit_all (uc_keys (v1fcr_unlock_conditions r)) ->
  fate (j_v1_file_contract_revision p) (1 + 2) (uc_keys (v1fcr_unlock_conditions r)) r.
Proof.
  intros p r H. unfold j_v1_file_contract_revision.
  fstruct v1_file_contract_revision_fields v1_file_contract_revision_tuple
    [[]; uc_keys (v1fcr_unlock_conditions r); []; []; []; []; []; []; []; []].
  apply plain_fate. now apply fate_unlock_conditions.
Qed.

Lemma fits_json_bytes : forall sz (v : vec sz u8), fits v -> json_bytes v.
Proof. intros sz v H. unfold fits, json_bytes, isize_max, u8 in *. pose proof (N.mul_div_le (N.of_nat (length (vlist v)) + 2) 3 ltac:(lia)). lia. Qed.

Lemma opt_vec_field : forall sz A (c : codec A) n d (f : A -> list unlock_key) (v : vec sz A),
  (forall a, fit_all (f a) -> fate c d (f a) a) -> fit_all (flat_map f (vlist v)) ->
  field_fate (opt_vec n (j_vec sz c)) (1 + d) (flat_map f (vlist v)) v.
Proof.
  intros sz A c n d f v H F. apply opt_vec_fate, fate_vec. rewrite flat_map_forall in F. unfold VecAll.
  eapply Forall_impl; [|exact F]. exact H.
Qed.

Lemma fate_v1_transaction : forall p t, v1_fits t -> fate (j_v1_transaction p) (1 + 4) (v1_keys t) t.
Proof.
  intros p t (Hk & Hd & Hs). unfold v1_keys in Hk. rewrite !Forall_app in Hk. destruct Hk as (H1 & H2 & H3).
  assert (Jd : VecAll json_bytes (v1t_arbitrary_data t)) by (eapply Forall_impl; [|exact Hd]; intros v; apply fits_json_bytes).
  assert (Js : VecAll json_v1_signature (v1t_signatures t)) by (eapply Forall_impl; [|exact Hs]; intros v; apply fits_json_bytes).
  unfold j_v1_transaction. unfold v1_keys.
  fstruct v1_transaction_fields v1_transaction_tuple
    [flat_map (fun i => uc_keys (v1sci_unlock_conditions i)) (vlist (v1t_siacoin_inputs t)); []; [];
     flat_map (fun r => uc_keys (v1fcr_unlock_conditions r)) (vlist (v1t_file_contract_revisions t)); [];
     flat_map (fun i => uc_keys (v1sfi_unlock_conditions i)) (vlist (v1t_siafund_inputs t)); []; []; []; []].
  - apply (opt_vec_field _ _ _ _ 3); [exact fate_v1_siacoin_input|exact H1].
  - apply (opt_vec_field _ _ _ _ 3); [exact (fate_v1_revision p)|exact H2].
  - apply (opt_vec_field _ _ _ _ 3); [exact fate_v1_siafund_input|exact H3].
Qed.

Lemma fate_block : forall p b, json_time (bl_timestamp b) -> VecAll v1_fits (bl_transactions b) ->
  fate (j_block p) (1 + 6) (block_keys b) b.
Proof.
  intros p b T F. unfold j_block. fstruct block_fields block_tuple [[]; []; []; []; block_keys b].
  apply plain_fate. unfold block_keys. apply (fate_vec _ _ _ 5). unfold VecAll. eapply Forall_impl; [|exact F].
  intros t. apply fate_v1_transaction.
Qed.

(** ** Policies *)

Lemma policy_gone : forall st x v d,
  ser_policy x = JOk (JObj [(ascii "type", JStr (type_str x)); (ascii "policy", v)]) ->
  DistinctKeys v -> json_depth v <= d ->
  (forall w, Reordered v w -> policy_body st (type_str x) w = JErr) ->
  LostJson (MkCodec ser_policy (de_policy (S st))) (1 + d) x.
Proof.
  intros st x v d S D L R. eexists. split; [exact S|]. split; [|split].
  - constructor.
    + cbn [map fst]. apply distinct_names_nodup. reflexivity.
    + repeat constructor. exact D.
  - apply depth_obj. repeat constructor; cbn [snd]; [cbn; lia|exact L].
  - intros j' Rj. apply reordered_two in Rj. destruct Rj as (w1 & w2 & R1 & R2 & Ej).
    apply reordered_leaf in R1. cbn in R1. subst w1.
    assert (V : Reordered v (value_of w2)).
    { eapply reordered_trans; [exact R2|]. apply value_of_reordered. eapply reordered_distinct; eauto. }
    destruct (type_str_ascii x) as [A K].
    destruct (de_string_ok (type_str x) (utf8_ascii _ A) (small_ok _ K)) as (s & Es & El).
    assert (E : exists l, j' = JObj l /\ visit_policy None None l = JOk (Some (type_str x), Some (value_of w2))).
    { destruct Ej as [-> | ->]; eexists; (split; [reflexivity|]); cbn [visit_policy]; keys;
        rewrite Es; cbn [jbind]; rewrite El; reflexivity. }
    destruct E as (l & -> & E). cbn [c_de].
    change (de_policy (Datatypes.S st) (JObj l)) with
      (tv <- visit_policy None None l ;; t <- jopt (fst tv) ;; v <- jopt (snd tv) ;; policy_body st t v).
    rewrite E. cbn [jbind jopt fst snd]. now apply R.
Qed.

Lemma whole_forall : forall of, fold_right (fun q acc => whole_times q /\ acc) True of <-> Forall whole_times of.
Proof.
  induction of as [|q of IH]; cbn [fold_right]; [split; constructor|]. rewrite IH. split.
  - intros [H1 H2]. now constructor.
  - intros H. inversion H; subst. now split.
Qed.

Lemma leaf_policy_fate : forall stack x, match x with PThreshold _ _ | PUnlockConditions _ => False | _ => True end ->
  whole_times x -> (depth x <= stack)%nat -> fate (j_policy stack) (3 * N.of_nat (depth x)) (policy_keys x) x.
Proof.
  intros stack x H W D. replace (policy_keys x) with (@nil unlock_key) by (destruct x; (reflexivity || contradiction)).
  apply fate_const, ok_policy_depth; [|exact D]. destruct x; try exact I; try contradiction. exact W.
Qed.

Lemma named_policy : forall x, whole_times x -> fit_all (policy_keys x) -> Forall named (policy_keys x) -> json_policy x.
Proof.
  intros x. induction x as [h|t|pk|h|n of IH|a|u] using policy_ind'; intros W F N; try exact I; [exact W| |].
  - cbn [whole_times policy_keys json_policy] in *. apply whole_forall in W. rewrite flat_map_forall in F, N.
    apply json_policy_forall. rewrite Forall_forall in *. intros q I. apply IH; auto.
  - cbn [policy_keys json_policy] in *. unfold json_conditions, VecAll. rewrite Forall_forall in *. intros k I.
    apply named_key; auto.
Qed.

Lemma fate_policy : forall x stack, whole_times x -> fit_all (policy_keys x) -> (depth x <= stack)%nat ->
  fate (j_policy stack) (3 * N.of_nat (depth x)) (policy_keys x) x.
Proof.
  intros x. induction x as [h|t|pk|h|n of IH|a|u] using policy_ind'; intros stack W F D;
    try (apply leaf_policy_fate; [exact I|exact W|exact D]);
    (destruct stack as [|st]; [cbn [depth] in D; lia|]); unfold j_policy.
  - cbn [whole_times policy_keys] in *. apply whole_forall in W. rewrite flat_map_forall in F. cbn [depth] in *.
    set (m := fold_right (fun q acc => Nat.max (depth q) acc) O of) in *.
    assert (G : Forall (fun q => fate (MkCodec ser_policy (de_policy st)) (3 * N.of_nat m) (policy_keys q) q) of).
    { rewrite Forall_forall in *. intros q Hq. pose proof (depth_max of q Hq) as M. fold m in M.
      eapply fate_weaken; [apply (IH q Hq st); [now apply W|now apply F|lia]|lia]. }
    split; [|split].
    + intros N. apply ok_weaken with (d := 3 * N.of_nat (depth (PThreshold n of))); [|cbn [depth]; fold m; lia].
      apply ok_policy_depth with (stack := S st); [|cbn [depth]; fold m; lia]. 
      apply named_policy; cbn [whole_times policy_keys]; [now apply whole_forall|now apply flat_map_forall|exact N].
    + intros P N. assert (M := mixed_list _ _ _ _ _ G P). assert (X := gone_list _ _ _ _ _ G P N).
      destruct (list_lost _ _ _ _ M X) as (jl & Sl & Dl & Ll & Rl).
      destruct (de_struct_gone _ (thresh_fields (MkCodec ser_policy (de_policy st))) (1 + 3 * N.of_nat m) (n, (of, tt)))
        as (j & S & Dj & L & R); [reflexivity| | |].
      { cbn [thresh_fields fields_mixed fst snd]. repeat split.
        - left. apply plain_ok. eapply ok_weaken; [apply ok_u8|lia].
        - right. split; [reflexivity|]. exists jl. auto. }
      { cbn [thresh_fields some_gone fst snd]. right. left. split; [reflexivity|]. exists jl. auto. }
      assert (V : Reordered j (value_of j)) by now apply value_of_reordered.
      eapply lost_weaken; [eapply (policy_gone st (PThreshold n of) (value_of j) (2 + 3 * N.of_nat m))|lia].
      * rewrite ser_threshold. cbn [j_list c_ser] in Sl. unfold ser_list in Sl.
        destruct (jmap ser_policy of) as [l| |] eqn:El; cbn [jbind] in Sl; try discriminate.
        unfold ser_struct, thresh_fields in S. cbn [ser_fields plain f_skip f_ser f_name fst snd c_ser j_list] in S.
        unfold ser_list in S. rewrite El in S. cbn [j_u8 c_ser ser_u8 jbind] in S.
        apply (f_equal (fun r => match r with JOk x => x | _ => JNull end)) in S. cbv beta iota in S.
        cbn [j_u8 c_ser ser_u8 junwrap jbind]. rewrite <- S. reflexivity.
      * eapply reordered_distinct; eauto.
      * etransitivity; [apply depth_reordered; exact V|]. lia.
      * intros w Rw. unfold policy_body. cbn [type_str]. keys.
        rewrite (R w) by (eapply reordered_trans; eauto). reflexivity.
    + intros P. destruct (list_panics _ _ _ (done_list _ _ _ _ _ G) (panic_list _ _ _ _ _ G P)) as [q Q].
      exists q. cbn [c_ser] in *. rewrite ser_threshold. cbn [j_u8 c_ser ser_u8 junwrap jbind]. rewrite Q. reflexivity.
  - assert (G := fate_unlock_conditions u F).
    assert (S : ser_policy (PUnlockConditions u) = (v <- c_ser j_unlock_conditions u ;;
      JOk (JObj [(ascii "type", JStr (type_str (PUnlockConditions u))); (ascii "policy", v)]))) by reflexivity.
    destruct G as (G1 & G2 & G3). cbn [policy_keys] in *. split; [|split].
    + intros N. eapply ok_weaken; [eapply (leaf_policy_ok _ j_unlock_conditions u); [exact (G1 N)|exact S|]|cbn; lia].
      intros w E. unfold policy_body. cbn [type_str]. keys. now rewrite E.
    + intros P N. destruct (G2 P N) as (j & Sj & Dj & Lj & Rj). rewrite Sj in S. cbn [jbind] in S.
      eapply lost_weaken; [eapply (policy_gone st _ j _ S Dj Lj)|cbn; lia].
      intros w Rw. unfold policy_body. cbn [type_str]. keys. now rewrite (Rj _ Rw).
    + intros P. destruct (G3 P) as [q Q]. exists q. cbn [c_ser]. rewrite S, Q. reflexivity.
Qed.

(** ** Version 2 transactions *)

Lemma fate_satisfied : forall n stack s, (n <= stack)%nat -> whole_times (sp_policy s) -> (depth (sp_policy s) <= n)%nat ->
  fit_all (policy_keys (sp_policy s)) -> fate (j_satisfied_policy stack) (1 + (1 + 3 * N.of_nat n)) (policy_keys (sp_policy s)) s.
Proof.
  intros n stack s L W D F. unfold j_satisfied_policy.
  fstruct satisfied_policy_fields satisfied_policy_tuple [policy_keys (sp_policy s); []; []].
  apply plain_fate. eapply fate_weaken; [apply fate_policy; [exact W|exact F|lia]|lia].
Qed.

Definition sci_keys (i : v2_siacoin_input) := policy_keys (sp_policy (v2sci_satisfied_policy i)).
Definition sfi_keys (i : v2_siafund_input) := policy_keys (sp_policy (v2sfi_satisfied_policy i)).

Lemma fate_v2_siacoin_input : forall p n stack i, (n <= stack)%nat -> whole_times (sp_policy (v2sci_satisfied_policy i)) ->
  (depth (sp_policy (v2sci_satisfied_policy i)) <= n)%nat -> fit_all (sci_keys i) ->
  fate (j_v2_siacoin_input p stack) (1 + (3 + 3 * N.of_nat n)) (sci_keys i) i.
Proof.
  intros p n stack i L W D F. unfold j_v2_siacoin_input.
  fstruct v2_siacoin_input_fields v2_siacoin_input_tuple [[]; sci_keys i].
  apply plain_fate. eapply fate_weaken; [now apply (fate_satisfied n)|lia].
Qed.

Lemma fate_v2_siafund_input : forall p n stack i, (n <= stack)%nat -> whole_times (sp_policy (v2sfi_satisfied_policy i)) ->
  (depth (sp_policy (v2sfi_satisfied_policy i)) <= n)%nat -> fit_all (sfi_keys i) ->
  fate (j_v2_siafund_input p stack) (1 + (3 + 3 * N.of_nat n)) (sfi_keys i) i.
Proof.
  intros p n stack i L W D F. unfold j_v2_siafund_input.
  fstruct v2_siafund_input_fields v2_siafund_input_tuple [[]; []; sfi_keys i].
  apply plain_fate. eapply fate_weaken; [now apply (fate_satisfied n)|lia].
Qed.

Lemma flat_map_map : forall A B C (f : A -> B) (g : B -> list C) l, flat_map g (map f l) = flat_map (fun a => g (f a)) l.
Proof. intros A B C f g l. induction l; cbn [map flat_map]; congruence. Qed.

Lemma v2_keys_split : forall t, v2_keys t =
  flat_map sci_keys (vlist (v2t_siacoin_inputs t)) ++ flat_map sfi_keys (vlist (v2t_siafund_inputs t)).
Proof. intros t. unfold v2_keys, v2_policies. rewrite flat_map_app, !flat_map_map. reflexivity. Qed.

Lemma fate_v2_transaction : forall p n stack t, (n <= stack)%nat -> Forall whole_times (v2_policies t) ->
  Forall (fun x => depth x <= n)%nat (v2_policies t) -> v2_fits t ->
  fate (j_v2_transaction p stack) (1 + (6 + 3 * N.of_nat n)) (v2_keys t) t.
Proof.
  intros p n stack t L W D (F & Ha & Hd). rewrite v2_keys_split in *. unfold v2_policies in W, D.
  rewrite Forall_app, !Forall_map in W, D. rewrite Forall_app, !flat_map_forall in F.
  destruct W as [W1 W2], D as [D1 D2], F as [F1 F2]. rewrite Forall_forall in W1, W2, D1, D2, F1, F2.
  assert (Ja : VecAll json_attestation (v2t_attestations t)) by (eapply Forall_impl; [|exact Ha]; intros v; apply fits_json_bytes).
  assert (Jd := fits_json_bytes _ _ Hd).
  unfold j_v2_transaction.
  fstruct v2_transaction_fields v2_transaction_tuple
    [flat_map sci_keys (vlist (v2t_siacoin_inputs t)); []; flat_map sfi_keys (vlist (v2t_siafund_inputs t));
     []; []; []; []; []; []; []; []].
  - replace (6 + 3 * N.of_nat n) with (1 + (1 + (1 + (3 + 3 * N.of_nat n)))) by lia.
    apply opt_vec_fate. eapply fate_weaken; [apply (fate_vec _ _ _ (1 + (3 + 3 * N.of_nat n)))|lia].
    apply Forall_forall. intros i I. apply fate_v2_siacoin_input; auto.
  - replace (6 + 3 * N.of_nat n) with (1 + (1 + (1 + (3 + 3 * N.of_nat n)))) by lia.
    apply opt_vec_fate. eapply fate_weaken; [apply (fate_vec _ _ _ (1 + (3 + 3 * N.of_nat n)))|lia].
    apply Forall_forall. intros i I. apply fate_v2_siafund_input; auto.
  - apply field_const, opt_option_ok. intros x E. eapply ok_weaken; [apply ok_option_address; congruence|lia].
Qed.

(** ** Statements *)

Lemma v1_fate : forall p t, v1_fits t -> FateByKeys (j_v1_transaction p) 5 (v1_keys t) t.
Proof. intros p t F. apply fate_spec. now apply fate_v1_transaction. Qed.

Lemma block_fate : forall p b, json_time (bl_timestamp b) -> VecAll v1_fits (bl_transactions b) ->
  FateByKeys (j_block p) 7 (block_keys b) b.
Proof. intros p b T F. apply fate_spec. now apply fate_block. Qed.

Lemma early_block : forall p b, ~ json_time (bl_timestamp b) -> c_ser (j_block p) b = JErr.
Proof.
  intros p b T. unfold j_block. cbn [struct_codec c_ser]. unfold ser_struct, block_fields, block_tuple.
  cbn [ser_fields plain f_skip f_ser f_name fst snd]. cbn [j_hash j_u64 j_odt c_ser]. unfold ser_odt.
  rewrite rfc3339_text_none; [reflexivity|]. unfold json_time in T. unfold year0. lia.
Qed.

Lemma v2_fate : forall p n stack t, (n <= stack)%nat -> Forall whole_times (v2_policies t) ->
  Forall (fun x => depth x <= n)%nat (v2_policies t) -> v2_fits t ->
  FateByKeys (j_v2_transaction p stack) (7 + 3 * N.of_nat n) (v2_keys t) t.
Proof.
  intros p n stack t L W D F. apply fate_spec.
  eapply fate_weaken; [now apply (fate_v2_transaction p n)|lia].
Qed.

Lemma encodable_whole : forall x, encodable x -> whole_times x.
Proof.
  intros x. induction x as [h|t|pk|h|n of IH|a|u] using policy_ind'; intros E; try exact I; [exact E|].
  cbn [encodable whole_times] in *. destruct E as [_ E]. induction IH as [|q of Hq _ IH]; [exact I|].
  cbn [fold_right] in *. destruct E as [E1 E2]. split; auto.
Qed.

Lemma decoded_policies : forall stack bs t rest, run (decode_v2_transaction stack) bs = ROk t rest ->
  Forall whole_times (v2_policies t) /\ Forall (fun x => depth x <= stack)%nat (v2_policies t).
Proof.
  intros stack bs t rest R.
  destruct (wire_reencode stack _ _ _ _ (or_introl (V2_v2_transaction stack)) _ _ _ R) as [(H1 & H2) _].
  unfold v2_policies. rewrite !Forall_app, !Forall_map. unfold VecAll in *. rewrite Forall_forall in H1, H2.
  split; split; apply Forall_forall; intros i I.
  - apply encodable_whole, (H1 i I).
  - apply encodable_whole, (H2 i I).
  - apply (H1 i I).
  - apply (H2 i I).
Qed.

Lemma decoded_fate : forall p n stack bs t rest, run (decode_v2_transaction stack) bs = ROk t rest ->
  (n <= stack)%nat -> Forall (fun x => depth x <= n)%nat (v2_policies t) -> v2_fits t ->
  FateByKeys (j_v2_transaction p stack) (7 + 3 * N.of_nat n) (v2_keys t) t.
Proof.
  intros p n stack bs t rest R L D F. destruct (decoded_policies _ _ _ _ R) as [W _]. now apply v2_fate.
Qed.

Lemma decoded_fate_stack : forall p stack bs t rest, run (decode_v2_transaction stack) bs = ROk t rest -> v2_fits t ->
  FateByKeys (j_v2_transaction p stack) (7 + 3 * N.of_nat stack) (v2_keys t) t.
Proof.
  intros p stack bs t rest R F. destruct (decoded_policies _ _ _ _ R) as [W D]. now apply v2_fate.
Qed.

(** Texts *)
Lemma panic_text : forall A (c : codec A) a q, c_ser c a = JPanic q ->
  to_string c a = JPanic q /\ to_string_pretty c a = JPanic q.
Proof. intros A c a q E. unfold to_string, to_string_pretty. rewrite E. now split. Qed.

Lemma lost_text : forall A (c : codec A) d a t, LibraryJson c -> LostJson c d a -> wrote c a t -> from_str c t = JErr.
Proof.
  intros A c d a t L (j & S & D & _ & R) W. destruct (written_text _ _ _ _ L W) as (j' & S' & _ & T & _).
  rewrite S in S'. injection S' as <-. destruct (N.lt_ge_cases (json_depth j) 128) as [H|H].
  - rewrite (from_str_reads _ c j t T H). apply R. constructor.
  - apply from_str_rejects. intros i Ti. now rewrite (document_unique _ _ _ Ti T).
Qed.

Lemma text_fate : forall A (c : codec A) d K a, LibraryJson c -> d < 128 -> FateByKeys c d K a -> TextFateByKeys c K a.
Proof.
  intros A c d K a L Hd (H1 & H2 & H3). split; [|split].
  - intros N t W. exact (own_text _ _ _ _ _ L (H1 N) Hd W).
  - intros P N t W. exact (lost_text _ _ _ _ _ L (H2 P N) W).
  - intros P. destruct (H3 P) as [q Q]. exists q. now apply panic_text.
Qed.

Lemma lost_not : forall A (c : codec A) d d' a, LostJson c d a -> ~ SurvivesJson c d' a.
Proof.
  intros A c d d' a (j & S & D & _ & R) (j' & S' & _ & _ & R' & _). rewrite S in S'. injection S' as <-.
  specialize (R j (reordered_same j)). specialize (R' j (reordered_same j)). congruence.
Qed.

(** ** Transactions from peers *)

Definition peer_key (algorithm : bytes) : unlock_key :=
  MkUnlockKey (specifier_from algorithm) (@MkVec 1 _ [x01] eq_refl).
Definition peer_conditions (algorithm : bytes) : unlock_conditions :=
  MkUc (s_u64 0) (@MkVec 40 _ [peer_key algorithm] eq_refl) (s_u64 1).
Definition peer_v1 (algorithm : bytes) : v1_transaction :=
  MkV1Txn (@MkVec 72 _ [MkV1Sci (s_hash 1) (peer_conditions algorithm)] eq_refl)
    vec_nil vec_nil vec_nil vec_nil vec_nil vec_nil vec_nil vec_nil vec_nil.
Definition peer_v2 (algorithm : bytes) : v2_transaction :=
  MkV2Txn (@MkVec 224 _ [MkV2Sci (MkSce s_state_element (s_hash 10) s_siacoin_output (s_u64 144))
      (MkSatisfied (PThreshold x01 [PAbove (s_u64 5); PUnlockConditions (peer_conditions algorithm)]) vec_nil vec_nil)] eq_refl)
    vec_nil vec_nil vec_nil vec_nil vec_nil vec_nil vec_nil vec_nil None (s_cur 0).

Lemma peer_v1_keys : forall a, v1_keys (peer_v1 a) = [peer_key a].
Proof. reflexivity. Qed.
Lemma peer_v2_keys : forall a, v2_keys (peer_v2 a) = [peer_key a].
Proof. reflexivity. Qed.
Lemma peer_v1_fits : forall a, v1_fits (peer_v1 a).
Proof.
  intros a. split; [|split; constructor]. rewrite peer_v1_keys. repeat constructor. unfold fits. cbn. lia.
Qed.
Lemma peer_v2_fits : forall a, v2_fits (peer_v2 a).
Proof.
  intros a. split; [|split; [constructor|unfold fits; cbn; lia]]. rewrite peer_v2_keys. repeat constructor. unfold fits. cbn. lia.
Qed.

Lemma peer_v1_decodes : forall a, run decode_v1_transaction (wbytes (encode_v1_transaction (peer_v1 a))) = ROk (peer_v1 a) [].
Proof. intros a. pose proof (v1_transaction_roundtrip (peer_v1 a) []) as R. now rewrite app_nil_r in R. Qed.

Lemma peer_v2_decodes : forall stack a, (2 <= stack)%nat ->
  run (decode_v2_transaction stack) (wbytes (encode_v2_transaction (peer_v2 a))) = ROk (peer_v2 a) [].
Proof.
  intros stack a H.
  pose proof (v2_wire_roundtrip stack _ _ _ _ (V2Wire_codec _ _ _ _ _ (V2_v2_transaction stack)) (peer_v2 a) []) as R.
  rewrite app_nil_r in R. apply R. split; [|constructor]. constructor; [|constructor]. split; [|exact H].
  cbn. repeat split. lia.
Qed.

Lemma bad_key : ~ printable (peer_key [xff]).
Proof. rewrite printable_iff. vm_compute. discriminate. Qed.
Lemma colon_peer : printable (peer_key (ascii "a:b")) /\ ~ named (peer_key (ascii "a:b")).
Proof.
  split; [rewrite printable_iff; vm_compute; reflexivity|]. intros [_ N]. apply N. vm_compute. auto.
Qed.
Lemma good_peer : named (peer_key (ascii "ed25519")).
Proof. split; [rewrite printable_iff; vm_compute; reflexivity|]. vm_compute. intuition discriminate. Qed.

Lemma forall_one : forall A (P : A -> Prop) a, Forall P [a] <-> P a.
Proof. intros A P a. split; [intros H; now inversion H|intros H; now repeat constructor]. Qed.

Lemma v1_shown_refuted : ~ (forall p bs t, run decode_v1_transaction bs = ROk t [] -> exists j, c_ser (j_v1_transaction p) t = JOk j).
Proof.
  intros H. destruct (H Debug _ _ (peer_v1_decodes [xff])) as [j S].
  destruct (v1_fate Debug _ (peer_v1_fits [xff])) as (_ & _ & P). rewrite peer_v1_keys, forall_one in P.
  destruct (P bad_key) as [q Q]. congruence.
Qed.
Lemma v2_shown_refuted : forall stack, (2 <= stack)%nat ->
  ~ (forall p bs t, run (decode_v2_transaction stack) bs = ROk t [] -> exists j, c_ser (j_v2_transaction p stack) t = JOk j).
Proof.
  intros stack L H. destruct (H Debug _ _ (peer_v2_decodes stack [xff] L)) as [j S].
  destruct (decoded_fate_stack Debug stack _ _ _ (peer_v2_decodes stack [xff] L) (peer_v2_fits [xff])) as (_ & _ & P).
  rewrite peer_v2_keys, forall_one in P. destruct (P bad_key) as [q Q]. congruence.
Qed.
Lemma v1_read_refuted : ~ (forall p bs t j, run decode_v1_transaction bs = ROk t [] -> c_ser (j_v1_transaction p) t = JOk j ->
  c_de (j_v1_transaction p) j = JOk t).
Proof.
  intros H. destruct (v1_fate Debug _ (peer_v1_fits (ascii "a:b"))) as (_ & P & _). rewrite peer_v1_keys, !forall_one in P.
  destruct colon_peer as [C1 C2]. destruct (P C1 C2) as (j & S & _ & _ & R).
  specialize (H Debug _ _ _ (peer_v1_decodes _) S). rewrite (R j (reordered_same j)) in H. discriminate.
Qed.
Lemma v2_read_refuted : forall stack, (2 <= stack)%nat ->
  ~ (forall p bs t j, run (decode_v2_transaction stack) bs = ROk t [] -> c_ser (j_v2_transaction p stack) t = JOk j ->
     c_de (j_v2_transaction p stack) j = JOk t).
Proof.
  intros stack L H.
  destruct (decoded_fate_stack Debug stack _ _ _ (peer_v2_decodes stack (ascii "a:b") L) (peer_v2_fits (ascii "a:b"))) as (_ & P & _).
  rewrite peer_v2_keys, !forall_one in P.
  destruct colon_peer as [C1 C2]. destruct (P C1 C2) as (j & S & _ & _ & R).
  specialize (H Debug _ _ _ (peer_v2_decodes _ _ L) S). rewrite (R j (reordered_same j)) in H. discriminate.
Qed.

(** The names *)
Lemma printable_names : forall k, printable k <-> exists t, unlock_key_text k = Val t.
Proof.
  intros k. rewrite printable_iff. unfold unlock_key_text, specifier_text. cbv zeta. destruct (utf8_valid _).
  - split; [intros _; eexists; reflexivity|reflexivity].
  - split; [discriminate|intros [t E]; discriminate].
Qed.

Definition early_time : odt := MkOdt (-62167219201) 0 eq_refl.
Definition early_block_of : block := MkBlock (s_hash 1) (s_u64 0) early_time vec_nil vec_nil.
Lemma block_refuted : ~ (forall p bs b, run decode_block bs = ROk b [] -> exists j, c_ser (j_block p) b = JOk j).
Proof.
  intros H. pose proof (v1_wire_roundtrip _ _ _ _ V1_block early_block_of [] eq_refl) as R. rewrite app_nil_r in R.
  destruct (H Debug _ _ R) as [j S]. rewrite early_block in S; [discriminate|].
  unfold json_time. cbn. lia.
Qed.

Lemma fate_examples :
  named (peer_key (ascii "ed25519")) /\
  (printable (peer_key (ascii "a:b")) /\ ~ named (peer_key (ascii "a:b"))) /\
  ~ printable (peer_key [xff]) /\
  (forall a, v1_keys (peer_v1 a) = [peer_key a] /\ v1_fits (peer_v1 a) /\ v2_keys (peer_v2 a) = [peer_key a] /\ v2_fits (peer_v2 a) /\
     Forall whole_times (v2_policies (peer_v2 a)) /\ Forall (fun x => depth x <= 2)%nat (v2_policies (peer_v2 a))).
Proof.
  split; [exact good_peer|]. split; [exact colon_peer|]. split; [exact bad_key|]. intros a.
  split; [reflexivity|]. split; [apply peer_v1_fits|]. split; [reflexivity|]. split; [apply peer_v2_fits|].
  split; (constructor; [|constructor]); cbn; [tauto|lia].
Qed.

Lemma policy_fate : forall x n stack, (depth x <= n <= stack)%nat -> whole_times x ->
  Forall (fun k => fits (uk_key k)) (policy_keys x) -> FateByKeys (j_policy stack) (3 * N.of_nat n) (policy_keys x) x.
Proof.
  intros x n stack [D L] W F. apply fate_spec. eapply fate_weaken; [apply fate_policy; [exact W|exact F|lia]|lia].
Qed.

Lemma key_fate : forall k, fits (uk_key k) -> FateByKeys j_unlock_key 0 [k] k.
Proof. intros k F. now apply fate_spec, fate_unlock_key. Qed.

Lemma fates_exclude : forall A (c : codec A) d K a, FateByKeys c d K a ->
  (SurvivesJson c d a <-> Forall named K) /\ (LostJson c d a <-> Forall printable K /\ ~ Forall named K) /\
  (PanicsJson c a <-> ~ Forall printable K).
Proof.
  intros A c d K a (H1 & H2 & H3).
  assert (SL : SurvivesJson c d a -> LostJson c d a -> False) by (intros S L; eapply lost_not; eauto).
  assert (SP : SurvivesJson c d a -> PanicsJson c a -> False) by (intros (j & S & _) [q Q]; congruence).
  assert (LP : LostJson c d a -> PanicsJson c a -> False) by (intros (j & S & _) [q Q]; congruence).
  pose proof (named_printable K) as NP.
  destruct (keys_cases K) as [N|[[P N]|P]]; tauto.
Qed.

Lemma block_fates : forall p b,
  (~ json_time (bl_timestamp b) -> c_ser (j_block p) b = JErr) /\
  (json_time (bl_timestamp b) -> VecAll v1_fits (bl_transactions b) -> FateByKeys (j_block p) 7 (block_keys b) b).
Proof. intros p b. exact (conj (early_block p b) (block_fate p b)). Qed.
