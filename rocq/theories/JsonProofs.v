(** Proofs about JSON documents and the generic readers. *)

From Coq Require Import Permutation.
From Verif Require Import Base Io SpecUtf8 SpecText SpecWire Model_encoding Model_common Model_v1
  Model_policy Model_v2 Model_consensus Model_text TextProofs Model_json Model_jsontypes SpecJson.
Local Open Scope N_scope.
Local Open Scope jres_scope.

(** ** Induction on documents *)

Definition json_rect' (P : json -> Prop)
  (Hn : P JNull) (Hb : forall b, P (JBool b)) (Hu : forall n, P (JUint n)) (Hz : forall z, P (JNeg z))
  (Hf : P JFloat) (Hs : forall s, P (JStr s)) (Ha : forall l, Forall P l -> P (JArr l))
  (Ho : forall l, Forall (fun x => P (snd x)) l -> P (JObj l)) : forall j, P j :=
  fix F j :=
    match j with
    | JNull => Hn
    | JBool b => Hb b
    | JUint n => Hu n
    | JNeg z => Hz z
    | JFloat => Hf
    | JStr s => Hs s
    | JArr l => Ha l ((fix G l : Forall P l := match l with [] => Forall_nil _ | x :: r => Forall_cons x (F x) (G r) end) l)
    | JObj l => Ho l ((fix G l : Forall (fun x => P (snd x)) l :=
        match l with [] => Forall_nil _ | x :: r => Forall_cons x (F (snd x)) (G r) end) l)
    end.

(** ** Reordering *)

Lemma reordered_leaf : forall j j', Reordered j j' ->
  match j with JArr _ | JObj _ => True | _ => j' = j end.
Proof. intros j j' H. destruct H; auto. destruct j; auto. Qed.

Definition same_entry (x y : bytes * json) : Prop := fst x = fst y /\ Reordered (snd x) (snd y).

Lemma forall2_refl : forall A (R : A -> A -> Prop) l, (forall a, R a a) -> Forall2 R l l.
Proof. intros A R l H. induction l; constructor; auto. Qed.

Lemma reordered_arr_inv : forall l j', Reordered (JArr l) j' -> exists l', j' = JArr l' /\ Forall2 Reordered l l'.
Proof.
  intros l j' H. inversion H; subst.
  - exists l. split; [reflexivity|]. apply forall2_refl. constructor.
  - eauto.
Qed.

Lemma reordered_obj_inv : forall l j', Reordered (JObj l) j' ->
  exists m l', j' = JObj l' /\ Forall2 same_entry l m /\ Permutation m l'.
Proof.
  intros l j' H. inversion H; subst.
  - exists l, l. repeat split; auto. apply forall2_refl. intros a. split; [reflexivity|constructor].
  - exists m, l'. auto.
Qed.

Lemma reordered_trans : forall a b c, Reordered a b -> Reordered b c -> Reordered a c.
Proof.
  intros a. induction a as [| | | | | |l IH|l IH] using json_rect'; intros j1 j2 Hab Hbc;
    try (apply reordered_leaf in Hab; cbn in Hab; subst j1; exact Hbc).
  - apply reordered_arr_inv in Hab. destruct Hab as (l' & -> & F).
    apply reordered_arr_inv in Hbc. destruct Hbc as (l'' & -> & F'). apply reordered_array.
    revert l' l'' F F'. induction IH as [|x l Hx _ IHl]; intros l' l'' F F'.
    + inversion F; subst. inversion F'; subst. constructor.
    + inversion F; subst. inversion F'; subst. constructor; eauto.
  - apply reordered_obj_inv in Hab. destruct Hab as (m & l' & -> & F & P).
    apply reordered_obj_inv in Hbc. destruct Hbc as (m' & l'' & -> & F' & P').
    destruct (Permutation_Forall2 (Permutation_sym P) F') as (m2 & P2 & F2).
    apply reordered_object with (m := m2); [|now rewrite <- P2].
    clear P P' P2 F'. revert m m2 F F2. induction IH as [|x l Hx _ IHl]; intros m m2 F F2.
    + inversion F; subst. inversion F2; subst. constructor.
    + inversion F as [|? y ? ? [E R]]; subst. inversion F2 as [|? z ? ? [E2 R2]]; subst. constructor; eauto.
      split; [congruence|]. eauto.
Qed.

Lemma same_keys : forall l m, Forall2 same_entry l m -> map fst m = map fst l.
Proof. intros l m H. induction H as [|x y l m [E _] _ IH]; [reflexivity|]. cbn. now rewrite IH, E. Qed.

Lemma reordered_distinct : forall j j', Reordered j j' -> DistinctKeys j -> DistinctKeys j'.
Proof.
  intros j. induction j as [| | | | | |l IH|l IH] using json_rect'; intros j' R D;
    try (apply reordered_leaf in R; cbn in R; subst j'; exact D).
  - apply reordered_arr_inv in R. destruct R as (l' & -> & F). constructor.
    inversion D as [| | | | | |? D'|]; subst. clear D. revert l' F.
    induction IH as [|x l Hx _ IHl]; intros l' F; inversion F; subst; constructor;
      inversion D'; subst; auto.
  - apply reordered_obj_inv in R. destruct R as (m & l' & -> & F & P).
    inversion D as [| | | | | | |? N D']; subst. clear D. constructor.
    + eapply Permutation_NoDup; [apply Permutation_map; exact P|]. now rewrite (same_keys _ _ F).
    + eapply Permutation_Forall; [exact P|]. clear P N l'. revert m F.
      induction IH as [|x l Hx _ IHl]; intros m F; inversion F as [|? ? ? ? [E R]]; subst; constructor;
        inversion D'; subst; auto.
Qed.

(** ** [Value] *)

Lemma bytes_compare_eq : forall a b, bytes_compare a b = Eq -> a = b.
Proof.
  induction a as [|x a IH]; intros [|y b] H; try reflexivity; try discriminate.
  cbn [bytes_compare] in H. destruct (N.compare_spec (b2n x) (b2n y)) as [E| |]; try discriminate.
  apply b2n_inj in E. subst. f_equal. auto.
Qed.

Lemma map_insert_perm : forall k v m, ~ In k (map fst m) -> Permutation (map_insert k v m) ((k, v) :: m).
Proof.
  intros k v. induction m as [|[k' v'] m IH]; intros H; [reflexivity|]. cbn [map_insert].
  destruct (bytes_compare k k') eqn:C.
  - apply bytes_compare_eq in C. subst. cbn in H. tauto.
  - reflexivity.
  - rewrite IH by (cbn in H; tauto). apply perm_swap.
Qed.

Lemma map_of_perm : forall l, NoDup (map fst l) -> Permutation (map_of l) l.
Proof.
  intros l H. unfold map_of.
  assert (G : forall l m, NoDup (map fst l ++ map fst m) ->
    Permutation (fold_left (fun m kv => map_insert (fst kv) (snd kv) m) l m) (l ++ m)).
  { clear l H. induction l as [|[k v] l IH]; intros m H; [reflexivity|]. cbn [fold_left app fst snd].
    cbn [map app fst] in H. pose proof (NoDup_cons_iff k (map fst l ++ map fst m)) as E. apply E in H.
    destruct H as [H1 H2]. rewrite in_app_iff in H1.
    assert (P : Permutation (map_insert k v m) ((k, v) :: m)) by (apply map_insert_perm; tauto).
    rewrite IH.
    - rewrite P. symmetry. apply Permutation_middle.
    - eapply Permutation_NoDup; [|apply NoDup_cons; [|exact H2]; rewrite in_app_iff; exact H1].
      apply (Permutation_map fst) in P. rewrite P. cbn [map fst]. apply Permutation_middle. }
  rewrite (G l []); rewrite ?app_nil_r; auto.
Qed.

Lemma value_of_reordered : forall j, DistinctKeys j -> Reordered j (value_of j).
Proof.
  intros j. induction j as [| | | | | |l IH|l IH] using json_rect'; intros D; try apply reordered_same.
  - cbn [value_of]. apply reordered_array. inversion D as [| | | | | |? D'|]; subst. clear D.
    induction IH as [|x l Hx _ IHl]; [constructor|]. inversion D'; subst. cbn [map]. constructor; auto.
  - cbn [value_of]. inversion D as [| | | | | | |? N D']; subst. clear D.
    apply reordered_object with (m := map (fun kv => (fst kv, value_of (snd kv))) l).
    + clear N. induction IH as [|x l Hx _ IHl]; [constructor|]. inversion D'; subst. cbn [map].
      constructor; auto.
    + symmetry. apply map_of_perm. rewrite map_map. cbn [fst]. exact N.
Qed.

(** ** Depth *)

Lemma depth_arr : forall d l, Forall (fun j => json_depth j <= d) l -> json_depth (JArr l) <= 1 + d.
Proof.
  intros d l H. cbn [json_depth].
  assert (fold_right (fun x m => N.max (json_depth x) m) 0 l <= d).
  { induction H; cbn [fold_right]; lia. }
  lia.
Qed.

Lemma depth_obj : forall d (l : list (bytes * json)), Forall (fun x => json_depth (snd x) <= d) l ->
  json_depth (JObj l) <= 1 + d.
Proof.
  intros d l H. cbn [json_depth].
  assert (fold_right (fun kv m => N.max (json_depth (snd kv)) m) 0 l <= d).
  { induction H; cbn [fold_right]; lia. }
  lia.
Qed.

Lemma depth_reordered : forall j j', Reordered j j' -> json_depth j' <= json_depth j.
Proof.
  intros j. induction j as [| | | | | |l IH|l IH] using json_rect'; intros j' R;
    try (apply reordered_leaf in R; cbn in R; subst j'; lia).
  - apply reordered_arr_inv in R. destruct R as (l' & -> & F).
    set (d := fold_right (fun x m => N.max (json_depth x) m) 0 l).
    change (json_depth (JArr l)) with (1 + d). apply depth_arr.
    assert (G : Forall (fun x => json_depth x <= d) l).
    { subst d. clear. induction l as [|x l IH]; constructor; cbn [fold_right]; [lia|].
      eapply Forall_impl; [|exact IH]. cbn. intros; lia. }
    clearbody d. revert l' F. induction IH as [|x l Hx _ IHl]; intros l' F; inversion F; subst; constructor;
      inversion G; subst; auto. transitivity (json_depth x); auto.
  - apply reordered_obj_inv in R. destruct R as (m & l' & -> & F & P).
    set (d := fold_right (fun kv m => N.max (json_depth (snd kv)) m) 0 l).
    change (json_depth (JObj l)) with (1 + d). apply depth_obj.
    eapply Permutation_Forall; [exact P|]. clear P l'.
    assert (G : Forall (fun x => json_depth (snd x) <= d) l).
    { subst d. clear. induction l as [|x l IH]; constructor; cbn [fold_right]; [lia|].
      eapply Forall_impl; [|exact IH]. cbn. intros; lia. }
    clearbody d. revert m F. induction IH as [|x l Hx _ IHl]; intros m F; inversion F as [|? ? ? ? [E R]]; subst; constructor;
      inversion G; subst; auto. transitivity (json_depth (snd x)); auto.
Qed.

(** ** Values that survive *)

(** [reads c d a b]: the document of [a] is read back as [b]. *)
Definition reads {A} (c : codec A) (d : N) (a b : A) : Prop :=
  exists j, c_ser c a = JOk j /\ DistinctKeys j /\ json_depth j <= d /\
    forall j', Reordered j j' -> c_de c j' = JOk b.
Definition ok {A} (c : codec A) (d : N) (a : A) : Prop := reads c d a a.

Lemma ok_survives : forall A (c : codec A) d a, ok c d a -> SurvivesJson c d a.
Proof.
  intros A c d a (j & S & D & L & R). exists j. repeat split; auto.
  apply R. now apply value_of_reordered.
Qed.

Lemma survives_text : forall A (c : codec A) d a, SurvivesJson c d a -> d < 128 -> SurvivesText c a.
Proof.
  intros A c d a (j & S & D & L & R & V) H. exists j. split; [exact S|]. unfold from_text, text_depth_limit.
  destruct (N.ltb_spec (json_depth j) 128); [|lia]. apply R. constructor.
Qed.

Lemma ok_weaken : forall A (c : codec A) d d' a, ok c d a -> d <= d' -> ok c d' a.
Proof. intros A c d d' a (j & S & D & L & R) H. exists j. repeat split; auto. lia. Qed.

Lemma str_ok : forall A (c : codec A) a t, c_ser c a = JOk (JStr t) -> c_de c (JStr t) = JOk a -> ok c 0 a.
Proof.
  intros A c a t S D. exists (JStr t). repeat split; auto; [constructor|cbn; lia|].
  intros j' R. apply reordered_leaf in R. cbn in R. now subst.
Qed.

Lemma uint_ok : forall A (c : codec A) a n, c_ser c a = JOk (JUint n) -> c_de c (JUint n) = JOk a -> ok c 0 a.
Proof.
  intros A c a n S D. exists (JUint n). repeat split; auto; [constructor|cbn; lia|].
  intros j' R. apply reordered_leaf in R. cbn in R. now subst.
Qed.

(** ** Strings *)

Lemma utf8_ascii : forall t, Forall (fun b => b2n b < 128) t -> utf8_valid t = true.
Proof.
  intros t H. induction H as [|b t Hb _ IH]; [reflexivity|]. cbn [utf8_valid].
  destruct (N.leb_spec (b2n b) 0x7F); [exact IH|lia].
Qed.

Lemma de_string_ok : forall t, utf8_valid t = true -> N.of_nat (length t) <= isize_max ->
  exists s, de_string (JStr t) = JOk s /\ vlist (sbytes s) = t.
Proof.
  intros t U L. unfold de_string.
  destruct (vec_of_ok 1 byte t) as (v & Ev & El); [lia|lia|]. rewrite Ev. cbn [jopt jbind]. clear Ev. rename El into Ev.
  unfold rstring_of. destruct (bool_dec _ true) as [h|h].
  - cbn [jopt]. eexists. split; [reflexivity|]. exact Ev.
  - rewrite Ev in h. congruence.
Qed.

Lemma de_text_ok : forall A (parse : bytes -> jres A) t, utf8_valid t = true -> N.of_nat (length t) <= isize_max ->
  de_text parse (JStr t) = parse t.
Proof. intros A parse t U L. unfold de_text. destruct (de_string_ok t U L) as (s & -> & E). cbn. now rewrite E. Qed.

Lemma de_string_id : forall s : rstring, de_string (JStr (vlist (sbytes s))) = JOk s.
Proof.
  intros s. unfold de_string. rewrite vec_of_vlist. cbn [jopt jbind]. now rewrite rstring_of_id.
Qed.

(** ** Lists *)

Lemma list_ok : forall A (c : codec A) d l, Forall (ok c d) l -> ok (j_list c) (1 + d) l.
Proof.
  intros A c d l H.
  assert (G : exists js, jmap (c_ser c) l = JOk js /\ Forall DistinctKeys js /\
    Forall (fun j => json_depth j <= d) js /\
    forall js', Forall2 Reordered js js' -> jmap (c_de c) js' = JOk l).
  { induction H as [|a l (j & S & D & L & R) _ (js & S' & D' & L' & R')].
    - exists []. repeat split; try constructor. intros js' F. inversion F; subst. reflexivity.
    - exists (j :: js). cbn [jmap]. rewrite S. cbn [jbind]. fold (jmap (c_ser c)). rewrite S'. cbn [jbind].
      repeat split; [now constructor|now constructor|]. intros js' F. inversion F as [|? j' ? js'' Hj Hjs]; subst.
      cbn [jmap]. rewrite (R _ Hj). cbn [jbind]. fold (jmap (c_de c)). now rewrite (R' _ Hjs). }
  destruct G as (js & S & D & L & R). exists (JArr js). cbn [j_list c_ser c_de]. unfold ser_list. rewrite S.
  repeat split; [now constructor|now apply depth_arr|]. intros j' Rj.
  apply reordered_arr_inv in Rj. destruct Rj as (l' & -> & F). cbn [de_list]. auto.
Qed.

Lemma jvec_ok : forall A (c : codec A) sz d (v : vec sz A), VecAll (ok c d) v -> ok (j_vec sz c) (1 + d) v.
Proof.
  intros A c sz d v H. apply list_ok in H. destruct H as (j & S & D & L & R). exists j.
  repeat split; auto. intros j' Rj. cbn [j_vec c_de]. unfold de_vec. apply R in Rj. cbn [j_list c_de] in Rj.
  rewrite Rj. cbn [jbind]. now rewrite vec_of_vlist.
Qed.

(** ** Structs *)

Lemma bytes_eqb_refl : forall a, bytes_eqb a a = true.
Proof. intros a. now apply bytes_eqb_eq. Qed.
Lemma bytes_eqb_ne : forall a b, a <> b -> bytes_eqb a b = false.
Proof. intros a b H. destruct (bytes_eqb a b) eqn:E; [|reflexivity]. apply bytes_eqb_eq in E. contradiction. Qed.

Definition field_ok {A} (f : field A) (d : N) (a : A) : Prop :=
  if f_skip f a then f_default f = Some a
  else exists j, f_ser f a = JOk j /\ DistinctKeys j /\ json_depth j <= d /\
         forall j', Reordered j j' -> f_de f j' = JOk a.
Fixpoint fields_ok {T} (fs : fields T) (d : N) : T -> Prop :=
  match fs with
  | FNil => fun _ => True
  | FCons f r => fun t => field_ok f d (fst t) /\ fields_ok r d (snd t)
  end.
Fixpoint names {T} (fs : fields T) : list bytes :=
  match fs with FNil => [] | FCons f r => f_name f :: names r end.
Fixpoint distinct_names (l : list bytes) : bool :=
  match l with [] => true | a :: r => negb (existsb (bytes_eqb a) r) && distinct_names r end.

Lemma distinct_names_nodup : forall l, distinct_names l = true -> NoDup l.
Proof.
  induction l as [|a l IH]; intros H; [constructor|]. cbn [distinct_names] in H.
  apply andb_true_iff in H. destruct H as [H1 H2]. constructor; [|auto]. intros I.
  apply negb_true_iff in H1. assert (E : existsb (bytes_eqb a) l = true).
  { apply existsb_exists. exists a. split; [exact I|apply bytes_eqb_refl]. }
  congruence.
Qed.

(** What the serialised entries of a struct look like. *)
Fixpoint placed {T} (fs : fields T) (l : list (bytes * json)) : T -> Prop :=
  match fs with
  | FNil => fun _ => True
  | FCons f r => fun t =>
    (if f_skip f (fst t) then ~ In (f_name f) (map fst l) /\ f_default f = Some (fst t)
     else exists v, In (f_name f, v) l /\ forall v', Reordered v v' -> f_de f v' = JOk (fst t)) /\
    placed r l (snd t)
  end.

Lemma placed_cons : forall T (fs : fields T) x l t, ~ In (fst x) (names fs) -> placed fs l t -> placed fs (x :: l) t.
Proof.
  intros T fs. induction fs as [|A R f r IH]; intros x l t N H; [exact I|]. cbn [placed names] in *.
  destruct H as [H1 H2]. split; [|apply IH; [intros E; apply N; now right|exact H2]].
  destruct (f_skip f (fst t)).
  - destruct H1 as [H1 H3]. split; [|exact H3]. cbn [map]. intros [E|E]; [apply N; left; now symmetry|tauto].
  - destruct H1 as (v & H1 & H3). exists v. split; [now right|exact H3].
Qed.

Lemma ser_fields_ok : forall T (fs : fields T) d t, NoDup (names fs) -> fields_ok fs d t ->
  exists l, ser_fields fs t = JOk l /\ NoDup (map fst l) /\ incl (map fst l) (names fs) /\
    Forall (fun x => DistinctKeys (snd x)) l /\ Forall (fun x => json_depth (snd x) <= d) l /\
    placed fs l t /\
    Forall (fun x => forall v', Reordered (snd x) v' -> check_entry fs (fst x) v' = Some (JOk tt)) l.
Proof.
  intros T fs d. induction fs as [|A R f r IH]; intros t N H.
  - exists []. repeat split; try constructor. intros x [].
  - cbn [names] in N. inversion N as [|? ? N1 N2]; subst. cbn [fields_ok] in H. destruct H as [H1 H2].
    destruct (IH (snd t) N2 H2) as (l & S & ND & I & D & L & P & C). clear IH.
    assert (C' : Forall (fun x => forall v', Reordered (snd x) v' -> check_entry (FCons f r) (fst x) v' = Some (JOk tt)) l).
    { rewrite Forall_forall in *. intros x Hx v' Hv. cbn [check_entry].
      rewrite bytes_eqb_ne; [now apply C|]. intros E. apply N1. rewrite <- E. apply I. now apply in_map. }
    unfold field_ok in H1. cbn [ser_fields placed]. destruct (f_skip f (fst t)) eqn:K.
    + exists l. split; [exact S|]. split; [exact ND|]. split; [intros x Hx; right; now apply I|].
      split; [exact D|]. split; [exact L|]. split; [|exact C'].
      split; [|exact P]. split; [|exact H1]. intros Hx. apply N1. now apply I.
    + destruct H1 as (j & Sj & Dj & Lj & Rj). exists ((f_name f, j) :: l). rewrite Sj. cbn [jbind]. rewrite S.
      cbn [jbind map fst]. split; [reflexivity|].
      assert (NI : ~ In (f_name f) (map fst l)) by (intros Hx; apply N1; now apply I).
      split; [now constructor|]. split; [intros x [Hx|Hx]; [now left|right; now apply I]|].
      split; [now constructor|]. split; [now constructor|]. split.
      * split; [exists j; split; [now left|exact Rj]|]. now apply placed_cons.
      * constructor; [|exact C']. cbn [fst snd check_entry]. intros v' Hv. rewrite bytes_eqb_refl.
        now rewrite (Rj _ Hv).
Qed.

Lemma find_entry_in : forall k v l, NoDup (map fst l) -> In (k, v) l -> find_entry k l = Some v.
Proof.
  induction l as [|[k' v'] l IH]; intros N H; [contradiction|]. cbn [map fst] in N. inversion N; subst.
  cbn [find_entry]. destruct H as [E|H].
  - inversion E; subst. now rewrite bytes_eqb_refl.
  - rewrite bytes_eqb_ne; [auto|]. intros ->. apply H2. now apply (in_map fst) in H.
Qed.

Lemma find_entry_none : forall k l, ~ In k (map fst l) -> find_entry k l = None.
Proof.
  induction l as [|[k' v'] l IH]; intros N; [reflexivity|]. cbn [map fst find_entry] in *.
  rewrite bytes_eqb_ne; [apply IH; intros H; apply N; now right|]. intros ->. apply N. now left.
Qed.

Lemma check_entries_ok : forall T (fs : fields T) l seen, NoDup (map fst l) ->
  (forall k, In k (map fst l) -> ~ In k seen) ->
  Forall (fun x => check_entry fs (fst x) (snd x) = Some (JOk tt)) l -> check_entries fs seen l = JOk tt.
Proof.
  intros T fs. induction l as [|[k v] l IH]; intros seen N S F; [reflexivity|].
  cbn [map fst] in *. inversion N; subst. inversion F; subst. cbn [fst snd] in *. cbn [check_entries].
  rewrite H3. assert (E : seen_before k seen = false).
  { unfold seen_before. destruct (existsb (bytes_eqb k) seen) eqn:E; [|reflexivity].
    apply existsb_exists in E. destruct E as (k' & I & E). apply bytes_eqb_eq in E. subst. exfalso.
    apply (S k'); [now left|exact I]. }
  rewrite E. cbn [jbind]. apply IH; auto. intros k' I [->|I']; [contradiction|]. apply (S k'); [now right|exact I'].
Qed.

Lemma forall2_in_l : forall A B (R : A -> B -> Prop) l m x, Forall2 R l m -> In x l -> exists y, In y m /\ R x y.
Proof.
  intros A B R l m x H. induction H as [|a b l m Hab _ IH]; intros I; [contradiction|].
  destruct I as [->|I]; [exists b; split; [now left|exact Hab]|].
  destruct (IH I) as (y & Iy & Hy). exists y. split; [now right|exact Hy].
Qed.
Lemma forall2_in_r : forall A B (R : A -> B -> Prop) l m y, Forall2 R l m -> In y m -> exists x, In x l /\ R x y.
Proof.
  intros A B R l m y H. induction H as [|a b l m Hab _ IH]; intros I; [contradiction|].
  destruct I as [->|I]; [exists a; split; [now left|exact Hab]|].
  destruct (IH I) as (x & Ix & Hx). exists x. split; [now right|exact Hx].
Qed.

Lemma collect_fields_ok : forall T (fs : fields T) l m l' t, NoDup (map fst l) ->
  placed fs l t -> Forall2 same_entry l m -> Permutation m l' -> collect_fields fs l' = JOk t.
Proof.
  intros T fs. induction fs as [|A R f r IH]; intros l m l' t N P F Q.
  - cbn. now destruct t.
  - cbn [placed] in P. destruct P as [P1 P2]. cbn [collect_fields].
    assert (N' : NoDup (map fst l')).
    { eapply Permutation_NoDup; [apply Permutation_map; exact Q|]. now rewrite (same_keys _ _ F). }
    rewrite (IH l m l' (snd t) N P2 F Q). destruct (f_skip f (fst t)).
    + destruct P1 as [P1 E]. rewrite find_entry_none.
      * rewrite E. cbn. now destruct t.
      * intros I. apply P1. rewrite <- (same_keys _ _ F). eapply Permutation_in; [|exact I].
        apply Permutation_map. now symmetry.
    + destruct P1 as (v & I & Hv). destruct (forall2_in_l _ _ _ _ _ _ F I) as ([k w] & Iw & [E Rw]).
      cbn [fst snd] in *. subst k. rewrite (find_entry_in _ w l' N').
      * rewrite (Hv _ Rw). cbn. now destruct t.
      * eapply Permutation_in; [exact Q|exact Iw].
Qed.

Lemma de_struct_ok : forall T (fs : fields T) d t, distinct_names (names fs) = true -> fields_ok fs d t ->
  exists j, ser_struct fs t = JOk j /\ DistinctKeys j /\ json_depth j <= 1 + d /\
    forall j', Reordered j j' -> de_struct fs j' = JOk t.
Proof.
  intros T fs d t N H. apply distinct_names_nodup in N.
  destruct (ser_fields_ok _ _ _ _ N H) as (l & S & ND & I & D & L & P & C).
  exists (JObj l). unfold ser_struct. rewrite S. cbn [jbind]. repeat split; [now constructor|now apply depth_obj|].
  intros j' R. apply reordered_obj_inv in R. destruct R as (m & l' & -> & F & Q). cbn [de_struct].
  rewrite check_entries_ok.
  - cbn [jbind]. eapply collect_fields_ok; eauto.
  - eapply Permutation_NoDup; [apply Permutation_map; exact Q|]. now rewrite (same_keys _ _ F).
  - intros k _ [].
  - eapply Permutation_Forall; [exact Q|]. rewrite Forall_forall in *. intros y Iy.
    destruct (forall2_in_r _ _ _ _ _ _ F Iy) as (x & Ix & [E Rx]). rewrite <- E. now apply C.
Qed.

Lemma struct_ok : forall T A (fs : fields T) (tuple : A -> T) make d a,
  distinct_names (names fs) = true -> fields_ok fs d (tuple a) -> make (tuple a) = a ->
  ok (struct_codec fs tuple make) (1 + d) a.
Proof.
  intros T A fs tuple make d a N H M. destruct (de_struct_ok _ _ _ _ N H) as (j & S & D & L & R).
  exists j. repeat split; auto. intros j' Rj. cbn [struct_codec c_de]. rewrite (R _ Rj). cbn [jbind]. now rewrite M.
Qed.

Lemma plain_ok : forall A (c : codec A) n d a, ok c d a -> field_ok (plain n c) d a.
Proof. intros A c n d a H. exact H. Qed.

Lemma opt_vec_ok : forall sz A (c : codec (vec sz A)) n d a, ok c d a -> field_ok (opt_vec n c) d a.
Proof.
  intros sz A c n d a H. unfold field_ok. cbn [opt_vec f_skip f_default f_ser f_de].
  destruct (vec_is_empty a) eqn:E; [|exact H]. f_equal. apply vec_eq. unfold vec_is_empty in E.
  destruct (vlist a); [reflexivity|discriminate].
Qed.

Lemma opt_option_ok : forall A (c : codec (option A)) n d a, (forall x, a = Some x -> ok c d a) ->
  field_ok (opt_option n c) d a.
Proof.
  intros A c n d a H. unfold field_ok. cbn [opt_option f_skip f_default f_ser f_de].
  destruct a as [x|]; [|reflexivity]. now apply (H x).
Qed.

(** ** Objects with two and three entries *)

Lemma reordered_two : forall k1 v1 k2 v2 j', Reordered (JObj [(k1, v1); (k2, v2)]) j' ->
  exists w1 w2, Reordered v1 w1 /\ Reordered v2 w2 /\
    (j' = JObj [(k1, w1); (k2, w2)] \/ j' = JObj [(k2, w2); (k1, w1)]).
Proof.
  intros k1 v1 k2 v2 j' R. apply reordered_obj_inv in R. destruct R as (m & l' & -> & F & Q).
  inversion F as [|? [a w1] ? m1 [E1 R1] F1]; subst. inversion F1 as [|? [b w2] ? m2 [E2 R2] F2]; subst.
  inversion F2; subst. cbn [fst snd] in *. subst. exists w1, w2. repeat split; auto.
  apply Permutation_length_2_inv in Q. destruct Q as [->| ->]; auto.
Qed.

Lemma permutation_three : forall A (a b c : A) l, Permutation [a; b; c] l ->
  l = [a; b; c] \/ l = [a; c; b] \/ l = [b; a; c] \/ l = [b; c; a] \/ l = [c; a; b] \/ l = [c; b; a].
Proof.
  intros A a b c l H. destruct l as [|x l].
  - apply Permutation_sym, Permutation_nil in H. discriminate.
  - assert (I : In x [a; b; c]) by (eapply Permutation_in; [symmetry; exact H|now left]).
    destruct I as [<-|[<-|[<-|[]]]].
    + apply Permutation_cons_inv, Permutation_length_2_inv in H. destruct H as [->| ->]; auto.
    + assert (H' : Permutation (b :: [a; c]) (b :: l)) by (rewrite <- H; apply perm_swap).
      apply Permutation_cons_inv, Permutation_length_2_inv in H'. destruct H' as [->| ->]; auto.
    + assert (H' : Permutation (c :: [a; b]) (c :: l)).
      { rewrite <- H. change (c :: [a; b]) with ([c] ++ [a; b]). rewrite Permutation_app_comm. reflexivity. }
      apply Permutation_cons_inv, Permutation_length_2_inv in H'. destruct H' as [->| ->]; auto 6.
Qed.

Lemma reordered_three : forall k1 v1 k2 v2 k3 v3 j', Reordered (JObj [(k1, v1); (k2, v2); (k3, v3)]) j' ->
  exists w1 w2 w3 l, Reordered v1 w1 /\ Reordered v2 w2 /\ Reordered v3 w3 /\ j' = JObj l /\
    let a := (k1, w1) in let b := (k2, w2) in let c := (k3, w3) in
    l = [a; b; c] \/ l = [a; c; b] \/ l = [b; a; c] \/ l = [b; c; a] \/ l = [c; a; b] \/ l = [c; b; a].
Proof.
  intros k1 v1 k2 v2 k3 v3 j' R. apply reordered_obj_inv in R. destruct R as (m & l' & -> & F & Q).
  inversion F as [|? [a w1] ? m1 [E1 R1] F1]; subst. inversion F1 as [|? [b w2] ? m2 [E2 R2] F2]; subst.
  inversion F2 as [|? [c w3] ? m3 [E3 R3] F3]; subst.
  inversion F3; subst. cbn [fst snd] in *. subst. exists w1, w2, w3, l'. repeat split; auto.
  now apply permutation_three.
Qed.
