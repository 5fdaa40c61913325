(** Proofs about the derive macros. *)

From Coq Require FinFun Eqdep_dec.
From Verif Require Import Base Io Spec IoProofs Codec Model_encoding Model_common Model_v1 Model_policy
  Model_v2 Model_derive Model_derivetypes SpecDerive.
Local Open Scope dec_scope.

Section Generic.
Context {T : Type}.
Variable T_eq_dec : forall a b : T, {a = b} + {a <> b}.
Variable den : T -> Type.
Variable enc : forall t, option (den t -> wprog).
Variable decoder : forall t, option (dec (den t)).

(** ** Encoders *)

Lemma place_eqb_eq : forall p q, place_eqb p q = true <-> p = q.
Proof.
  intros [a|i] [b|j]; cbn; try (split; discriminate).
  - rewrite String.eqb_eq. split; congruence.
  - rewrite Nat.eqb_eq. split; congruence.
Qed.

(** Encoding the places [ps], a selection of the places of a struct, in order. *)
Fixpoint select (keep : list bool) (ps : list place) : list place :=
  match ps with
  | [] => []
  | p :: r => match keep with false :: k => select k r | _ => p :: select (tl keep) r end
  end.

Definition encode_at (env : list (place * dyn den)) (p : place) : option wprog :=
  match find_place p env with
  | None => None
  | Some (existT _ t x) => match enc t with Some e => Some (e x) | None => None end
  end.

Lemma find_skip : forall {A} p (e1 e2 : list (place * A)), ~ In p (map fst e1) ->
  find_place p (e1 ++ e2) = find_place p e2.
Proof.
  intros A p e1 e2. induction e1 as [|[q a] r IH]; cbn; intros H; [reflexivity|].
  destruct (place_eqb p q) eqn:E.
  - apply place_eqb_eq in E. exfalso. apply H. left. congruence.
  - apply IH. intros I. apply H. right. exact I.
Qed.

Lemma map_fst_combine : forall {A B} (l : list A) (m : list B), length l = length m ->
  map fst (combine l m) = l.
Proof.
  intros A B l. induction l as [|a l IH]; intros [|b m] H; cbn in *; try discriminate; [reflexivity|].
  f_equal. apply IH. congruence.
Qed.

Lemma length_dyns : forall l (v : tuple den l), length (dyns den l v) = length l.
Proof. induction l as [|t l IH]; cbn; intros v; [reflexivity|]. f_equal. apply IH. Qed.

Lemma encode_select : forall l (v : tuple den l) ps keep env0,
  length ps = length l -> NoDup (map fst env0 ++ ps) ->
  concat_opt (map (encode_at (env0 ++ combine ps (dyns den l v))) (select keep ps)) =
  write_fields den enc keep l v.
Proof.
  induction l as [|t l IH]; intros v ps keep env0 L N.
  - destruct ps; [|discriminate]. reflexivity.
  - destruct ps as [|p ps]; [discriminate|]. cbn in L.
    assert (LP : length ps = length l) by congruence.
    assert (IH' : forall keep, concat_opt (map (encode_at (env0 ++ combine (p :: ps) (dyns den (t :: l) v)))
              (select keep ps)) = write_fields den enc keep l (snd v)).
    { intros k. rewrite <- (IH (snd v) ps k (env0 ++ [(p, existT _ t (fst v))]) LP).
      - f_equal. f_equal. cbn [dyns combine]. rewrite <- app_assoc. reflexivity.
      - rewrite map_app. cbn. rewrite <- app_assoc. exact N. }
    assert (H0 : encode_at (env0 ++ combine (p :: ps) (dyns den (t :: l) v)) p =
                 match enc t with Some e => Some (e (fst v)) | None => None end).
    { unfold encode_at. rewrite find_skip.
      - cbn. assert (E : place_eqb p p = true) by (apply place_eqb_eq; reflexivity). rewrite E. reflexivity.
      - apply NoDup_remove_2 in N. intros I. apply N. apply in_or_app. left. exact I. }
    destruct keep as [|[|] keep]; cbn [select write_fields tl map concat_opt];
      rewrite ?H0, ?IH'; destruct (enc t); reflexivity.
Qed.

Lemma encode_places : forall (f : fields T) v keep, NoDup (places f) ->
  length (places f) = length (field_types f) ->
  run_encode den enc f (select keep (places f)) v = write_fields den enc keep (field_types f) v.
Proof.
  intros f v keep N L. unfold run_encode.
  rewrite <- (encode_select (field_types f) v (places f) keep []); [reflexivity|exact L|exact N].
Qed.

Lemma length_places : forall f : fields T, length (places f) = length (field_types f).
Proof. intros [l|l|]; cbn; rewrite ?map_length, ?seq_length; reflexivity. Qed.

Lemma nodup_places : forall f : fields T, DistinctNames f -> NoDup (places f).
Proof.
  intros [l|l|]; cbn; intros H.
  - assert (E : map (fun '(n, _, _) => ByName n) l =
               map ByName (map (fun x : string * visibility * T => fst (fst x)) l)).
    { rewrite map_map. apply map_ext. intros [[n v] t]. reflexivity. }
    rewrite E. apply FinFun.Injective_map_NoDup; [intros a b; congruence|exact H].
  - apply FinFun.Injective_map_NoDup; [intros a b; congruence|]. apply seq_NoDup.
  - constructor.
Qed.

Lemma select_all : forall ps, select [] ps = ps.
Proof. induction ps; cbn; congruence. Qed.

Lemma select_true : forall {A} (l : list A) ps, select (map (fun _ => true) l) ps = ps.
Proof. intros A l. induction l as [|a l IH]; intros [|p ps]; cbn; try reflexivity. - f_equal. apply select_all. - f_equal. apply IH. Qed.

Lemma v1_body : forall (f : fields T) b,
  derive_v1_sia_encode (DataStruct f) = Some b -> b = select [] (places f).
Proof. intros [l|l|] b; cbn; intros [= <-]; rewrite ?select_all; reflexivity. Qed.

Lemma v2_body : forall (f : fields T) b,
  derive_sia_encode (DataStruct f) = Some b -> b = select (visible f) (places f).
Proof.
  intros [l|l|] b; cbn; intros [= <-]; rewrite ?select_true; try reflexivity.
  induction l as [|[[n v] t] l IH]; [reflexivity|]. cbn. destruct v; cbn; rewrite IH; reflexivity.
Qed.

Theorem v1_layout : forall f b v, DistinctNames f ->
  derive_v1_sia_encode (DataStruct f) = Some b ->
  run_encode den enc f b v = write_fields den enc [] (field_types f) v.
Proof.
  intros f b v N H. apply v1_body in H. subst b.
  apply encode_places; [apply nodup_places; exact N|apply length_places].
Qed.

Theorem v2_layout : forall f b v, DistinctNames f ->
  derive_sia_encode (DataStruct f) = Some b ->
  run_encode den enc f b v = write_fields den enc (visible f) (field_types f) v.
Proof.
  intros f b v N H. apply v2_body in H. subst b.
  apply encode_places; [apply nodup_places; exact N|apply length_places].
Qed.

Lemma write_visible : forall f v, AllPublic f ->
  write_fields den enc (visible f) (field_types f) v = write_fields den enc [] (field_types f) v.
Proof.
  assert (H : forall (l : list T) keep v, Forall (fun b => b = true) keep ->
    write_fields den enc keep l v = write_fields den enc [] l v).
  { induction l as [|t l IH]; intros keep v F; [reflexivity|]. cbn.
    destruct keep as [|b keep]; [reflexivity|]. inversion_clear F. subst b. cbn. rewrite IH by assumption. reflexivity. }
  intros [l|l|] v P; apply H; cbn in *.
  - rewrite Forall_map. eapply Forall_impl; [|exact P]. intros [[n a] t]; cbn. intros ->. reflexivity.
  - rewrite Forall_map. apply Forall_forall. reflexivity.
  - constructor.
Qed.

(** ** Decoders *)

(** The values read by the expressions of a struct literal. *)
Fixpoint read_dyns {K} (l : list (K * {t : T & dec (den t)})) : dec (list (K * dyn den)) :=
  match l with
  | [] => DRet []
  | (n, existT _ t d) :: r => x <- d ;; xs <- read_dyns r ;; DRet ((n, existT _ t x) :: xs)
  end.

Lemma eval_read : forall {K R} (l : list (K * {t : T & dec (den t)})) acc (k : _ -> dec R) bs,
  run (eval_exprs den l acc k) bs = run (xs <- read_dyns l ;; k (rev acc ++ xs)) bs.
Proof.
  induction l as [|[n [t d]] l IH]; intros acc k bs.
  - cbn. rewrite app_nil_r. reflexivity.
  - cbn [eval_exprs read_dyns]. rewrite !run_bind.
    destruct (run d bs) as [x rest| |]; try reflexivity.
    rewrite IH, !run_bind. destruct (run (read_dyns l) rest); try reflexivity.
    cbn [run rev]. rewrite <- app_assoc. reflexivity.
Qed.

Lemma resolve_read : forall {K} (ks : list K) l ds D bs, length ks = length l ->
  resolve den decoder (combine ks l) = Some ds -> read_fields den decoder l = Some D ->
  run (read_dyns ds) bs = run (v <- D ;; DRet (combine ks (dyns den l v))) bs.
Proof.
  induction ks as [|k ks IH]; intros [|t l] ds D bs L R F; try discriminate.
  - cbn in *. injection R as <-. injection F as <-. reflexivity.
  - cbn in L, R, F.
    destruct (decoder t) as [d|]; [|discriminate].
    destruct (resolve den decoder (combine ks l)) as [ds'|] eqn:R'; [|discriminate].
    destruct (read_fields den decoder l) as [D'|] eqn:F'; [|discriminate].
    injection R as <-. injection F as <-. cbn [read_dyns].
    rewrite !run_bind. destruct (run d bs) as [x rest| |]; try reflexivity.
    rewrite !run_bind, (IH l ds' D' rest) by congruence.
    rewrite run_bind. destruct (run D' rest); reflexivity.
Qed.

Lemma resolve_fields : forall {K} (ks : list K) l, length ks = length l ->
  (exists ds, resolve den decoder (combine ks l) = Some ds) <-> (exists D, read_fields den decoder l = Some D).
Proof.
  induction ks as [|k ks IH]; intros [|t l] L; try discriminate; cbn.
  - split; eauto.
  - cbn in L. specialize (IH l ltac:(congruence)). destruct (decoder t) as [d|].
    + split; intros [x E].
      * destruct (resolve den decoder (combine ks l)) eqn:R; [|discriminate].
        destruct (proj1 IH (ex_intro _ _ eq_refl)) as [D ED]. rewrite ED. eauto.
      * destruct (read_fields den decoder l) eqn:R; [|discriminate].
        destruct (proj2 IH (ex_intro _ _ eq_refl)) as [D ED]. rewrite ED. eauto.
    + split; intros [x E]; discriminate.
Qed.

Lemma eq_dec_refl : forall t (x : den t),
  match T_eq_dec t t with left e => Some (eq_rect t den x t e) | right _ => None end = Some x.
Proof.
  intros t x. destruct (T_eq_dec t t) as [e|]; [|contradiction].
  rewrite <- Eqdep_dec.eq_rect_eq_dec by exact T_eq_dec. reflexivity.
Qed.

Lemma find_value_skip : forall n t (l1 l2 : list (string * dyn den)), ~ In n (map fst l1) ->
  find_value T_eq_dec den n t (l1 ++ l2) = find_value T_eq_dec den n t l2.
Proof.
  intros n t l1 l2. induction l1 as [|[m [u x]] r IH]; cbn; intros H; [reflexivity|].
  destruct (String.eqb n m) eqn:E.
  - apply String.eqb_eq in E. exfalso. apply H. left. congruence.
  - apply IH. intros I. apply H. right. exact I.
Qed.

Lemma build_named_ok : forall l (v : tuple den (map snd l)) vs,
  NoDup (map fst vs ++ map (fun x : string * visibility * T => fst (fst x)) l) ->
  build_named T_eq_dec den l
    (vs ++ combine (map (fun x => fst (fst x)) l) (dyns den (map snd l) v)) = Some v.
Proof.
  induction l as [|[[n a] t] l IH]; intros v vs N; cbn [map build_named fst snd].
  - destruct v. reflexivity.
  - cbn [map combine dyns fst snd] in *.
    assert (F : find_value T_eq_dec den n t
      (vs ++ (n, existT _ t (fst v)) :: combine (map (fun x : string * visibility * T => fst (fst x)) l) (dyns den (map snd l) (snd v)))
      = Some (fst v)).
    { rewrite find_value_skip.
      - cbn [find_value]. rewrite String.eqb_refl. apply eq_dec_refl.
      - apply NoDup_remove_2 in N. intros I. apply N. apply in_or_app. left. exact I. }
    match goal with |- context [find_value ?a ?b ?c ?d ?e] =>
      replace (find_value a b c d e) with (Some (fst v)) by (symmetry; exact F) end.
    specialize (IH (snd v) (vs ++ [(n, existT _ t (fst v))])).
    rewrite map_app in IH. cbn in IH. rewrite <- !app_assoc in IH. cbn in IH.
    specialize (IH N).
    match goal with |- context [build_named ?a ?b ?c ?d] =>
      replace (build_named a b c d) with (Some (snd v)) by (symmetry; exact IH) end.
    destruct v. reflexivity.
Qed.

Lemma build_tuple_ok : forall l (v : tuple den l), build_tuple T_eq_dec den l (dyns den l v) = Some v.
Proof.
  induction l as [|t l IH]; intros v; cbn.
  - destruct v. reflexivity.
  - rewrite IH. destruct v as [x v]. cbn [fst snd].
    pose proof (eq_dec_refl t x) as E. destruct (T_eq_dec t t); [|discriminate]. injection E as ->. reflexivity.
Qed.

Lemma map_pair_combine : forall {A B C} (f : A -> B) (g : A -> C) l,
  map (fun x => (f x, g x)) l = combine (map f l) (map g l).
Proof. induction l; cbn; congruence. Qed.

(** A decoder whose struct expression lists all fields, in order. *)
Definition full_body (f : fields T) : decode_body T :=
  match f with
  | FNamed l => BNamed (map (fun '(n, _, t) => (n, t)) l)
  | FUnnamed l => BTuple (map snd l)
  | FUnit => BUnit
  end.

Lemma map_named : forall l : list (string * visibility * T),
  map (fun '(n, _, t) => (n, t)) l = combine (map (fun x => fst (fst x)) l) (map snd l).
Proof. induction l as [|[[n a] t] l IH]; cbn; congruence. Qed.

Lemma full_read : forall f D bs, DistinctNames f ->
  compile_decode T_eq_dec den decoder f (full_body f) = Some D ->
  exists R, read_fields den decoder (field_types f) = Some R /\ run D bs = run R bs.
Proof.
  intros f D bs N H. unfold compile_decode in H.
  destruct (body_ok T_eq_dec f (full_body f)); [cbn in H|discriminate].
  destruct f as [l|l|]; cbn [full_body] in H.
  - rewrite map_named in H. set (ns := map (fun x : string * visibility * T => fst (fst x)) l) in *.
    assert (L : length ns = length (map snd l)) by (unfold ns; rewrite !map_length; reflexivity).
    destruct (resolve den decoder (combine ns (map snd l))) as [ds|] eqn:R; [|discriminate].
    injection H as <-.
    destruct (proj1 (resolve_fields ns (map snd l) L) (ex_intro _ _ R)) as [F EF].
    exists F. split; [exact EF|].
    rewrite eval_read. cbn [rev app]. rewrite run_bind, (resolve_read ns (map snd l) ds F bs L R EF), run_bind.
    cbn [field_types] in *. destruct (run F bs) as [v rest| |]; try reflexivity. cbn [run].
    pose proof (build_named_ok l v [] N) as B. cbn [app] in B. fold ns in B.
    cbn [field_types] in *. rewrite B. reflexivity.
  - set (ks := map (fun _ => tt) (map snd l)).
    assert (E : map (fun t => (tt, t)) (map snd l) = combine ks (map snd l)).
    { unfold ks. clear. induction (map snd l); cbn; congruence. }
    rewrite E in H. assert (L : length ks = length (map snd l)) by (unfold ks; rewrite !map_length; reflexivity).
    destruct (resolve den decoder (combine ks (map snd l))) as [ds|] eqn:R; [|discriminate].
    injection H as <-.
    destruct (proj1 (resolve_fields ks (map snd l) L) (ex_intro _ _ R)) as [F EF].
    exists F. split; [exact EF|].
    rewrite eval_read. cbn [rev app]. rewrite run_bind, (resolve_read ks (map snd l) ds F bs L R EF), run_bind.
    cbn [field_types] in *. destruct (run F bs) as [v rest| |]; try reflexivity. cbn [run].
    assert (S : map snd (combine ks (dyns den (map snd l) v)) = dyns den (map snd l) v).
    { pose proof (length_dyns _ v) as LV. rewrite <- L in LV. clear -LV.
      revert LV. generalize (dyns den (map snd l) v), ks. intros m. clear.
      induction m as [|x m IH]; intros [|k ks'] LV; cbn in *; try discriminate; [reflexivity|].
      f_equal. apply IH. congruence. }
    cbn [field_types] in *. rewrite S, build_tuple_ok. reflexivity.
  - injection H as <-. exists (DRet tt). split; reflexivity.
Qed.

Lemma nodup_distinct : forall l, NoDup l -> distinct l = true.
Proof.
  induction l as [|n l IH]; intros N; [reflexivity|]. inversion_clear N as [|? ? H N'].
  cbn. rewrite (IH N'), andb_true_r, negb_true_iff.
  destruct (existsb (String.eqb n) l) eqn:E; [|reflexivity].
  apply existsb_exists in E. destruct E as (m & I & E). apply String.eqb_eq in E. congruence.
Qed.

Lemma full_ok : forall f : fields T, DistinctNames f -> body_ok T_eq_dec f (full_body f) = true.
Proof.
  intros [l|l|] N; cbn in *; [|destruct (list_eq_dec T_eq_dec _ _); congruence|reflexivity].
  apply andb_true_iff. split; [apply andb_true_iff; split|].
  - apply forallb_forall. intros [[n a] t] I. apply existsb_exists. exists (n, t). split.
    + apply in_map_iff. exists (n, a, t). auto.
    + rewrite String.eqb_refl. destruct (T_eq_dec t t); [reflexivity|contradiction].
  - apply forallb_forall. intros [n t] I. apply in_map_iff in I. destruct I as ([[m a] u] & E & I).
    injection E as -> ->. apply existsb_exists. exists (n, a, t). split; [exact I|apply String.eqb_refl].
  - apply nodup_distinct. rewrite map_map.
    erewrite map_ext; [exact N|]. intros [[n a] t]. reflexivity.
Qed.

Lemma read_fields_some : forall l, (exists R, read_fields den decoder l = Some R) <->
  (forall t, In t l -> decoder t <> None).
Proof.
  induction l as [|t l IH]; cbn.
  - split; [intros _ t []|eauto].
  - split.
    + intros [R H] u [<-|I].
      * intros E. rewrite E in H. discriminate.
      * destruct (decoder t); [|discriminate]. destruct (read_fields den decoder l); [|discriminate].
        apply (proj1 IH); eauto.
    + intros H. destruct (decoder t) as [d|] eqn:E; [|exfalso; apply (H t); auto].
      destruct (proj2 IH) as [R ER]; [intros u I; apply H; auto|]. rewrite ER. eauto.
Qed.

Lemma full_compiles : forall f, DistinctNames f ->
  (exists D, compile_decode T_eq_dec den decoder f (full_body f) = Some D) <->
  (forall t, In t (field_types f) -> decoder t <> None).
Proof.
  intros f N. rewrite <- read_fields_some. unfold compile_decode. rewrite (full_ok f N). cbn [negb].
  destruct f as [l|l|]; cbn [full_body field_types].
  - rewrite map_named, <- (resolve_fields (map (fun x => fst (fst x)) l)) by (rewrite !map_length; reflexivity).
    destruct (resolve _ _ _); split; intros [x E]; try discriminate; eauto.
  - assert (E : map (fun t => (tt, t)) (map snd l) = combine (map (fun _ => tt) (map snd l)) (map snd l)).
    { clear. induction (map snd l); cbn; congruence. }
    rewrite E, <- (resolve_fields (map (fun _ => tt) (map snd l))) by (rewrite !map_length; reflexivity).
    destruct (resolve _ _ _); split; intros [x Ex]; try discriminate; eauto.
  - cbn. split; eauto.
Qed.

Lemma v1_decode_body : forall (f : fields T) c,
  derive_v1_sia_decode (DataStruct f) = Some c -> c = full_body f.
Proof. intros [l|l|] c; cbn; intros [= <-]; reflexivity. Qed.

Lemma v2_decode_body : forall (f : fields T) c, AllPublic f ->
  derive_sia_decode (DataStruct f) = Some c -> c = full_body f.
Proof.
  intros [l|l|] c P; cbn in *; intros [= <-]; try reflexivity. f_equal.
  induction P as [|[[n a] t] l E P IH]; [reflexivity|]. cbn in *. subst a. cbn. rewrite IH. reflexivity.
Qed.

Lemma v2_private : forall (f : fields T) c, DistinctNames f ->
  derive_sia_decode (DataStruct f) = Some c -> body_ok T_eq_dec f c = true -> AllPublic f.
Proof.
  intros [l|l|] c N; cbn in *; intros [= <-]; try exact (fun _ => I). cbn.
  rewrite !andb_true_iff. intros [[H _] _]. rewrite forallb_forall in H.
  apply Forall_forall. intros [[n a] t] J. cbn. specialize (H _ J). cbn in H.
  apply existsb_exists in H. destruct H as ([m u] & K & E). apply andb_true_iff in E. destruct E as [E _].
  apply String.eqb_eq in E. subst m. apply in_flat_map in K. destruct K as ([[m b] u'] & K & K').
  destruct b; try contradiction. destruct K' as [K'|[]]. injection K' as -> ->.
  assert (X : a = VisPublic); [|exact X].
  induction l as [|[[p q] r] l IH]; [contradiction|]. inversion_clear N as [|? ? N1 N2].
  destruct J as [J|J], K as [K|K].
  - congruence.
  - exfalso. injection J as -> -> ->. apply N1. apply (in_map (fun x : string * visibility * T => fst (fst x)) l (n, VisPublic, u)). exact K.
  - exfalso. injection K as -> -> ->. apply N1. apply (in_map (fun x : string * visibility * T => fst (fst x)) l (n, a, t)). exact J.
  - apply IH; assumption.
Qed.

(** ** Main results *)

Theorem v1_decode_order : forall f c D, DistinctNames f ->
  derive_v1_sia_decode (DataStruct f) = Some c ->
  compile_decode T_eq_dec den decoder f c = Some D ->
  exists R, read_fields den decoder (field_types f) = Some R /\ forall bs, run D bs = run R bs.
Proof.
  intros f c D N H E. apply v1_decode_body in H. subst c.
  destruct (full_read f D [] N E) as (R & ER & _). exists R. split; [exact ER|].
  intros bs. destruct (full_read f D bs N E) as (R' & ER' & X). congruence.
Qed.

Theorem v2_decode_order : forall f c D, DistinctNames f ->
  derive_sia_decode (DataStruct f) = Some c ->
  compile_decode T_eq_dec den decoder f c = Some D ->
  AllPublic f /\
  exists R, read_fields den decoder (field_types f) = Some R /\ forall bs, run D bs = run R bs.
Proof.
  intros f c D N H E.
  assert (P : AllPublic f).
  { apply (v2_private f c N H). unfold compile_decode in E. destruct (body_ok T_eq_dec f c); [reflexivity|discriminate]. }
  split; [exact P|]. apply v2_decode_body in H; [|exact P]. subst c.
  destruct (full_read f D [] N E) as (R & ER & _). exists R. split; [exact ER|].
  intros bs. destruct (full_read f D bs N E) as (R' & ER' & X). congruence.
Qed.

Theorem v1_compiles : forall f, DistinctNames f ->
  (exists c D, derive_v1_sia_decode (DataStruct f) = Some c /\
               compile_decode T_eq_dec den decoder f c = Some D) <->
  (forall t, In t (field_types f) -> decoder t <> None).
Proof.
  intros f N. rewrite <- (full_compiles f N). split.
  - intros (c & D & H & E). apply v1_decode_body in H. subst c. eauto.
  - intros [D E]. exists (full_body f), D. split; [destruct f; reflexivity|exact E].
Qed.

Theorem v2_compiles : forall f, DistinctNames f ->
  (exists c D, derive_sia_decode (DataStruct f) = Some c /\
               compile_decode T_eq_dec den decoder f c = Some D) <->
  AllPublic f /\ (forall t, In t (field_types f) -> decoder t <> None).
Proof.
  intros f N. rewrite <- (full_compiles f N). split.
  - intros (c & D & H & E). pose proof (v2_decode_order f c D N H E) as [P _]. split; [exact P|].
    apply v2_decode_body in H; [|exact P]. subst c. eauto.
  - intros [P [D E]].
    assert (X : exists c, derive_sia_decode (DataStruct f) = Some c) by (destruct f; cbn; eauto).
    destruct X as [c X]. exists c, D. split; [exact X|].
    apply v2_decode_body in X; [|exact P]. subst c. exact E.
Qed.

Lemma write_prop : forall P l v p, Lawful den enc decoder P l -> write_fields den enc [] l v = Some p ->
  propagates p.
Proof.
  induction l as [|t l IH]; cbn; intros v p L H.
  - injection H as <-. constructor.
  - destruct (L t (or_introl eq_refl)) as (e & d & E & _ & Pe & _). rewrite E in H.
    match type of H with context [write_fields ?a ?b ?c ?d ?e] =>
      destruct (write_fields a b c d e) as [q|] eqn:W; [|discriminate] end. injection H as <-.
    apply Forall_app. split; [apply Pe|]. eapply IH; [|exact W]. intros u I. apply L. right. exact I.
Qed.

Lemma fields_roundtrip : forall P l R v p rest, Lawful den enc decoder P l ->
  read_fields den decoder l = Some R -> write_fields den enc [] l v = Some p ->
  AllFields den P l v -> run R (wbytes p ++ rest) = ROk v rest.
Proof.
  induction l as [|t l IH]; cbn; intros R v p rest L HR HW HP.
  - injection HR as <-. injection HW as <-. destruct v. reflexivity.
  - destruct (L t (or_introl eq_refl)) as (e & d & E & ED & Pe & RT). rewrite E in HW. rewrite ED in HR.
    match type of HW with context [write_fields ?a ?b ?c ?d ?e] =>
      destruct (write_fields a b c d e) as [q|] eqn:W; [|discriminate] end. injection HW as <-.
    destruct (read_fields den decoder l) as [R'|] eqn:F; [|discriminate]. injection HR as <-.
    destruct HP as [H1 H2]. rewrite wbytes_app_p by apply Pe. rewrite <- app_assoc, run_bind.
    rewrite (RT (fst v) _ H1), run_bind.
    rewrite (IH R' (snd v) q rest); try assumption.
    + destruct v. reflexivity.
    + intros u I. apply L. right. exact I.
    + reflexivity.
Qed.

Lemma write_some : forall P l v, Lawful den enc decoder P l -> exists p, write_fields den enc [] l v = Some p.
Proof.
  induction l as [|t l IH]; cbn; intros v L; [eauto|].
  destruct (L t (or_introl eq_refl)) as (e & d & E & _). rewrite E.
  destruct (IH (snd v)) as [p Hp]; [intros u I; apply L; right; exact I|].
  match goal with |- context [write_fields ?a ?b ?c ?d ?e] =>
    replace (write_fields a b c d e) with (Some p) by (symmetry; exact Hp) end. eauto.
Qed.

Theorem v1_roundtrip : forall P f b c D, DistinctNames f -> Lawful den enc decoder P (field_types f) ->
  derive_v1_sia_encode (DataStruct f) = Some b -> derive_v1_sia_decode (DataStruct f) = Some c ->
  compile_decode T_eq_dec den decoder f c = Some D ->
  forall v, exists p, run_encode den enc f b v = Some p /\ propagates p /\
    (AllFields den P (field_types f) v -> forall rest, run D (wbytes p ++ rest) = ROk v rest).
Proof.
  intros P f b c D N L HB HC HD v.
  destruct (v1_decode_order f c D N HC HD) as (R & ER & X).
  destruct (write_some P _ v L) as [p Hp]. exists p.
  rewrite (v1_layout f b v N HB). split; [exact Hp|]. split; [eapply write_prop; eassumption|].
  intros HP rest. rewrite X. eapply fields_roundtrip; eassumption.
Qed.

Theorem v2_roundtrip : forall P f b c D, DistinctNames f -> Lawful den enc decoder P (field_types f) ->
  derive_sia_encode (DataStruct f) = Some b -> derive_sia_decode (DataStruct f) = Some c ->
  compile_decode T_eq_dec den decoder f c = Some D ->
  forall v, exists p, run_encode den enc f b v = Some p /\ propagates p /\
    (AllFields den P (field_types f) v -> forall rest, run D (wbytes p ++ rest) = ROk v rest).
Proof.
  intros P f b c D N L HB HC HD v.
  destruct (v2_decode_order f c D N HC HD) as (PU & R & ER & X).
  destruct (write_some P _ v L) as [p Hp]. exists p.
  rewrite (v2_layout f b v N HB), (write_visible f v PU).
  split; [exact Hp|]. split; [eapply write_prop; eassumption|].
  intros HP rest. rewrite X. eapply fields_roundtrip; eassumption.
Qed.
End Generic.

Theorem sums_rejected : forall T,
  derive_sia_encode (@DataEnum T) = None /\ derive_sia_decode (@DataEnum T) = None /\
  derive_v1_sia_encode (@DataEnum T) = None /\ derive_v1_sia_decode (@DataEnum T) = None /\
  derive_sia_encode (@DataUnion T) = None /\ derive_sia_decode (@DataUnion T) = None /\
  derive_v1_sia_encode (@DataUnion T) = None /\ derive_v1_sia_decode (@DataUnion T) = None.
Proof. intros T. repeat split. Qed.
