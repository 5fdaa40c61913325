(** Composition lemmas for codecs. *)

From Verif Require Import Base Io IoProofs Spec.
Local Open Scope N_scope.
Local Open Scope dec_scope.

(** ** From the round trip to the other laws *)

Lemma roundtrip_on_true : forall A (enc : A -> wprog) d,
  RoundTrip enc d <-> RoundTripOn (fun _ => True) enc d.
Proof. unfold RoundTrip, RoundTripOn; split; intros; auto. Qed.

Lemma roundtrip_on_unambiguous : forall A P (enc : A -> wprog) d,
  RoundTripOn P enc d -> UnambiguousOn P enc.
Proof.
  intros A P enc d H a b x y Ha Hb E.
  pose proof (H a x Ha) as H1. rewrite E, (H b y Hb) in H1.
  now inversion H1.
Qed.

Lemma roundtrip_unambiguous : forall A (enc : A -> wprog) d,
  RoundTrip enc d -> Unambiguous enc.
Proof.
  intros A enc d H a b x y E.
  pose proof (H a x) as H1. rewrite E, (H b y) in H1. now inversion H1.
Qed.

Lemma unambiguous_inj : forall A (enc : A -> wprog),
  Unambiguous enc -> forall a b, wbytes (enc a) = wbytes (enc b) -> a = b.
Proof.
  intros A enc H a b E. apply (f_equal (fun l => l ++ [])) in E. now apply H in E.
Qed.

Lemma roundtrip_on_truncated : forall A P (enc : A -> wprog) d,
  RoundTripOn P enc d -> RejectsTruncatedOn P enc d.
Proof.
  intros A P enc d H a p q Ha E Hq.
  pose proof (H a [] Ha) as H1. rewrite app_nil_r in H1.
  eapply run_truncated; eauto.
Qed.

Lemma roundtrip_truncated : forall A (enc : A -> wprog) d,
  RoundTrip enc d -> RejectsTruncated enc d.
Proof.
  intros A enc d H a p q E Hq.
  pose proof (H a []) as H1. rewrite app_nil_r in H1. eapply run_truncated; eauto.
Qed.

(** A canonical decoder maps different inputs to different values. *)
Lemma canonical_inj : forall A (enc : A -> wprog) d bs bs' a rest,
  Canonical enc d -> run d bs = ROk a rest -> run d bs' = ROk a rest -> bs = bs'.
Proof. intros A enc d bs bs' a rest H H1 H2. apply H in H1, H2. congruence. Qed.

(** ** Inversion of sequencing *)

Lemma run_bind_ok : forall A B (m : dec A) (f : A -> dec B) bs b rest,
  run (dbind m f) bs = ROk b rest ->
  exists a r, run m bs = ROk a r /\ run (f a) r = ROk b rest.
Proof.
  intros A B m f bs b rest H. rewrite run_bind in H.
  destruct (run m bs) as [a r|e|p]; try discriminate. eauto.
Qed.

Lemma run_ret_ok : forall A (a b : A) bs rest, run (DRet a) bs = ROk b rest -> a = b /\ bs = rest.
Proof. intros A a b bs rest H; inversion H; auto. Qed.

(** ** Panics *)

Lemma panics_ret : forall A P (a : A), PanicsOnly P (DRet a).
Proof. intros A P a bs p H; discriminate. Qed.

Lemma panics_err : forall A P e, PanicsOnly P (@DErr A e).
Proof. intros A P a bs p H; discriminate. Qed.

Lemma panics_panic : forall A (P : panic -> Prop) q, P q -> PanicsOnly P (@DPanic A q).
Proof. intros A P q H bs p E. cbn in E. now inversion E; subst. Qed.

Lemma panics_read : forall A P n e (k : bytes -> dec A),
  (forall x, length x = n -> PanicsOnly P (k x)) -> PanicsOnly P (DRead n e k).
Proof.
  intros A P n e k H bs p E. cbn in E.
  destruct (splitn n bs) as [[x r]|] eqn:Es; [|discriminate].
  apply splitn_some in Es as [_ Hl]. eapply H; eauto.
Qed.

Lemma panics_alloc : forall A P z (k : dec A), PanicsOnly P k -> PanicsOnly P (DAlloc z k).
Proof. intros A P z k H bs p E. exact (H bs p E). Qed.

Lemma panics_bind : forall A B P (m : dec A) (f : A -> dec B),
  PanicsOnly P m -> (forall a, PanicsOnly P (f a)) -> PanicsOnly P (dbind m f).
Proof.
  intros A B P m f Hm Hf bs p E. rewrite run_bind in E.
  destruct (run m bs) as [a r|e|q] eqn:Em; try discriminate.
  - eapply Hf; eauto.
  - inversion E; subst. eapply Hm; eauto.
Qed.

Lemma panics_map_err : forall A P e (m : dec A), PanicsOnly P m -> PanicsOnly P (dmap_err e m).
Proof. intros A P e m H bs p E. apply run_map_err_panic in E. eauto. Qed.

Lemma panics_dret_opt : forall A P e (o : option A), PanicsOnly P (dret_opt e o).
Proof. intros A P e [a|]; [apply panics_ret|apply panics_err]. Qed.

Lemma panics_loop_nat : forall S P (step : S -> dec S),
  (forall s, PanicsOnly P (step s)) -> forall n s, PanicsOnly P (dloop_nat n step s).
Proof.
  intros S P step H; induction n as [|n IH]; intros s; cbn.
  - apply panics_ret.
  - apply panics_bind; auto.
Qed.

Lemma panics_loop : forall S P (step : S -> dec S) n s,
  (forall s, PanicsOnly P (step s)) -> PanicsOnly P (dloop n step s).
Proof.
  intros S P step n s H bs p E. rewrite dloop_run in E.
  eapply panics_loop_nat; eauto.
Qed.

Lemma panics_weaken : forall A (P Q : panic -> Prop) (d : dec A),
  (forall p, P p -> Q p) -> PanicsOnly P d -> PanicsOnly Q d.
Proof. unfold PanicsOnly; eauto. Qed.

Lemma never_panics_iff : forall A (d : dec A), NeverPanics d <-> PanicsOnly (fun _ => False) d.
Proof. unfold NeverPanics, PanicsOnly; split; intros H bs p E; eapply H; eauto. Qed.

(** ** Propagation of writer errors *)

Lemma propagates_write_all : forall b, propagates (write_all b).
Proof. intros b; repeat constructor; eauto. Qed.

Lemma propagates_nil : propagates [].
Proof. constructor. Qed.

Lemma propagates_concat_map : forall A (enc : A -> wprog) l,
  Propagates enc -> propagates (concat (map enc l)).
Proof.
  intros A enc l H; induction l as [|a l IH]; cbn; [constructor|].
  now apply propagates_app.
Qed.

Lemma wbytes_write_all : forall b, wbytes (write_all b) = b.
Proof. intros; cbn; apply app_nil_r. Qed.

Lemma wbytes_concat_map : forall A (enc : A -> wprog) l,
  Propagates enc -> wbytes (concat (map enc l)) = concat (map (fun a => wbytes (enc a)) l).
Proof.
  intros A enc l H; induction l as [|a l IH]; cbn; [reflexivity|].
  rewrite wbytes_app_p by apply H. now rewrite IH.
Qed.

Create HintDb codec.
#[global] Hint Resolve propagates_write_all propagates_nil propagates_app : codec.
#[global] Hint Resolve panics_ret panics_err panics_map_err panics_dret_opt : codec.
