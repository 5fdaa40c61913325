(** Tactics that prove the codec laws of a struct from those of its fields. *)

From Verif Require Import Base Io IoProofs Spec Codec Model_encoding EncodingProofs.
Local Open Scope N_scope.

Create HintDb rt.
Create HintDb canon.
Create HintDb pan.
Create HintDb prop.

Lemma run_bind_rt : forall A B (e : A -> wprog) d (f : A -> dec B) a rest,
  RoundTrip e d -> run (dbind d f) (wbytes (e a) ++ rest) = run (f a) rest.
Proof. intros A B e d f a rest H. rewrite run_bind, H. reflexivity. Qed.

Lemma run_bind_rt_on : forall A B (P : A -> Prop) (e : A -> wprog) d (f : A -> dec B) a rest,
  RoundTripOn P e d -> P a -> run (dbind d f) (wbytes (e a) ++ rest) = run (f a) rest.
Proof. intros A B P e d f a rest H Ha. rewrite run_bind, H by assumption. reflexivity. Qed.

Lemma use_canon : forall A (e : A -> wprog) d bs a rest,
  Canonical e d -> run d bs = ROk a rest -> bs = wbytes (e a) ++ rest.
Proof. intros A e d bs a rest H E. now apply H. Qed.

Lemma prop_at : forall A (e : A -> wprog) a, Propagates e -> propagates (e a).
Proof. intros A e a H; apply H. Qed.

(** Goals [propagates (e1 a1 ++ e2 a2 ++ ...)]. *)
Ltac prop_tac :=
  repeat match goal with |- propagates (_ ++ _) => apply propagates_app end;
  match goal with
  | |- propagates [] => apply propagates_nil
  | |- propagates (write_all _) => apply propagates_write_all
  | |- propagates (?e ?a) => apply (prop_at _ e a); solve [eauto 20 with prop]
  end.

(** Encoder is a concatenation: split [wbytes] over it. *)
Ltac split_wbytes :=
  repeat rewrite wbytes_app_p by prop_tac; repeat rewrite <- app_assoc.

Ltac rt_step :=
  first [ etransitivity; [apply run_bind_rt; solve [eauto 20 with rt prop]|]
        | etransitivity; [eapply run_bind_rt_on; [solve [eauto 20 with rt prop]|tauto]|] ].

(** [rt_struct enc dec]: the round trip of a derived codec. *)
Ltac rt_struct enc dec :=
  let a := fresh "a" in let rest := fresh "rest" in
  intros a rest; intros; unfold enc, dec; split_wbytes; repeat (rt_step; cbv beta);
  destruct a; reflexivity.

Ltac canon_step H :=
  let x := fresh "x" in let r := fresh "r" in let E := fresh "E" in
  apply run_bind_ok in H as (x & r & E & H);
  eapply use_canon in E; [|solve [eauto 20 with canon prop]]; subst.

Ltac canon_struct enc dec :=
  let bs := fresh "bs" in let a := fresh "a" in let rest := fresh "rest" in
  let H := fresh "H" in
  intros bs a rest H; unfold dec in H; repeat canon_step H;
  apply run_ret_ok in H as [<- <-]; unfold enc; split_wbytes; reflexivity.

Ltac pan_struct dec :=
  intros; unfold dec;
  repeat (apply panics_bind; [solve [eauto 20 with pan] | intros]); apply panics_ret.

Ltac prop_struct enc := let a := fresh "a" in intros a; unfold enc; prop_tac.

#[global] Hint Resolve prop_u8 prop_bool prop_uint prop_sint prop_odt prop_duration prop_vec
  prop_slice prop_option prop_string prop_arr : prop.
#[global] Hint Resolve rt_u8 rt_bool rt_u64 rt_i64 rt_vec rt_option rt_string rt_arr rt_odt
  rt_duration : rt.
#[global] Hint Resolve canon_u8 canon_bool canon_u64 canon_i64 canon_odt canon_duration canon_vec
  canon_option canon_string canon_arr : canon.
#[global] Hint Resolve pan_u8 pan_bool pan_uint pan_sint pan_odt pan_duration pan_option
  pan_string pan_arr : pan.
#[global] Hint Extern 5 (PanicsOnly _ (decode_vec _ _)) =>
  apply pan_vec; [discriminate| |] : pan.
