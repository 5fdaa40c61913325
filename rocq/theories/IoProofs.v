(** Meta-theorems about all decoders and all encoders. *)

From Verif Require Import Base Io.
Local Open Scope nat_scope.

(** ** splitn *)

Lemma splitn_app : forall n x r, length x = n -> splitn n (x ++ r) = Some (x, r).
Proof.
  induction n as [|n IH]; intros [|b x] r H; cbn in *; try discriminate; auto.
  rewrite IH; auto.
Qed.

Lemma splitn_some : forall n bs x r,
  splitn n bs = Some (x, r) -> bs = x ++ r /\ length x = n.
Proof.
  induction n as [|n IH]; cbn; intros bs x r H.
  - inversion H; subst; auto.
  - destruct bs as [|b bs]; [discriminate|].
    destruct (splitn n bs) as [[x' r']|] eqn:E; [|discriminate].
    inversion H; subst. apply IH in E as [-> <-]. auto.
Qed.

Lemma splitn_none : forall n bs, splitn n bs = None <-> length bs < n.
Proof.
  induction n as [|n IH]; cbn; intros bs.
  - split; [discriminate|lia].
  - destruct bs as [|b bs]; cbn.
    + split; auto; lia.
    + specialize (IH bs). destruct (splitn n bs) as [[x r]|].
      * split; [discriminate|]. intros. destruct IH as [_ IH].
        discriminate IH; lia.
      * split; auto. intros _. destruct IH as [IH _]. specialize (IH eq_refl). lia.
Qed.

(** ** run *)

Lemma run_bind : forall A B (m : dec A) (f : A -> dec B) bs,
  run (dbind m f) bs =
  match run m bs with
  | ROk a rest => run (f a) rest
  | RErr e => RErr e
  | RPanic p => RPanic p
  end.
Proof.
  induction m as [a|e|p|n e k IH|z k IH]; intros f bs; cbn; auto.
  destruct (splitn n bs) as [[x r]|]; auto.
Qed.

Lemma run_alloc : forall A z (k : dec A) bs, run (DAlloc z k) bs = run k bs.
Proof. reflexivity. Qed.

Lemma run_read_app : forall A n e (k : bytes -> dec A) x r,
  length x = n -> run (DRead n e k) (x ++ r) = run (k x) r.
Proof. intros; cbn; now rewrite splitn_app. Qed.

Lemma run_map_err_ok : forall A e' (m : dec A) bs a r,
  run m bs = ROk a r -> run (dmap_err e' m) bs = ROk a r.
Proof.
  induction m as [a0|e|p|n e k IH|z k IH]; intros bs a r; cbn; try discriminate; auto.
  destruct (splitn n bs) as [[x y]|]; [apply IH|discriminate].
Qed.

Lemma run_map_err_err : forall A e' (m : dec A) bs,
  (exists e, run m bs = RErr e) <-> run (dmap_err e' m) bs = RErr e'.
Proof.
  induction m as [a0|e|p|n e k IH|z k IH]; intros bs; cbn.
  - split; [intros [? ?]|]; discriminate.
  - split; eauto.
  - split; [intros [? ?]|]; discriminate.
  - destruct (splitn n bs) as [[x y]|]; [apply IH|]. split; eauto.
  - apply IH.
Qed.

Lemma run_map_err_inv : forall A e' (m : dec A) bs a r,
  run (dmap_err e' m) bs = ROk a r -> run m bs = ROk a r.
Proof.
  induction m as [a0|e|p|n e k IH|z k IH]; intros bs a r; cbn; try discriminate; auto.
  destruct (splitn n bs) as [[x y]|]; [apply IH|discriminate].
Qed.

Lemma run_map_err_panic : forall A e' (m : dec A) bs p,
  run (dmap_err e' m) bs = RPanic p <-> run m bs = RPanic p.
Proof.
  induction m as [a0|e|p|n e k IH|z k IH]; intros bs q; cbn; try (split; discriminate).
  - split; auto.
  - destruct (splitn n bs) as [[x y]|]; [apply IH|]. split; discriminate.
  - apply IH.
Qed.

(** A successful decode consumed a prefix, and does not look at what follows it. *)
Lemma run_consumes : forall A (d : dec A) bs a rest,
  run d bs = ROk a rest ->
  exists used, bs = used ++ rest /\ forall r, run d (used ++ r) = ROk a r.
Proof.
  induction d as [a0|e|p|n e k IH|z k IH]; cbn; intros bs a rest H; try discriminate.
  - inversion H; subst. exists []. auto.
  - destruct (splitn n bs) as [[x y]|] eqn:E; [|discriminate].
    apply splitn_some in E as [-> Hl]. apply IH in H as [u [-> Hu]].
    exists (x ++ u). split; [now rewrite app_assoc|].
    intros r. rewrite <- app_assoc, splitn_app; auto.
  - exact (IH bs a rest H).
Qed.

(** Rejection of truncated input, for every decoder. *)
Lemma run_truncated : forall A (d : dec A) used a,
  run d used = ROk a [] ->
  forall p q, used = p ++ q -> q <> [] -> exists e, run d p = RErr e.
Proof.
  induction d as [a0|e|pc|n e k IH|z k IH]; cbn; intros used a H p q Hu Hq; try discriminate.
  - inversion H; subst. destruct p, q; cbn in *; try discriminate. now destruct Hq.
  - destruct (splitn n used) as [[x y]|] eqn:E; [|discriminate].
    apply splitn_some in E as [E Hl].
    destruct (splitn n p) as [[x' y']|] eqn:E'; [|eauto].
    apply splitn_some in E' as [E' Hl'].
    assert (Hx : x' = x /\ y = y' ++ q).
    { subst p. rewrite Hu, <- app_assoc in E.
      assert (Hlen : length x' = length x) by congruence.
      split.
      - apply (f_equal (firstn (length x))) in E.
        rewrite <- Hlen in E at 1. rewrite !firstn_app, !Nat.sub_diag, !firstn_all in E.
        cbn in E. now rewrite !app_nil_r in E.
      - apply (f_equal (skipn (length x))) in E.
        rewrite <- Hlen in E at 1. rewrite !skipn_app, !Nat.sub_diag, !skipn_all in E.
        cbn in E. auto. }
    destruct Hx as [-> ->]. eapply IH; eauto.
  - eapply IH; eauto.
Qed.

(** ** Loops *)

Fixpoint dloop_nat {S} (n : nat) (step : S -> dec S) (s : S) : dec S :=
  match n with
  | O => DRet s
  | Datatypes.S n' => dbind (step s) (dloop_nat n' step)
  end.

Lemma dloop_nat_add : forall S (step : S -> dec S) n m s bs,
  run (dloop_nat (n + m) step s) bs =
  run (dbind (dloop_nat n step s) (dloop_nat m step)) bs.
Proof.
  induction n as [|n IH]; intros m s bs; [reflexivity|].
  cbn [dloop_nat plus]. rewrite !run_bind.
  destruct (run (step s) bs) as [a r|e|p] eqn:E; auto.
  rewrite IH, run_bind. auto.
Qed.

Lemma dloop_pos_nat : forall S (step : S -> dec S) p s bs,
  run (dloop_pos p step s) bs = run (dloop_nat (Pos.to_nat p) step s) bs.
Proof.
  intros S step; induction p as [p IH|p IH|]; intros s bs.
  - cbn [dloop_pos]. rewrite Pos2Nat.inj_xI.
    replace (2 * Pos.to_nat p) with (Pos.to_nat p + Pos.to_nat p) by lia.
    cbn [dloop_nat]. rewrite !run_bind.
    destruct (run (step s) bs) as [a r|e|q] eqn:E; auto.
    rewrite dloop_nat_add, run_bind, IH.
    destruct (run (dloop_nat (Pos.to_nat p) step a) r); auto.
  - cbn [dloop_pos]. rewrite Pos2Nat.inj_xO.
    replace (2 * Pos.to_nat p) with (Pos.to_nat p + Pos.to_nat p) by lia.
    rewrite dloop_nat_add, !run_bind, IH.
    destruct (run (dloop_nat (Pos.to_nat p) step s) bs); auto.
  - cbn [dloop_pos]. change (Pos.to_nat 1) with 1. cbn [dloop_nat].
    rewrite run_bind. destruct (run (step s) bs); auto.
Qed.

Lemma dloop_run : forall S (step : S -> dec S) n s bs,
  run (dloop n step s) bs = run (dloop_nat (N.to_nat n) step s) bs.
Proof.
  intros S step [|p] s bs; [reflexivity|]. apply dloop_pos_nat.
Qed.

(** ** Adversarial readers *)

Lemma read_exact_splitn : forall r n,
  reliable r ->
  match read_exact n r, splitn n (rbytes r) with
  | Some (x, r'), Some (y, rest) => x = y /\ rbytes r' = rest /\ reliable r'
  | None, None => True
  | _, _ => False
  end.
Proof.
  induction r as [|ev r IH]; intros n Hr.
  - destruct n; cbn; auto.
  - destruct n as [|n].
    + cbn [read_exact splitn]. auto.
    + assert (Hr' : reliable r) by (intros H; apply Hr; now right).
      destruct ev as [b bs| |].
      * cbn [read_exact rbytes].
        change (b :: bs ++ rbytes r) with ((b :: bs) ++ rbytes r).
        set (chunk := b :: bs) in *.
        destruct (Nat.leb_spec (length chunk) (S n)) as [Hle|Hgt].
        -- specialize (IH (S n - length chunk) Hr').
           destruct (read_exact (S n - length chunk) r) as [[x r']|] eqn:E1;
           destruct (splitn (S n - length chunk) (rbytes r)) as [[y rest]|] eqn:E2; try contradiction.
           ++ destruct IH as (-> & Hrest & Hrel).
              apply splitn_some in E2 as [E2 Hlen].
              rewrite E2, app_assoc, splitn_app; auto.
              rewrite app_length. lia.
           ++ apply splitn_none in E2.
              destruct (splitn (S n) (chunk ++ rbytes r)) eqn:E3; auto.
              assert (E4 : splitn (S n) (chunk ++ rbytes r) = None)
                by (apply splitn_none; rewrite app_length; lia).
              congruence.
        -- assert (Hs : splitn (S n) (chunk ++ rbytes r) =
                        Some (firstn (S n) chunk, skipn (S n) chunk ++ rbytes r)).
           { rewrite <- (firstn_skipn (S n) chunk) at 1. rewrite <- app_assoc.
             apply splitn_app. rewrite firstn_length. lia. }
           rewrite Hs.
           destruct (skipn (S n) chunk) as [|b' bs'] eqn:E.
           ++ repeat split; auto.
           ++ repeat split; auto.
              intros [H|H]; [discriminate|now apply Hr'].
      * cbn [read_exact rbytes]. now apply IH.
      * exfalso; apply Hr; now left.
Qed.

(** Decoding does not depend on how a reliable reader chunks the data. *)
Lemma run_reader_reliable : forall A (d : dec A) r,
  reliable r -> observe_reader (run_reader d r) = observe_flat (run d (rbytes r)).
Proof.
  induction d as [a0|e|p|n e k IH|z k IH]; intros r Hr; cbn [run_reader run]; auto.
  pose proof (read_exact_splitn r n Hr) as H.
  destruct (read_exact n r) as [[x r']|]; destruct (splitn n (rbytes r)) as [[y rest]|];
    try contradiction; auto.
  destruct H as (-> & <- & Hr'). now apply IH.
Qed.

Lemma before_fail_reliable : forall r, reliable (before_fail r).
Proof.
  induction r as [|[b bs| |] r IH]; cbn; intros H.
  - contradiction.
  - destruct H as [H|H]; [discriminate|now apply IH].
  - destruct H as [H|H]; [discriminate|now apply IH].
  - contradiction.
Qed.

Lemma read_exact_before_fail : forall r n,
  match read_exact n r, read_exact n (before_fail r) with
  | Some (x, r'), Some (y, r'') => x = y /\ r'' = before_fail r'
  | None, None => True
  | _, _ => False
  end.
Proof.
  induction r as [|ev r IH]; intros n.
  - destruct n; cbn; auto.
  - destruct n as [|n]; [destruct ev; cbn; auto|].
    destruct ev as [b bs| |]; cbn [before_fail read_exact]; auto.
    + set (chunk := b :: bs).
      destruct (Nat.leb (length chunk) (S n)).
      * specialize (IH (S n - length chunk)).
        destruct (read_exact (S n - length chunk) r) as [[x r']|];
        destruct (read_exact (S n - length chunk) (before_fail r)) as [[y r'']|]; try contradiction; auto.
        destruct IH as [-> ->]; auto.
      * destruct (skipn (S n) chunk); auto.
    + apply IH.
Qed.

(** A failing reader behaves like one that ends where the failure happens. *)
Lemma run_reader_failing : forall A (d : dec A) r,
  match run_reader d r, run_reader d (before_fail r) with
  | CkOk a r1, CkOk b r2 => a = b /\ r2 = before_fail r1
  | CkErr e, CkErr e' => e = e'
  | CkPanic p, CkPanic q => p = q
  | _, _ => False
  end.
Proof.
  induction d as [a0|e|p|n e k IH|z k IH]; intros r; cbn; auto; [|apply IH].
  pose proof (read_exact_before_fail r n) as H.
  destruct (read_exact n r) as [[x r']|];
  destruct (read_exact n (before_fail r)) as [[y r'']|]; try contradiction; auto.
  destruct H as [-> ->]. apply IH.
Qed.

(** ** Writers *)

Lemma wbytes_app : forall p q, no_wpanic p -> wbytes (p ++ q) = wbytes p ++ wbytes q.
Proof.
  induction p as [|o p IH]; intros q H; cbn; auto.
  inversion H; subst. destruct o as [b|b|x]; cbn.
  - rewrite IH, app_assoc; auto.
  - rewrite IH, app_assoc; auto.
  - exfalso; eapply H2; eauto.
Qed.

Lemma propagates_no_wpanic : forall p, propagates p -> no_wpanic p.
Proof.
  intros p; apply Forall_impl. intros o [b ->] q; discriminate.
Qed.

Lemma propagates_app : forall p q, propagates p -> propagates q -> propagates (p ++ q).
Proof. intros; apply Forall_app; auto. Qed.

Lemma propagates_concat : forall l, Forall propagates l -> propagates (concat l).
Proof.
  induction 1; cbn; [constructor|]. now apply propagates_app.
Qed.

Lemma wbytes_app_p : forall p q, propagates p -> wbytes (p ++ q) = wbytes p ++ wbytes q.
Proof. intros; apply wbytes_app; now apply propagates_no_wpanic. Qed.

Lemma write_all_to_reliable : forall w b,
  wreliable w -> exists w', write_all_to w b = (b, true, w') /\ wreliable w'.
Proof.
  induction w as [|ev w IH]; intros b Hw.
  - destruct b; cbn; eauto.
  - assert (Hw' : wreliable w).
    { destruct Hw as [H1 H2]; split; intros H; [apply H1|apply H2]; now right. }
    destruct b as [|x b]; [cbn; eauto|].
    destruct ev as [n| | |].
    + cbn [write_all_to].
      destruct (IH (skipn (S n) (x :: b)) Hw') as [w' [-> Hw'']].
      exists w'. rewrite firstn_skipn. auto.
    + cbn [write_all_to]. auto.
    + destruct Hw as [H _]; exfalso; apply H; now left.
    + destruct Hw as [_ H]; exfalso; apply H; now left.
Qed.

Lemma write_all_to_prefix : forall w b x ok w',
  write_all_to w b = (x, ok, w') ->
  exists tl, b = x ++ tl /\ (ok = true -> tl = []) /\ (ok = false -> tl <> []).
Proof.
  induction w as [|ev w IH]; intros b x ok w' H.
  - destruct b; cbn in H; inversion H; subst; eexists; rewrite ?app_nil_r;
      (split; [reflexivity|split; congruence]).
  - destruct b as [|y b].
    { cbn in H; inversion H; subst. exists []. cbn. split; auto. split; congruence. }
    destruct ev as [n| | |]; cbn [write_all_to] in H.
    + destruct (write_all_to w (skipn (S n) (y :: b))) as [[x0 ok0] w0] eqn:E.
      injection H as <- <- <-. apply IH in E as [tl [E [H1 H2]]].
      exists tl. split; auto.
      transitivity (firstn (S n) (y :: b) ++ skipn (S n) (y :: b));
        [now rewrite firstn_skipn|].
      rewrite E, app_assoc. reflexivity.
    + now apply IH in H.
    + inversion H; subst. exists (y :: b). split; [reflexivity|]. split; congruence.
    + inversion H; subst. exists (y :: b). split; [reflexivity|]. split; congruence.
Qed.

(** A reliable writer receives exactly the encoding, whatever its short writes. *)
Lemma run_writer_reliable : forall p w,
  no_wpanic p -> wreliable w -> run_writer p w = (wbytes p, WSOk).
Proof.
  induction p as [|o p IH]; intros w Hp Hw; cbn; auto.
  inversion Hp; subst.
  destruct o as [b|b|x].
  - destruct (write_all_to_reliable w b Hw) as [w' [-> Hw']]. now rewrite IH.
  - destruct (write_all_to_reliable w b Hw) as [w' [-> Hw']]. now rewrite IH.
  - exfalso; eapply H1; eauto.
Qed.

(** A failing writer receives a prefix; success means everything was written. *)
Lemma run_writer_prefix : forall p w x st,
  no_wpanic p -> run_writer p w = (x, st) ->
  exists tl, wbytes p = x ++ tl /\ (st = WSOk <-> tl = []).
Proof.
  induction p as [|o p IH]; intros w x st Hp H; cbn in H.
  - inversion H; subst. exists []. cbn. split; [reflexivity|]. split; auto.
  - inversion Hp as [|? ? Ho Hp']; subst.
    assert (Hb : forall b e, (e <> WSOk) ->
      (let '(x0, ok, w') := write_all_to w b in
       if ok then let '(y, st0) := run_writer p w' in (x0 ++ y, st0) else (x0, e)) = (x, st) ->
      exists tl, b ++ wbytes p = x ++ tl /\ (st = WSOk <-> tl = [])).
    { intros b e He Hrun.
      destruct (write_all_to w b) as [[x0 ok] w'] eqn:E.
      apply write_all_to_prefix in E as [tl [Hb [Ht Hf]]].
      destruct ok.
      - rewrite (Ht eq_refl), app_nil_r in Hb; subst x0.
        destruct (run_writer p w') as [y st0] eqn:E2. inversion Hrun; subst.
        destruct (IH _ _ _ Hp' E2) as [tl' [Hw Hst]].
        exists tl'. rewrite Hw, app_assoc. auto.
      - inversion Hrun; subst. exists (tl ++ wbytes p). rewrite app_assoc. split; auto.
        split; [congruence|]. intros Happ. apply app_eq_nil in Happ as [Happ _].
        exfalso; now apply Hf. }
    destruct o as [b|b|q]; cbn in H.
    + eapply Hb; [|exact H]; discriminate.
    + eapply Hb; [|exact H]; discriminate.
    + exfalso; eapply Ho; eauto.
Qed.

Lemma run_writer_no_panic : forall p w x st,
  propagates p -> run_writer p w = (x, st) -> st = WSOk \/ st = WSErr.
Proof.
  induction p as [|o p IH]; intros w x st Hp H; cbn in H.
  - inversion H; auto.
  - inversion Hp as [|? ? [b ->] Hp']; subst. cbn in H.
    destruct (write_all_to w b) as [[x0 ok] w'] eqn:E. destruct ok.
    + destruct (run_writer p w') as [y st0] eqn:E2. inversion H; subst. eauto.
    + inversion H; auto.
Qed.
