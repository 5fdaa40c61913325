(** Proofs: the indented text is the compact one laid out. *)

From Verif Require Import Base SpecText Model_currency CurrencyProofs Model_text Model_json Model_jsontypes JsonProofs Model_jsontext SpecIndent.
Local Open Scope N_scope.

Lemma fresh_new_line : forall n, fresh_line n = new_line n.
Proof.
  intros n. unfold fresh_line, new_line. f_equal. induction n as [|n IH]; [reflexivity|].
  cbn [spaces repeat concat]. rewrite IH. reflexivity.
Qed.

(** Bytes the layout leaves alone *)
Definition leaves (b : byte) : bool :=
  negb (Byte.eqb b """" || opens b || closes b || Byte.eqb b "," || Byte.eqb b ":").

Lemma through_plain : forall t n r, Forall (fun b => leaves b = true) t ->
  laid_out n Outside (t ++ r) = t ++ laid_out n Outside r.
Proof.
  intros t n r H. induction H as [|b t Hb H IH]; [reflexivity|]. cbn [app laid_out].
  unfold leaves in Hb. apply negb_true_iff in Hb.
  destruct (Byte.eqb b """"); [discriminate|]. destruct (opens b); [discriminate|].
  destruct (closes b); [discriminate|]. destruct (Byte.eqb b ","); [discriminate|].
  destruct (Byte.eqb b ":"); [discriminate|]. now rewrite IH.
Qed.

Lemma through_word : forall t n r, forallb leaves t = true -> laid_out n Outside (t ++ r) = t ++ laid_out n Outside r.
Proof. intros t n r H. apply through_plain. apply Forall_forall. now apply forallb_forall. Qed.

Definition quiet (b : byte) : bool := negb (Byte.eqb b """") && negb (Byte.eqb b "\").

(** Each byte of a string is written such that the layout is back inside the string after it. *)
Definition inside_ok (t : bytes) : Prop := forall n r, laid_out n Inside (t ++ r) = t ++ laid_out n Inside r.

Lemma inside_escape : forall b t, forallb quiet t = true -> inside_ok ("\"%byte :: b :: t).
Proof.
  intros b t H n r. cbn [app laid_out]. change (Byte.eqb "\" """") with false. change (Byte.eqb "\" "\") with true.
  cbn [negb]. do 2 f_equal. induction t as [|c t IH]; [reflexivity|]. cbn [forallb] in H.
  apply andb_true_iff in H as [Hc H]. unfold quiet in Hc. apply andb_true_iff in Hc as [Q E].
  apply negb_true_iff in Q, E. cbn [app laid_out]. rewrite Q, E. now rewrite IH.
Qed.

Lemma inside_quiet : forall b, quiet b = true -> inside_ok [b].
Proof.
  intros b H n r. unfold quiet in H. apply andb_true_iff in H as [Q E]. apply negb_true_iff in Q, E.
  cbn [app laid_out]. now rewrite Q, E.
Qed.

Lemma inside_byte : forall b, inside_ok (escape_byte b).
Proof.
  intros b.
  assert (K : (match escape_byte b with
    | [c] => quiet c
    | c :: d :: t => Byte.eqb c "\" && forallb quiet t
    | [] => false end) = true) by (destruct b; vm_compute; reflexivity).
  destruct (escape_byte b) as [|c [|d t]]; [discriminate|now apply inside_quiet|].
  apply andb_true_iff in K as [C T]. apply Byte.byte_dec_bl in C. subst. now apply inside_escape.
Qed.

Lemma through_string : forall s n r, laid_out n Outside (print_string s ++ r) = print_string s ++ laid_out n Outside r.
Proof.
  intros s n r. unfold print_string. cbn [app laid_out]. change (Byte.eqb """" """") with true. cbn iota. f_equal.
  rewrite <- !app_assoc. induction s as [|b s IH].
  - cbn [flat_map app laid_out]. now change (Byte.eqb """" """") with true.
  - cbn [flat_map]. rewrite <- !app_assoc. rewrite (inside_byte b). now rewrite IH.
Qed.

Lemma digits_left : forall n, Forall (fun b => leaves b = true) (dec_text n).
Proof.
  intros n. destruct (dec_text_spec n) as ((_ & D) & _). eapply Forall_impl; [|exact D].
  intros b. unfold digit. destruct b; cbn; intros H; try reflexivity; exfalso; lia.
Qed.

Lemma through_scalar : forall j n r, match j with JArr _ | JObj _ => False | _ => True end ->
  laid_out n Outside (print_scalar j ++ r) = print_scalar j ++ laid_out n Outside r.
Proof.
  intros [|[]|k|z| |s|l|l] n r H; [| | | | | | |destruct H|destruct H];
    [now apply through_word|now apply through_word|now apply through_word| | |now apply through_word|apply through_string].
  - apply through_plain, digits_left.
  - apply (through_plain ("-"%byte :: dec_text (Z.to_N (- sval z)))). constructor; [reflexivity|apply digits_left].
Qed.

(** A value does not start with a closing bracket. *)
Lemma digit_starts : forall n, exists b t, dec_text n = b :: t /\ closes b = false.
Proof.
  intros n. destruct (dec_text_spec n) as ((N & D) & _). destruct (dec_text n) as [|b t]; [congruence|].
  exists b, t. split; [reflexivity|]. inversion D as [|? ? Hb _]; subst. revert Hb. unfold digit.
  destruct b; cbn; intros H; try reflexivity; exfalso; lia.
Qed.

Lemma print_starts : forall j, exists b t, print j = b :: t /\ closes b = false.
Proof.
  intros [|[]|k|z| |s|l|l]; cbn [print print_scalar]; try (eexists _, _; split; [reflexivity|reflexivity]).
  apply digit_starts.
Qed.

Lemma join_cons : forall x y l, join_with (ascii ",") (x :: y :: l) = x ++ ascii "," ++ join_with (ascii ",") (y :: l).
Proof. reflexivity. Qed.

(** Elements on lines of their own *)
Lemma through_list : forall A (f g : A -> bytes) m r l, l <> [] ->
  Forall (fun x => forall r, laid_out m Outside (f x ++ r) = g x ++ laid_out m Outside r) l ->
  fresh_line m ++ laid_out m Outside (join_with (ascii ",") (map f l) ++ r) =
  join_with (ascii ",") (map (fun x => new_line m ++ g x) l) ++ laid_out m Outside r.
Proof.
  intros A f g m r l N H. induction H as [|x l Hx H IH]; [congruence|]. destruct l as [|y l].
  - cbn [map join_with]. rewrite Hx, fresh_new_line. now rewrite <- app_assoc.
  - cbn [map]. rewrite !join_cons. rewrite <- !app_assoc. rewrite Hx, fresh_new_line. do 2 f_equal.
    specialize (IH ltac:(discriminate)). cbn [map] in IH. exact (eq_trans eq_refl (f_equal (fun z => ascii "," ++ z) IH)).
Qed.

Lemma laid_close : forall b n r, closes b = true ->
  laid_out (S n) Outside (b :: r) = new_line n ++ b :: laid_out n Outside r.
Proof.
  intros b n r H. cbn [laid_out].
  assert (E : Byte.eqb b """" = false) by (destruct b; vm_compute in H |- *; congruence).
  assert (O : opens b = false) by (destruct b; vm_compute in H |- *; congruence).
  now rewrite E, O, H, <- fresh_new_line.
Qed.

Lemma laid_open : forall b c n r, opens b = true -> closes c = false ->
  laid_out n Outside (b :: c :: r) = b :: fresh_line (S n) ++ laid_out (S n) Outside (c :: r).
Proof.
  intros b c n r H C.
  assert (E : Byte.eqb b """" = false) by (destruct b; vm_compute in H |- *; congruence).
  transitivity (if Byte.eqb b """" then b :: laid_out n Inside (c :: r) else if opens b then
    (if closes c then b :: c :: laid_out n Outside r else b :: fresh_line (S n) ++ laid_out (S n) Outside (c :: r))
    else laid_out n Outside (b :: c :: r)).
  - change (laid_out n Outside (b :: c :: r)) with
      (if Byte.eqb b """" then b :: laid_out n Inside (c :: r) else if opens b then
    (if closes c then b :: c :: laid_out n Outside r else b :: fresh_line (S n) ++ laid_out (S n) Outside (c :: r))
       else if closes b then fresh_line (pred n) ++ b :: laid_out (pred n) Outside (c :: r)
       else if Byte.eqb b "," then b :: fresh_line n ++ laid_out n Outside (c :: r)
       else if Byte.eqb b ":" then b :: " "%byte :: laid_out n Outside (c :: r)
       else b :: laid_out n Outside (c :: r)) at 1.
    rewrite E, H, C. reflexivity.
  - now rewrite E, H, C.
Qed.

Lemma join_starts : forall A (f : A -> bytes) x l, (exists b t, f x = b :: t /\ closes b = false) ->
  exists b t, join_with (ascii ",") (map f (x :: l)) = b :: t /\ closes b = false.
Proof.
  intros A f x l (b & t & E & C). destruct l as [|y l].
  - exists b, t. cbn [map join_with]. now rewrite E.
  - exists b, (t ++ ascii "," ++ join_with (ascii ",") (map f (y :: l))). cbn [map]. rewrite join_cons, E.
    split; [reflexivity|exact C].
Qed.

(** Brackets around elements *)
Lemma through_brackets : forall A (f g : A -> bytes) o c n r l, opens o = true -> closes c = true -> l <> [] ->
  Forall (fun x => exists b t, f x = b :: t /\ closes b = false) l ->
  Forall (fun x => forall r, laid_out (S n) Outside (f x ++ r) = g x ++ laid_out (S n) Outside r) l ->
  laid_out n Outside ((o :: join_with (ascii ",") (map f l) ++ [c]) ++ r) =
  (o :: join_with (ascii ",") (map (fun x => new_line (S n) ++ g x) l) ++ new_line n ++ [c]) ++ laid_out n Outside r.
Proof.
  intros A f g o c n r l O C N S H.
  assert (K : exists b t, join_with (ascii ",") (map f l) = b :: t /\ closes b = false).
  { destruct l as [|x l]; [congruence|]. inversion S; subst. now apply join_starts. }
  destruct K as (b & t & E & B).
  transitivity (o :: fresh_line (Datatypes.S n) ++ laid_out (Datatypes.S n) Outside (join_with (ascii ",") (map f l) ++ c :: r)).
  - cbn [app]. rewrite <- app_assoc. cbn [app]. rewrite E. cbn [app]. now apply laid_open.
  - rewrite (through_list A f g (Datatypes.S n) (c :: r) l N H). rewrite (laid_close c n r C).
    cbn [app]. f_equal. now rewrite <- !app_assoc.
Qed.

Lemma through_value : forall j n r, laid_out n Outside (print j ++ r) = print_pretty_at n j ++ laid_out n Outside r.
Proof.
  intros j. induction j as [|b0|n0|z0| |s0|l IH|l IH] using json_rect'; intros n r;
    try (match goal with |- laid_out _ _ (print ?j ++ _) = _ => exact (through_scalar j n r I) end).
  - destruct l as [|x l]; [reflexivity|].
    refine (through_brackets json print (print_pretty_at (S n)) "["%byte "]"%byte n r (x :: l) eq_refl eq_refl ltac:(discriminate) _ _).
    + apply Forall_forall. intros y _. apply print_starts.
    + eapply Forall_impl; [|exact IH]. intros y H r0. apply H.
  - destruct l as [|x l]; [reflexivity|].
    refine (through_brackets (bytes * json) (fun kv => print_string (fst kv) ++ ascii ":" ++ print (snd kv))
      (fun kv => print_string (fst kv) ++ ascii ": " ++ print_pretty_at (S n) (snd kv)) "{"%byte "}"%byte n r (x :: l)
      eq_refl eq_refl ltac:(discriminate) _ _).
    + apply Forall_forall. intros kv _. eexists _, _. split; [reflexivity|reflexivity].
    + eapply Forall_impl; [|exact IH]. intros kv H r0. cbn beta. rewrite <- !app_assoc. rewrite through_string. f_equal.
      change (ascii ":" ++ print (snd kv) ++ r0) with (":"%byte :: (print (snd kv) ++ r0)).
      change (laid_out (S n) Outside (":"%byte :: print (snd kv) ++ r0)) with
        (":"%byte :: " "%byte :: laid_out (S n) Outside (print (snd kv) ++ r0)).
      now rewrite H.
Qed.

Lemma indented_print : forall j, print_pretty j = indented (print j).
Proof.
  intros j. pose proof (through_value j 0%nat []) as H. rewrite !app_nil_r in H. now symmetry.
Qed.

Lemma pretty_indented : forall A (c : codec A) a t, to_string c a = JOk t ->
  to_string_pretty c a =
    (if N.of_nat (length (indented t)) <=? isize_max then JOk (indented t) else JPanic CapacityOverflow).
Proof.
  intros A c a t. unfold to_string, to_string_pretty. destruct (c_ser c a) as [j| |q]; cbn; try discriminate.
  unfold checked_text. intros H. destruct (N.of_nat (length (print j)) <=? isize_max); [|discriminate].
  injection H as <-. now rewrite indented_print.
Qed.

(** The indented text is not shorter. *)
Lemma indented_length : forall k t n p, (length t <= k)%nat -> (length t <= length (laid_out n p t))%nat.
Proof.
  induction k as [|k IH]; intros [|b r] n p H; cbn [length] in *; try lia.
  assert (R : forall m q, (length r <= length (laid_out m q r))%nat) by (intros; apply IH; lia).
  destruct p; cbn [laid_out]; [|cbn [length]; specialize (R n (if Byte.eqb b """" then Outside else if Byte.eqb b "\" then Escaped else Inside)); lia
    |cbn [length]; specialize (R n Inside); lia].
  destruct (Byte.eqb b """"); [cbn [length]; specialize (R n Inside); lia|].
  destruct (opens b).
  - destruct r as [|c r']; [reflexivity|]. destruct (closes c).
    + cbn [length]. assert (length r' <= length (laid_out n Outside r'))%nat by (apply IH; cbn [length] in H; lia). lia.
    + change (b :: fresh_line (S n) ++ laid_out (S n) Outside (c :: r')) with ((b :: fresh_line (S n)) ++ laid_out (S n) Outside (c :: r')).
      rewrite app_length. specialize (R (S n) Outside). cbn [length] in *. lia.
  - destruct (closes b); [rewrite app_length; cbn [length]; specialize (R (pred n) Outside); lia|].
    destruct (Byte.eqb b ","); [cbn [length]; rewrite app_length; specialize (R n Outside); lia|].
    destruct (Byte.eqb b ":"); cbn [length]; specialize (R n Outside); lia.
Qed.

Lemma pretty_only : forall A (c : codec A) a u, to_string_pretty c a = JOk u -> exists t, to_string c a = JOk t /\ u = indented t.
Proof.
  intros A c a u. unfold to_string, to_string_pretty. destruct (c_ser c a) as [j| |q]; cbn; try discriminate.
  unfold checked_text. rewrite indented_print. intros H.
  destruct (N.leb_spec (N.of_nat (length (indented (print j)))) isize_max) as [L|L]; [|discriminate].
  injection H as <-. exists (print j). split; [|reflexivity].
  pose proof (indented_length _ (print j) 0%nat Outside (le_n _)) as K. unfold indented in L.
  destruct (N.leb_spec (N.of_nat (length (print j))) isize_max) as [M|M]; [reflexivity|lia].
Qed.

Lemma pretty_same_outcome : forall A (c : codec A) a, (forall t, to_string c a <> JOk t) -> to_string_pretty c a = to_string c a.
Proof.
  intros A c a N. unfold to_string, to_string_pretty in *. destruct (c_ser c a) as [j| |q]; cbn in *; try reflexivity.
  unfold checked_text in *. rewrite indented_print.
  pose proof (indented_length _ (print j) 0%nat Outside (le_n _)) as K. unfold indented.
  destruct (N.leb_spec (N.of_nat (length (print j))) isize_max) as [M|M]; [now destruct (N (print j))|].
  destruct (N.leb_spec (N.of_nat (length (laid_out 0 Outside (print j)))) isize_max) as [L|L]; [lia|reflexivity].
Qed.

Lemma pretty_text : forall A (c : codec A) a,
  to_string_pretty c a = match to_string c a with
                         | JOk t => if N.of_nat (length (indented t)) <=? isize_max then JOk (indented t) else JPanic CapacityOverflow
                         | other => other
                         end.
Proof.
  intros A c a. destruct (to_string c a) as [t| |q] eqn:E.
  - now apply pretty_indented.
  - rewrite <- E. apply pretty_same_outcome. rewrite E. discriminate.
  - rewrite <- E. apply pretty_same_outcome. rewrite E. discriminate.
Qed.
