(** The Merkle accumulator. *)

From Verif Require Import Base Io Model_encoding Model_common Blake2b Model_consensus Model_merkle
  ConsensusProofs SpecMerkle Model_ids SpecTrace.
Local Open Scope N_scope.

Lemma sum_node_hash : forall a b, sum_node a b = node_hash a b.
Proof. reflexivity. Qed.

(** ** What the accumulator computes *)

(** The tree of [2^k] consecutive leaves, as the code builds it: the right-hand input of
    every node is the last leaf, not the root of the right half. Every hashed string is in
    [X]. *)
Inductive CodeTree (X : bytes -> Prop) : nat -> list hash256 -> hash256 -> Prop :=
| CT_leaf : forall h, CodeTree X 0 [h] h
| CT_node : forall k (l r : list hash256) (h a : hash256), CodeTree X k l a -> length (r ++ [h]) = (2 ^ k)%nat ->
    X (node_input a h) -> CodeTree X (S k) (l ++ r ++ [h]) (sum_node a h).

Lemma CodeTree_length : forall X k l a, CodeTree X k l a -> length l = (2 ^ k)%nat.
Proof.
  induction 1 as [|k l r h a HT IH HL HX]; [reflexivity|]. rewrite app_length, IH, HL. cbn [Nat.pow]. lia.
Qed.

(** The root: trees of decreasing size, combined from the right. *)
Inductive CodeRoot (X : bytes -> Prop) : list hash256 -> hash256 -> Prop :=
| CR_tree : forall k l a, CodeTree X k l a -> CodeRoot X l a
| CR_split : forall k (l r : list hash256) (a b : hash256), CodeTree X k l a -> CodeRoot X r b -> (length r < 2 ^ k)%nat ->
    X (node_input a b) -> CodeRoot X (l ++ r) (sum_node a b).

(** [f] holds the trees of heights [k .. k + m - 1] of [l], the lowest one last. *)
Fixpoint Desc (X : bytes -> Prop) (f : nat -> option hash256) (k m : nat) (l : list hash256) : Prop :=
  match m with
  | O => l = []
  | S m' =>
    match f k with
    | None => Desc X f (S k) m' l
    | Some t => exists l1 l2, l = l1 ++ l2 /\ CodeTree X k l2 t /\ Desc X f (S k) m' l1
    end
  end.

Lemma Desc_ext : forall X f g m k l, (forall i, (k <= i)%nat -> f i = g i) -> Desc X f k m l -> Desc X g k m l.
Proof.
  intros X f g. induction m as [|m IH]; intros k l H; cbn [Desc]; [auto|].
  rewrite <- (H k) by lia. destruct (f k) as [t|].
  - intros (l1 & l2 & -> & HT & HD). exists l1, l2. repeat split; auto. apply IH; [|assumption]. intros i Hi; apply H; lia.
  - apply IH. intros i Hi; apply H; lia.
Qed.

(** The forest an accumulator represents. *)
Definition forest (a : accumulator) (i : nat) : option hash256 :=
  if N.testbit (uval (acc_num_leaves a)) (N.of_nat i) then Some (nth i (acc_trees a) zero_hash) else None.

Definition upd (f : nat -> option hash256) (t : nat) (x : hash256) (i : nat) : option hash256 :=
  if Nat.ltb i t then None else if Nat.eqb i t then Some x else f i.

Definition ends_with (b : list hash256) (h : hash256) : Prop := exists r, b = r ++ [h].

Lemma carry_spec : forall (X : bytes -> Prop) p a h fuel k node l b,
  (exists z, (k <= z < k + fuel)%nat /\ forest a z = None) ->
  Desc X (forest a) k fuel l -> CodeTree X k b node -> ends_with b h ->
  (forall x, In x (carry_inputs fuel a h k) -> X x) ->
  exists t node', carry p fuel a h k node = Val (t, node') /\ (k <= t < k + fuel)%nat /\
    (forall i, (k <= i < t)%nat -> forest a i <> None) /\ forest a t = None /\
    Desc X (upd (forest a) t node') k fuel (l ++ b).
Proof.
  intros X p a h. induction fuel as [|fuel IH]; intros k node l b (z & Hz & Hf) HD HT HE HX; [lia|].
  cbn [carry Desc carry_inputs] in *. rewrite has_tree_testbit in *.
  destruct (forest a k) as [t|] eqn:Ef; unfold forest in Ef;
    destruct (N.testbit (uval (acc_num_leaves a)) (N.of_nat k)) eqn:Eb; try discriminate.
  - injection Ef as Ef. destruct HD as (l1 & l2 & -> & HT2 & HD).
    destruct HE as (r & ->).
    assert (HT' : CodeTree X (S k) (l2 ++ r ++ [h]) (sum_node t h)).
    { constructor; [assumption|now apply CodeTree_length in HT|]. apply HX. left. now rewrite Ef. }
    rewrite Ef.
    destruct (IH (S k) (sum_node t h) l1 (l2 ++ r ++ [h])) as (t' & node' & Hc & Ht' & Hi & Hn & HD'); auto.
    { exists z. split; [|assumption]. destruct (Nat.eq_dec z k) as [->|]; [|lia].
      unfold forest in Hf. rewrite Eb in Hf. discriminate. }
    { exists (l2 ++ r). now rewrite app_assoc. }
    { intros x Hx. apply HX. now right. }
    exists t', node'. split; [assumption|]. split; [lia|]. split.
    { intros i Hik. destruct (Nat.eq_dec i k) as [->|]; [|apply Hi; lia]. unfold forest. rewrite Eb. discriminate. }
    split; [assumption|].
    unfold upd at 1. destruct (Nat.ltb_spec k t'); [|lia]. now rewrite <- app_assoc.
  - exists k, node. split; [reflexivity|]. split; [lia|]. split; [intros; lia|].
    assert (Hk : forest a k = None) by (unfold forest; now rewrite Eb).
    split; [assumption|]. unfold upd at 1. rewrite Nat.ltb_irrefl, Nat.eqb_refl.
    exists l, b. split; [reflexivity|]. split; [assumption|].
    eapply Desc_ext; [|exact HD]. intros i Hi. unfold upd.
    destruct (Nat.ltb_spec i k); [lia|]. destruct (Nat.eqb_spec i k); [lia|reflexivity].
Qed.

Lemma succ_bits : forall t n, (forall i, i < t -> N.testbit n i = true) -> N.testbit n t = false ->
  forall i, N.testbit (n + 1) i = if i <? t then false else if i =? t then true else N.testbit n i.
Proof.
  intros t. induction t as [|t IH] using N.peano_ind; intros n H Ht i.
  - destruct (N.ltb_spec i 0); [lia|]. rewrite N.bit0_odd in Ht.
    assert (E : n = 2 * N.div2 n) by (pose proof (N.div2_odd n) as D; rewrite Ht in D; cbn [N.b2n] in D; lia).
    destruct (N.eqb_spec i 0) as [->|Hi].
    + rewrite N.bit0_odd, N.add_1_r, N.odd_succ, <- N.negb_odd, Ht. reflexivity.
    + replace i with (N.succ (N.pred i)) by lia. rewrite E at 1 2.
      rewrite N.testbit_odd_succ by lia. now rewrite N.testbit_even_succ by lia.
  - assert (H0 : N.testbit n 0 = true) by (apply H; lia). rewrite N.bit0_odd in H0.
    pose proof (N.div2_odd n) as E. rewrite H0 in E. cbn [N.b2n] in E. set (m := N.div2 n) in *.
    assert (Hb : forall j, N.testbit n (N.succ j) = N.testbit m j).
    { intros j. rewrite E. apply N.testbit_odd_succ. lia. }
    assert (E1 : n + 1 = 2 * (m + 1)) by lia.
    destruct (N.eq_dec i 0) as [->|Hi].
    + rewrite E1, N.testbit_even_0. destruct (N.ltb_spec 0 (N.succ t)); [reflexivity|lia].
    + replace i with (N.succ (N.pred i)) by lia. set (j := N.pred i).
      rewrite E1, N.testbit_even_succ by lia. rewrite IH.
      * rewrite Hb. replace (N.succ j <? N.succ t) with (j <? t) by (destruct (N.ltb_spec j t), (N.ltb_spec (N.succ j) (N.succ t)); lia).
        replace (N.succ j =? N.succ t) with (j =? t) by (destruct (N.eqb_spec j t), (N.eqb_spec (N.succ j) (N.succ t)); lia).
        reflexivity.
      * intros q Hq. rewrite <- Hb. apply H. lia.
      * rewrite <- Hb. assumption.
Qed.

Lemma set_nth_length : forall A (x : A) l i, length (set_nth i x l) = length l.
Proof. induction l as [|a l IH]; intros [|i]; cbn; auto. Qed.

Lemma nth_set_nth : forall A (d x : A) l i j, (i < length l)%nat ->
  nth j (set_nth i x l) d = if Nat.eqb j i then x else nth j l d.
Proof.
  induction l as [|a l IH]; intros i j H; [cbn in H; lia|].
  destruct i as [|i], j as [|j]; cbn [set_nth nth Nat.eqb]; auto. apply IH. cbn in H; lia.
Qed.

(** The accumulator holds the leaves [l]. *)
Definition Holds (X : bytes -> Prop) (a : accumulator) (l : list hash256) : Prop :=
  length (acc_trees a) = 64%nat /\ uval (acc_num_leaves a) = N.of_nat (length l) /\ Desc X (forest a) 0 64 l.

Lemma ones_all : forall n, n < 2 ^ 64 - 1 -> exists z, (z < 64)%nat /\ N.testbit n (N.of_nat z) = false.
Proof.
  intros n H.
  destruct (forallb (fun z => N.testbit n (N.of_nat z)) (seq 0 64)) eqn:E.
  - exfalso. rewrite forallb_forall in E.
    assert (n = N.ones 64).
    { apply N.bits_inj. intros i. destruct (N.lt_ge_cases i 64) as [Hi|Hi].
      - rewrite N.ones_spec_low by assumption. rewrite <- (N2Nat.id i). apply E. apply in_seq. lia.
      - rewrite N.ones_spec_high by assumption. destruct (N.eq_dec n 0) as [->|Hn]; [apply N.bits_0|].
        apply N.bits_above_log2. apply N.log2_lt_pow2; [lia|].
        eapply N.lt_le_trans; [|apply (N.pow_le_mono_r 2 64 i); lia]. lia. }
    subst n. vm_compute in H. discriminate.
  - assert (X : exists z, In z (seq 0 64) /\ N.testbit n (N.of_nat z) = false).
    { clear H. induction (seq 0 64) as [|x l IH]; [discriminate|]. cbn [forallb] in E.
      destruct (N.testbit n (N.of_nat x)) eqn:Ex.
      - destruct (IH E) as (z & Hz & Hzb). exists z. split; [now right|assumption].
      - exists x. split; [now left|assumption]. }
    destruct X as (z & Hz & Hb). exists z. apply in_seq in Hz. split; [lia|assumption].
Qed.

Lemma add_leaf_holds : forall (X : bytes -> Prop) p a l h, Holds X a l ->
  (forall x, In x (carry_inputs 64 a h 0) -> X x) -> N.of_nat (length l) + 1 < 2 ^ 64 ->
  exists a', add_leaf p a h = Val a' /\ Holds X a' (l ++ [h]).
Proof.
  intros X p a l h (HL & Hn & HD) HX Hlt. unfold add_leaf.
  destruct (carry_spec X p a h 64 0 h l [h]) as (t & node & Hc & Ht & Hi & Hf & HD'); auto.
  { destruct (ones_all (uval (acc_num_leaves a))) as (z & Hz & Hb); [lia|].
    exists z. split; [lia|]. unfold forest. now rewrite Hb. }
  { constructor. }
  { exists []. reflexivity. }
  rewrite Hc. cbn [obind]. unfold u_add. change (uval (uwrap 64 1)) with 1. rewrite Hn.
  assert (E : (N.of_nat (length l) + 1 <? 2 ^ 64) = true) by now apply N.ltb_lt.
  rewrite E.
  set (n' := uwrap 64 (N.of_nat (length l) + 1)).
  assert (Hn' : uval n' = N.of_nat (length l) + 1) by now apply uwrap_small.
  exists (MkAcc (set_nth t node (acc_trees a)) n'). split; [now destruct p|].
  unfold Holds. cbn [acc_trees acc_num_leaves]. rewrite set_nth_length.
  split; [assumption|]. split; [rewrite Hn', app_length; cbn [length]; lia|].
  eapply Desc_ext; [|exact HD']. intros i _. unfold upd, forest. cbn [acc_trees acc_num_leaves].
  rewrite Hn', <- Hn. rewrite (succ_bits (N.of_nat t)).
  - destruct (Nat.ltb_spec i t) as [Hit|Hit]; destruct (N.ltb_spec (N.of_nat i) (N.of_nat t)); try lia; [reflexivity|].
    destruct (Nat.eqb_spec i t) as [Heq|Hne].
    + subst i. rewrite N.eqb_refl. rewrite nth_set_nth by lia. now rewrite Nat.eqb_refl.
    + destruct (N.eqb_spec (N.of_nat i) (N.of_nat t)); [lia|].
      rewrite nth_set_nth by lia. destruct (Nat.eqb_spec i t); [lia|reflexivity].
  - intros j Hj. specialize (Hi (N.to_nat j)). unfold forest in Hi. rewrite N2Nat.id in Hi.
    destruct (N.testbit (uval (acc_num_leaves a)) j); [reflexivity|]. exfalso. apply Hi; [lia|reflexivity].
  - unfold forest in Hf. now destruct (N.testbit (uval (acc_num_leaves a)) (N.of_nat t)).
Qed.

Lemma Desc_none : forall X m k, Desc X (fun _ => None) k m [].
Proof. induction m as [|m IH]; intros k; cbn [Desc]; auto. Qed.

Lemma acc_new_holds : forall X, Holds X acc_new [].
Proof.
  intros X.   split; [reflexivity|]. split; [reflexivity|]. eapply Desc_ext; [|apply Desc_none].
  intros i _. unfold forest. change (uval (acc_num_leaves acc_new)) with 0. now rewrite N.bits_0.
Qed.

Lemma add_leaves_holds : forall (X : bytes -> Prop) p l a l0, Holds X a l0 ->
  (forall x, In x (adding_inputs p a l) -> X x) -> N.of_nat (length l0 + length l) < 2 ^ 64 ->
  exists a', add_leaves p a l = Val a' /\ Holds X a' (l0 ++ l) /\
    (forall x, In x (acc_root_inputs a') -> X x).
Proof.
  intros X p. induction l as [|h l IH]; intros a l0 H HX Hlt; cbn [add_leaves adding_inputs] in *.
  - exists a. rewrite app_nil_r. auto.
  - cbn [length] in Hlt. destruct (add_leaf_holds X p a l0 h H) as (a1 & E & H1); [|lia|].
    { intros x Hx. apply HX. apply in_or_app. now left. }
    rewrite E in *. cbn [obind].
    destruct (IH a1 (l0 ++ [h]) H1) as (a' & -> & H' & HR).
    + intros x Hx. apply HX. apply in_or_app. now right.
    + rewrite app_length. cbn [length]. rewrite <- Nat.add_assoc. exact Hlt.
    + exists a'. split; [reflexivity|]. split; [now rewrite <- app_assoc in H'|assumption].
Qed.

Lemma root_loop_spec : forall (X : bytes -> Prop) a m k l s b,
  Desc X (forest a) k m l -> CodeRoot X s b -> (length s < 2 ^ k)%nat ->
  (forall x, In x (root_loop_inputs a m k b) -> X x) ->
  CodeRoot X (l ++ s) (root_loop a m k b).
Proof.
  intros X a. induction m as [|m IH]; intros k l s b HD HR Hs HX; cbn [Desc root_loop root_loop_inputs] in *.
  - subst l. assumption.
  - rewrite has_tree_testbit in *. destruct (forest a k) as [t|] eqn:Ef; unfold forest in Ef;
      destruct (N.testbit (uval (acc_num_leaves a)) (N.of_nat k)); try discriminate.
    + injection Ef as Ef. rewrite Ef in *. destruct HD as (l1 & l2 & -> & HT & HD).
      rewrite <- app_assoc. apply IH; [assumption| | |].
      * eapply CR_split; try eassumption. apply HX. now left.
      * rewrite app_length, (CodeTree_length _ _ _ _ HT). cbn [Nat.pow]. lia.
      * intros x Hx. apply HX. now right.
    + apply IH; [assumption|assumption| |assumption]. cbn [Nat.pow]. lia.
Qed.

Lemma trailing_zeros_pos_spec : forall p,
  (forall j, (j < trailing_zeros_pos p)%nat -> N.testbit (Npos p) (N.of_nat j) = false) /\
  N.testbit (Npos p) (N.of_nat (trailing_zeros_pos p)) = true.
Proof.
  intros p. induction p as [p IH|p IH|]; cbn [trailing_zeros_pos].
  - split; [intros; lia|reflexivity].
  - destruct IH as [H1 H2]. split.
    + intros [|j] Hj; [reflexivity|]. rewrite Nat2N.inj_succ.
      change (N.pos p~0) with (2 * N.pos p). rewrite N.testbit_even_succ by lia. apply H1. lia.
    + rewrite Nat2N.inj_succ. change (N.pos p~0) with (2 * N.pos p).
      rewrite N.testbit_even_succ by lia. assumption.
  - split; [intros; lia|reflexivity].
Qed.

Lemma Desc_skip : forall X f i k m l, (forall j, (k <= j < k + i)%nat -> f j = None) ->
  Desc X f k (i + m) l -> Desc X f (k + i) m l.
Proof.
  intros X f. induction i as [|i IH]; intros k m l H HD.
  - now rewrite Nat.add_0_r.
  - cbn [Nat.add Desc] in HD. rewrite (H k) in HD by lia.
    replace (k + S i)%nat with (S k + i)%nat by lia. apply IH; [|assumption]. intros j Hj. apply H. lia.
Qed.

Lemma acc_root_spec : forall (X : bytes -> Prop) a l, Holds X a l -> l <> [] ->
  (forall x, In x (acc_root_inputs a) -> X x) -> CodeRoot X l (acc_root a).
Proof.
  intros X a l (HL & Hn & HD) Hne HX. unfold acc_root, trailing_zeros. unfold acc_root_inputs, trailing_zeros in HX.
  pose proof (uint_lt 64 (acc_num_leaves a)) as Hlt.
  destruct (uval (acc_num_leaves a)) as [|q] eqn:Eq; [destruct l; [congruence|cbn in Hn; lia]|].
  destruct (trailing_zeros_pos_spec q) as [Z1 Z2].
  set (i := trailing_zeros_pos q) in *.
  assert (Hi : (i < 64)%nat).
  { destruct (le_lt_dec 64 i) as [Hge|]; [exfalso|assumption].
    assert (N.testbit (Npos q) (N.of_nat i) = false).
    { apply N.bits_above_log2. apply N.log2_lt_pow2; [lia|].
      eapply N.lt_le_trans; [exact Hlt|]. apply N.pow_le_mono_r; lia. }
    congruence. }
  destruct (Nat.eqb_spec i 64); [lia|].
  assert (HD' : Desc X (forest a) i (S (64 - S i)) l).
  { pose proof (Desc_skip X (forest a) i 0 (S (64 - S i)) l) as HS. cbn [Nat.add] in HS. apply HS.
    - intros j Hj. unfold forest. rewrite Eq, Z1 by lia. reflexivity.
    - replace (i + S (64 - S i))%nat with 64%nat by lia. assumption. }
  cbn [Desc] in HD'. unfold forest at 1 in HD'. rewrite Eq, Z2 in HD'.
  destruct HD' as (l1 & l2 & -> & HT & HD').
  apply root_loop_spec; [assumption| | |assumption].
  - econstructor; eassumption.
  - rewrite (CodeTree_length _ _ _ _ HT). cbn [Nat.pow]. pose proof (Nat.pow_nonzero 2 i). lia.
Qed.

(** The root of a sequence of leaves, as a function of the sequence. *)
Definition root_of (p : profile) (l : list hash256) : outcome hash256 :=
  obind (add_leaves p acc_new l) (fun a => Val (acc_root a)).

Lemma root_of_spec : forall p l, l <> [] -> N.of_nat (length l) < 2 ^ 64 ->
  exists r, root_of p l = Val r /\ CodeRoot (fun x => In x (tree_inputs p l)) l r.
Proof.
  intros p l Hne Hlt. unfold root_of.
  destruct (add_leaves_holds (fun x => In x (tree_inputs p l)) p l acc_new [] (acc_new_holds _)) as (a & -> & H & HX); [auto|exact Hlt|].
  cbn [obind]. exists (acc_root a). split; [reflexivity|]. now apply acc_root_spec.
Qed.

Lemma root_of_nil : forall p, root_of p [] = Val zero_hash.
Proof. intros p. reflexivity. Qed.

(** ** Determinism *)

Lemma pow2_inj : forall a b, (2 ^ a = 2 ^ b)%nat -> a = b.
Proof. intros a b. apply Nat.pow_inj_r. lia. Qed.

Lemma app_length_inj : forall A (a b c d : list A), a ++ b = c ++ d -> length a = length c -> a = c /\ b = d.
Proof.
  induction a as [|x a IH]; intros b [|y c] d H L; try discriminate L; [auto|].
  cbn [app] in H. injection H as -> H. destruct (IH b c d H) as [-> ->]; [cbn in L; lia|]. auto.
Qed.

Lemma CodeTree_fun : forall X k l a, CodeTree X k l a -> forall Y b, CodeTree Y k l b -> a = b.
Proof.
  induction 1 as [h|k l r h a HT IH HL HX]; intros Y b Hb.
  - inversion Hb; subst; reflexivity.
  - inversion Hb as [|k' l' r' h' a' HT' HL' HX' Ek El]; subst.
    apply app_length_inj in El; [|now rewrite (CodeTree_length _ _ _ _ HT), (CodeTree_length _ _ _ _ HT')].
    destruct El as [-> El]. apply app_inj_tail in El. destruct El as [-> ->].
    now rewrite (IH _ _ HT').
Qed.

Lemma CodeRoot_ne : forall X l a, CodeRoot X l a -> (0 < length l)%nat.
Proof.
  induction 1 as [k l a HT|k l r a b HT HR IH HL HX].
  - rewrite (CodeTree_length _ _ _ _ HT). pose proof (Nat.pow_nonzero 2 k). lia.
  - rewrite app_length. lia.
Qed.

Lemma pow2_between : forall j k r, (0 < r < 2 ^ k)%nat -> (2 ^ k + r = 2 ^ j)%nat -> False.
Proof.
  intros j k r H E. assert (L : (k < j)%nat) by (apply (Nat.pow_lt_mono_r_iff 2); lia).
  assert (L2 : (j < S k)%nat) by (apply (Nat.pow_lt_mono_r_iff 2); cbn [Nat.pow]; lia). lia.
Qed.

Lemma pow2_between2 : forall j k r s, (0 < r < 2 ^ k)%nat -> (0 < s < 2 ^ j)%nat ->
  (2 ^ k + r = 2 ^ j + s)%nat -> j = k.
Proof.
  intros j k r s H1 H2 E.
  assert (L1 : (k < S j)%nat) by (apply (Nat.pow_lt_mono_r_iff 2); cbn [Nat.pow]; lia).
  assert (L2 : (j < S k)%nat) by (apply (Nat.pow_lt_mono_r_iff 2); cbn [Nat.pow]; lia). lia.
Qed.

Lemma CodeRoot_fun : forall X l a, CodeRoot X l a -> forall Y b, CodeRoot Y l b -> a = b.
Proof.
  induction 1 as [k l a HT|k l r a b HT HR IH HL HX]; intros Y c Hc.
  - inversion Hc as [k' l' a' HT' E1 E2|k' l' r' a' b' HT' HR' HL' HX' E1 E2]; subst.
    + assert (k' = k) by (apply pow2_inj; now rewrite <- (CodeTree_length _ _ _ _ HT), <- (CodeTree_length _ _ _ _ HT')).
      subst k'. eapply CodeTree_fun; eassumption.
    + exfalso. pose proof (CodeTree_length _ _ _ _ HT) as L. rewrite app_length, (CodeTree_length _ _ _ _ HT') in L.
      pose proof (CodeRoot_ne _ _ _ HR'). eapply pow2_between; [|exact L]. lia.
  - pose proof (CodeRoot_ne _ _ _ HR) as Hne.
    inversion Hc as [k' l' a' HT' E1 E2|k' l' r' a' b' HT' HR' HL' HX' E1 E2]; subst.
    + exfalso. pose proof (CodeTree_length _ _ _ _ HT') as L. rewrite app_length, (CodeTree_length _ _ _ _ HT) in L.
      eapply pow2_between; [|exact L]. lia.
    + pose proof (CodeRoot_ne _ _ _ HR') as Hne'.
      assert (E : length (l' ++ r') = length (l ++ r)) by now rewrite E1.
      rewrite !app_length, (CodeTree_length _ _ _ _ HT), (CodeTree_length _ _ _ _ HT') in E.
      assert (k = k') by (eapply pow2_between2; [| |exact E]; lia). subst k'.
      apply app_length_inj in E1; [|now rewrite (CodeTree_length _ _ _ _ HT), (CodeTree_length _ _ _ _ HT')].
      destruct E1 as [-> ->]. now rewrite (CodeTree_fun _ _ _ _ HT _ _ HT'), (IH _ _ HR').
Qed.

(** ** The third leaf is never committed to *)

Lemma four_prefix : forall A (a b c d : A) rest l r, a :: b :: c :: d :: rest = l ++ r -> (4 <= length l)%nat ->
  exists l', l = a :: b :: c :: d :: l' /\ rest = l' ++ r.
Proof.
  intros A a b c d rest l r H L. destruct l as [|x1 [|x2 [|x3 [|x4 l]]]]; cbn in L; try lia.
  cbn [app] in H. injection H as -> -> -> -> ->. eexists; split; reflexivity.
Qed.

Lemma CodeTree_third : forall X k l t, CodeTree X k l t -> forall a b c d rest c', l = a :: b :: c :: d :: rest ->
  CodeTree X k (a :: b :: c' :: d :: rest) t.
Proof.
  induction 1 as [h|k l r h t HT IH HL HX]; intros a b c d rest c' E; [discriminate|].
  destruct (le_lt_dec 4 (length l)) as [L|L].
  - symmetry in E. apply four_prefix in E; [|assumption]. destruct E as (l' & El & ->).
    change (a :: b :: c' :: d :: l' ++ r ++ [h]) with ((a :: b :: c' :: d :: l') ++ r ++ [h]).
    constructor; [|assumption|assumption]. eapply IH. exact El.
  - pose proof (CodeTree_length _ _ _ _ HT) as L2.
    assert (Hk : (k < 2)%nat) by (apply (Nat.pow_lt_mono_r_iff 2); change (2 ^ 2)%nat with 4%nat; lia).
    assert (E' : length (l ++ r ++ [h]) = length (a :: b :: c :: d :: rest)) by now rewrite E.
    rewrite app_length, HL, L2 in E'. cbn [length] in E'.
    destruct k as [|[|k]]; [cbn in E'; lia| |lia]. cbn in L2, E'.
    destruct rest; [|cbn in E'; lia].
    destruct l as [|x1 [|x2 [|x3 l]]]; try discriminate L2.
    cbn [app] in E. injection E as -> -> E.
    destruct r as [|y1 [|y2 r]]; cbn [app] in E; [discriminate| |].
    + injection E as -> ->. exact (CT_node X 1 [a; b] [c'] d t HT eq_refl HX).
    + exfalso. cbn in HL. rewrite app_length in HL. cbn in HL. lia.
Qed.

Lemma CodeRoot_third : forall X l t, CodeRoot X l t -> forall a b c d rest c', l = a :: b :: c :: d :: rest ->
  CodeRoot X (a :: b :: c' :: d :: rest) t.
Proof.
  intros X l t H. destruct H as [k l t HT|k l r t u HT HR HL HX]; intros a b c d rest c' E.
  - econstructor. eapply CodeTree_third; eassumption.
  - assert (L : (4 <= length l)%nat).
    { pose proof (CodeTree_length _ _ _ _ HT) as L2.
      assert (E' : length (l ++ r) = length (a :: b :: c :: d :: rest)) by now rewrite E.
      rewrite app_length in E'. cbn [length] in E'.
      destruct k as [|[|k]]; [cbn in *; lia|cbn in *; lia|]. rewrite L2. cbn [Nat.pow].
      pose proof (Nat.pow_nonzero 2 k). lia. }
    symmetry in E. apply four_prefix in E; [|assumption]. destruct E as (l' & El & ->).
    change (a :: b :: c' :: d :: l' ++ r) with ((a :: b :: c' :: d :: l') ++ r).
    eapply CR_split; [|eassumption|eassumption|assumption]. eapply CodeTree_third; eassumption.
Qed.

Lemma root_of_third : forall p a b c c' d rest, N.of_nat (length rest) + 4 < 2 ^ 64 ->
  root_of p (a :: b :: c :: d :: rest) = root_of p (a :: b :: c' :: d :: rest).
Proof.
  intros p a b c c' d rest H.
  destruct (root_of_spec p (a :: b :: c :: d :: rest)) as (r & -> & HR); [discriminate|cbn [length]; lia|].
  destruct (root_of_spec p (a :: b :: c' :: d :: rest)) as (r' & -> & HR'); [discriminate|cbn [length]; lia|].
  f_equal. eapply CodeRoot_fun; [|exact HR']. eapply CodeRoot_third; [exact HR|reflexivity].
Qed.

(** ** Up to three leaves the root is the Merkle root *)

Lemma root_of_1 : forall p a, root_of p [a] = Val a.
Proof.
  intros p a. destruct (root_of_spec p [a]) as (r & -> & HR); [discriminate|reflexivity|].
  f_equal. eapply (CodeRoot_fun _ _ _ HR (fun _ => True)). econstructor. constructor.
Qed.
Lemma root_of_2 : forall p a b, root_of p [a; b] = Val (node_hash a b).
Proof.
  intros p a b. destruct (root_of_spec p [a; b]) as (r & -> & HR); [discriminate|reflexivity|].
  f_equal. eapply (CodeRoot_fun _ _ _ HR (fun _ => True)). apply (CR_tree _ 1). exact (CT_node _ 0 [a] [] b a (CT_leaf _ a) eq_refl I).
Qed.
Lemma root_of_3 : forall p a b c, root_of p [a; b; c] = Val (node_hash (node_hash a b) c).
Proof.
  intros p a b c. destruct (root_of_spec p [a; b; c]) as (r & -> & HR); [discriminate|reflexivity|].
  f_equal. eapply (CodeRoot_fun _ _ _ HR (fun _ => True)).
  apply (CR_split _ 1 [a; b] [c]); [exact (CT_node _ 0 [a] [] b a (CT_leaf _ a) eq_refl I)| |cbn; lia|exact I].
  econstructor. constructor.
Qed.

Lemma root_of_small : forall p l, l <> [] -> (length l <= 3)%nat ->
  exists r inputs, root_of p l = Val r /\ MerkleRoot l r inputs.
Proof.
  intros p l Hne L. destruct l as [|a [|b [|c [|d l]]]]; [congruence| | | |cbn in L; lia].
  - eexists _, _. split; [apply root_of_1|]. constructor.
  - eexists _, _. split; [apply root_of_2|].
    apply (MR_node 0 [a] [b]); [reflexivity|cbn; lia|constructor|constructor].
  - eexists _, _. split; [apply root_of_3|].
    apply (MR_node 1 [a; b] [c]); [reflexivity|cbn; lia| |constructor].
    apply (MR_node 0 [a] [b]); [reflexivity|cbn; lia|constructor|constructor].
Qed.

(** ** Properties of the specification *)

Lemma MerkleRoot_ne : forall l r i, MerkleRoot l r i -> (0 < length l)%nat.
Proof.
  intros l r i H. destruct H; [cbn; lia|]. rewrite app_length. lia.
Qed.

Lemma MR_split : forall (k k' : nat) (l r l' r' : list hash256), length l = (2 ^ k)%nat -> (0 < length r <= 2 ^ k)%nat ->
  length l' = (2 ^ k')%nat -> (0 < length r' <= 2 ^ k')%nat -> length (l ++ r) = length (l' ++ r') ->
  length l = length l'.
Proof.
  intros k k' l r l' r' H1 H2 H3 H4 E. rewrite !app_length in E.
  assert (k < S k')%nat by (apply (Nat.pow_lt_mono_r_iff 2); cbn [Nat.pow]; lia).
  assert (k' < S k)%nat by (apply (Nat.pow_lt_mono_r_iff 2); cbn [Nat.pow]; lia).
  assert (k = k') by lia. subst. congruence.
Qed.

Lemma hash_inj_or : forall x y, hash x = hash y -> x = y \/ (x <> y /\ blake2b_256 x = blake2b_256 y).
Proof.
  intros x y H. destruct (list_eq_dec Byte.byte_eq_dec x y) as [E|E]; [now left|right].
  split; [assumption|]. now rewrite <- !hash_aval, H.
Qed.

Lemma node_input_inj : forall a b c d, node_input a b = node_input c d -> a = c /\ b = d.
Proof.
  intros a b c d H. unfold node_input in H. injection H as H. apply app_length_inj in H; [|now rewrite !arr_len].
  destruct H as [H1 H2]. split; now apply arr_eq.
Qed.

Lemma MerkleRoot_fun : forall l r i, MerkleRoot l r i -> forall r' i', MerkleRoot l r' i' -> r = r' /\ i = i'.
Proof.
  induction 1 as [h|k l r a b il ir Hl Hr HA IHA HB IHB]; intros r' i' H'.
  - inversion H' as [h0 E1 E2 E3|k' l' r'' a' b' il' ir' Hl' Hr' HA' HB' E1 E2 E3]; subst; [auto|].
    exfalso. apply (f_equal (@length _)) in E1. rewrite app_length in E1. cbn in E1.
    pose proof (Nat.pow_nonzero 2 k'). lia.
  - inversion H' as [h0 E1 E2 E3|k' l' r'' a' b' il' ir' Hl' Hr' HA' HB' E1 E2 E3]; subst.
    + exfalso. apply (f_equal (@length _)) in E1. rewrite app_length in E1. cbn in E1.
      pose proof (Nat.pow_nonzero 2 k). lia.
    + assert (L : length l' = length l) by (apply (MR_split k' k l' r'' l r); [assumption|assumption|assumption|assumption|exact (f_equal (@length _) E1)]).
      apply app_length_inj in E1; [|exact L]. destruct E1 as [-> ->].
      destruct (IHA _ _ HA') as [-> ->]. destruct (IHB _ _ HB') as [-> ->]. auto.
Qed.

Lemma Collision_cons : forall x y xs ys, Collision xs ys -> Collision (x :: xs) (y :: ys).
Proof. intros x y xs ys (a & b & Ha & Hb & H). exists a, b. cbn [In]. tauto. Qed.
Lemma Collision_l : forall xs ys xs' ys', Collision xs ys -> Collision (xs ++ xs') (ys ++ ys').
Proof. intros xs ys xs' ys' (a & b & Ha & Hb & H). exists a, b. rewrite !in_app_iff. tauto. Qed.
Lemma Collision_r : forall xs ys xs' ys', Collision xs' ys' -> Collision (xs ++ xs') (ys ++ ys').
Proof. intros xs ys xs' ys' (a & b & Ha & Hb & H). exists a, b. rewrite !in_app_iff. tauto. Qed.
Lemma Collision_incl : forall xs ys xs' ys', incl xs xs' -> incl ys ys' -> Collision xs ys -> Collision xs' ys'.
Proof. intros xs ys xs' ys' H1 H2 (a & b & Ha & Hb & H). exists a, b. auto. Qed.

(** Equally many leaves with the same root: the same leaves, or a collision among the hashed
    inputs. *)
Lemma MerkleRoot_binding_eq : forall l r i, MerkleRoot l r i -> forall l' r' i', MerkleRoot l' r' i' ->
  length l = length l' -> r = r' -> l = l' \/ Collision i i'.
Proof.
  induction 1 as [h|k l r a b il ir Hl Hr HA IHA HB IHB]; intros l0 r0 i0 H' L ER.
  - destruct H' as [h0|k' l' r' a' b' il' ir' Hl' Hr' HA' HB']; [left; now rewrite ER|].
    exfalso. rewrite app_length in L. cbn [length] in L. pose proof (Nat.pow_nonzero 2 k'). lia.
  - destruct H' as [h0|k' l' r' a' b' il' ir' Hl' Hr' HA' HB'].
    + exfalso. rewrite app_length in L. cbn [length] in L. pose proof (Nat.pow_nonzero 2 k). lia.
    + assert (L1 : length l = length l') by (apply (MR_split k k' l r l' r'); auto).
      assert (L2 : length r = length r') by (rewrite !app_length in L; lia).
      unfold node_hash in ER. apply hash_inj_or in ER. destruct ER as [E2|[E2 E3]].
      * apply node_input_inj in E2. destruct E2 as [Ea Eb].
        destruct (IHA _ _ _ HA' L1 Ea) as [->|C].
        -- destruct (IHB _ _ _ HB' L2 Eb) as [->|C]; [now left|right].
           apply Collision_cons, Collision_r. assumption.
        -- right. apply Collision_cons, Collision_l. assumption.
      * right. exists (node_input a b), (node_input a' b').
        split; [now left|]. split; [now left|]. split; assumption.
Qed.

Lemma MerkleRoot_binding : forall l r i, MerkleRoot l r i -> forall l' i', MerkleRoot l' r i' ->
  length l = length l' -> l = l' \/ Collision i i'.
Proof. intros l r i H l' i' H' L. exact (MerkleRoot_binding_eq l r i H l' r i' H' L eq_refl). Qed.

(** Every non-empty sequence has a Merkle root. *)
Lemma MerkleRoot_exists : forall n l, (length l <= n)%nat -> l <> [] -> exists r i, MerkleRoot l r i.
Proof.
  induction n as [|n IH]; intros l L Hne; [destruct l; [congruence|cbn in L; lia]|].
  destruct l as [|a [|b t]]; [congruence|exists a, []; constructor|]. set (l := a :: b :: t) in *.
  assert (HL : (2 <= length l)%nat) by (cbn; lia). clearbody l.
  destruct (Nat.log2_spec (length l - 1)) as [S1 S2]; [lia|]. cbn [Nat.pow] in S2.
  remember (Nat.log2 (length l - 1)) as k eqn:Ek. clear Ek.
  pose proof (Nat.pow_nonzero 2 k ltac:(lia)) as P.
  assert (L1 : length (firstn (2 ^ k) l) = (2 ^ k)%nat) by (rewrite firstn_length; lia).
  assert (L2 : length (skipn (2 ^ k) l) = (length l - 2 ^ k)%nat) by apply skipn_length.
  destruct (IH (firstn (2 ^ k) l)) as (r1 & i1 & H1); [lia|intros E; rewrite E in L1; cbn in L1; lia|].
  destruct (IH (skipn (2 ^ k) l)) as (r2 & i2 & H2); [lia|intros E; rewrite E in L2; cbn in L2; lia|].
  exists (node_hash r1 r2), (node_input r1 r2 :: i1 ++ i2).
  rewrite <- (firstn_skipn (2 ^ k) l). apply (MR_node k); auto. lia.
Qed.
