(** Sector roots. *)

From Coq Require Import Permutation.
From Verif Require Import Base Io Model_encoding Model_common Blake2b Model_consensus Model_merkle
  SpecMerkle SpecSector MerkleProofs.
Local Open Scope nat_scope.

(** ** The parallel loop: any order gives the same result *)

Definition sized {A} (size : nat) (cs : list (list A)) : Prop := Forall (fun c => length c = size) cs.

Lemma concat_sized_length : forall A size (cs : list (list A)), sized size cs -> length (concat cs) = length cs * size.
Proof. induction 1 as [|c cs Hc Hcs IH]; cbn [concat length]; [reflexivity|]. rewrite app_length. lia. Qed.

Lemma sized_nth : forall A size (cs : list (list A)) i d, sized size cs -> i < length cs -> length (nth i cs d) = size.
Proof. intros A size cs i d H Hi. apply (proj1 (Forall_forall _ _) H). now apply nth_In. Qed.

Section Par.
  Context {A : Type} (f : nat -> list A -> list A) (size : nat) (dflt : list A).
  Local Notation sized := (@sized A size).

  Lemma concat_split : forall cs i, sized cs -> i < length cs ->
    firstn (i * size) (concat cs) = concat (firstn i cs) /\
    slice (i * size) size (concat cs) = nth i cs dflt /\
    skipn (i * size + size) (concat cs) = concat (skipn (S i) cs).
  Proof.
    intros cs i H. revert i. induction H as [|c cs Hc Hcs IH]; intros i Hi; [cbn in Hi; lia|].
    cbn [concat]. destruct i as [|i].
    - cbn [Nat.mul firstn nth skipn Nat.add]. split; [reflexivity|]. unfold slice. cbn [skipn].
      split.
      + rewrite firstn_app, Hc, Nat.sub_diag. cbn [firstn]. rewrite app_nil_r. rewrite <- Hc. apply firstn_all.
      + rewrite skipn_app, Hc, Nat.sub_diag. rewrite <- Hc at 1. rewrite skipn_all. reflexivity.
    - cbn [length] in Hi. destruct (IH i ltac:(lia)) as (E1 & E2 & E3). unfold slice in *. cbn [Nat.mul].
      rewrite firstn_app, Hc. replace (size + i * size - size) with (i * size) by lia. rewrite E1.
      rewrite firstn_all2 by lia. cbn [firstn concat nth skipn]. split; [reflexivity|].
      rewrite skipn_app, Hc. replace (size + i * size - size) with (i * size) by lia.
      rewrite (skipn_all2 c) by lia. cbn [app]. split; [exact E2|].
      rewrite skipn_app, Hc. replace (size + i * size + size - size) with (i * size + size) by lia.
      rewrite (skipn_all2 c) by lia. cbn [app]. exact E3.
  Qed.

  Lemma set_nth_split : forall (B : Type) (x : B) l i, i < length l -> set_nth i x l = firstn i l ++ x :: skipn (S i) l.
  Proof.
    induction l as [|b l IH]; intros i Hi; [cbn in Hi; lia|]. destruct i as [|i]; [reflexivity|].
    cbn [set_nth firstn app skipn]. f_equal. apply IH. cbn in Hi; lia.
  Qed.

  Lemma update_chunk_concat : forall cs i, sized cs -> i < length cs ->
    update_chunk f size i (concat cs) = concat (set_nth i (f i (nth i cs dflt)) cs).
  Proof.
    intros cs i H Hi. destruct (concat_split cs i H Hi) as (E1 & E2 & E3). unfold update_chunk.
    rewrite E1, E2, E3, set_nth_split by assumption. rewrite concat_app. cbn [concat]. reflexivity.
  Qed.

  Hypothesis f_length : forall i c, length c = size -> length (f i c) = size.

  Lemma set_nth_sized : forall cs i x, sized cs -> length x = size -> sized (set_nth i x cs).
  Proof.
    intros cs i x H Hx. revert i. induction H as [|c cs Hc Hcs IH]; intros [|i]; cbn [set_nth]; try constructor; auto.
    apply IH.
  Qed.

  Lemma par_fold : forall order cs, sized cs -> Forall (fun i => i < length cs) order -> NoDup order ->
    exists cs', par_for_each order f size (concat cs) = concat cs' /\ sized cs' /\ length cs' = length cs /\
      forall i, nth i cs' dflt = if in_dec Nat.eq_dec i order then f i (nth i cs dflt) else nth i cs dflt.
  Proof.
    unfold par_for_each. induction order as [|i order IH]; intros cs H Ho Hn; cbn [fold_left].
    - exists cs. repeat split; auto.
    - inversion Ho as [|? ? Hi Ho']; subst. inversion Hn as [|? ? Hni Hn']; subst.
      rewrite update_chunk_concat by assumption.
      destruct (IH (set_nth i (f i (nth i cs dflt)) cs)) as (cs' & E & Hs & Hl & Hnth); auto.
      { apply set_nth_sized; [assumption|]. apply f_length, sized_nth; assumption. }
      { now rewrite set_nth_length. }
      exists cs'. split; [exact E|]. split; [exact Hs|]. split; [now rewrite Hl, set_nth_length|].
      intros j. rewrite Hnth, !nth_set_nth by assumption.
      destruct (Nat.eqb_spec j i) as [->|Hj].
      + destruct (in_dec Nat.eq_dec i order) as [Hin|_]; [contradiction|].
        destruct (in_dec Nat.eq_dec i (i :: order)) as [_|Hx]; [reflexivity|]. exfalso. apply Hx. now left.
      + destruct (in_dec Nat.eq_dec j order) as [Hin|Hin], (in_dec Nat.eq_dec j (i :: order)) as [Hx|Hx]; auto.
        * exfalso. apply Hx. now right.
        * destruct Hx as [->|Hx]; [congruence|contradiction].
  Qed.

  (** All chunks updated, whatever the order. *)
  Lemma par_for_each_spec : forall order cs, sized cs -> Permutation order (seq 0 (length cs)) ->
    par_for_each order f size (concat cs) = concat (map (fun i => f i (nth i cs dflt)) (seq 0 (length cs))).
  Proof.
    intros order cs H HP.
    destruct (par_fold order cs H) as (cs' & E & Hs & Hl & Hn).
    - apply Forall_forall. intros i Hi. apply (Permutation_in _ HP) in Hi. apply in_seq in Hi. lia.
    - apply (Permutation_NoDup (Permutation_sym HP)). apply seq_NoDup.
    - rewrite E. f_equal. apply (nth_ext _ _ dflt dflt).
      + now rewrite map_length, seq_length, Hl.
      + intros i Hi. rewrite Hn. rewrite Hl in Hi.
        rewrite (nth_indep (map (fun i => f i (nth i cs dflt)) (seq 0 (length cs))) dflt (f 0 (nth 0 cs dflt)))
          by (now rewrite map_length, seq_length).
        rewrite (map_nth (fun i => f i (nth i cs dflt)) (seq 0 (length cs)) 0 i), seq_nth by lia. cbn [Nat.add].
        destruct (in_dec Nat.eq_dec i order) as [_|Hx]; [reflexivity|]. exfalso. apply Hx.
        apply (Permutation_in _ (Permutation_sym HP)). apply in_seq. lia.
  Qed.
End Par.

(** ** Perfect trees *)

Fixpoint pairs (l : list hash256) : list hash256 :=
  match l with
  | a :: b :: r => sum_node a b :: pairs r
  | _ => []
  end.

Lemma pairs_app : forall k a b, length a = 2 * k -> pairs (a ++ b) = pairs a ++ pairs b.
Proof.
  induction k as [|k IH]; intros a b H.
  - destruct a; [reflexivity|cbn in H; lia].
  - destruct a as [|x [|y a]]; [cbn in H; lia|cbn in H; lia|]. cbn [app pairs]. f_equal. apply IH. cbn in H. lia.
Qed.

Lemma pairs_length : forall k a, length a = 2 * k -> length (pairs a) = k.
Proof.
  induction k as [|k IH]; intros a H.
  - destruct a; [reflexivity|cbn in H; lia].
  - destruct a as [|x [|y a]]; [cbn in H; lia|cbn in H; lia|]. cbn [pairs length]. f_equal. apply IH. cbn in H. lia.
Qed.

Lemma pairs_nth : forall k a j, length a = 2 * k -> j < k ->
  nth j (pairs a) zero_hash = sum_node (nth (2 * j) a zero_hash) (nth (2 * j + 1) a zero_hash).
Proof.
  induction k as [|k IH]; intros a j H Hj; [lia|].
  destruct a as [|x [|y a]]; [cbn in H; lia|cbn in H; lia|]. cbn [pairs].
  destruct j as [|j]; [reflexivity|]. replace (2 * S j) with (S (S (2 * j))) by lia.
  replace (S (S (2 * j)) + 1) with (S (S (2 * j + 1))) by lia. cbn [nth]. apply IH; [cbn in H; lia|lia].
Qed.

Fixpoint proot (m : nat) (l : list hash256) : hash256 :=
  match m with
  | O => nth 0 l zero_hash
  | S m' => sum_node (proot m' (firstn (2 ^ m') l)) (proot m' (skipn (2 ^ m') l))
  end.

Lemma pow2_S : forall m, 2 ^ S m = 2 * 2 ^ m. Proof. reflexivity. Qed.

Lemma half_lengths : forall m (l : list hash256), length l = 2 ^ S m ->
  length (firstn (2 ^ m) l) = 2 ^ m /\ length (skipn (2 ^ m) l) = 2 ^ m.
Proof. intros m l H. rewrite pow2_S in H. rewrite firstn_length, skipn_length, H. generalize (2 ^ m). lia. Qed.

Lemma proot_pairs : forall m l, length l = 2 ^ S m -> proot (S m) l = proot m (pairs l).
Proof.
  induction m as [|m IH]; intros l H.
  - cbn in H. destruct l as [|a [|b [|c l]]]; try discriminate H. reflexivity.
  - destruct (half_lengths (S m) l H) as [L1 L2].
    change (proot (S (S m)) l) with
      (sum_node (proot (S m) (firstn (2 ^ S m) l)) (proot (S m) (skipn (2 ^ S m) l))).
    rewrite (IH _ L1), (IH _ L2). cbn [proot].
    assert (E : l = firstn (2 ^ S m) l ++ skipn (2 ^ S m) l) by (symmetry; apply firstn_skipn).
    set (A := firstn (2 ^ S m) l) in *. set (B := skipn (2 ^ S m) l) in *. clearbody A B. subst l.
    rewrite (pairs_app (2 ^ m) A B) by (rewrite L1; apply pow2_S).
    assert (P1 : length (pairs A) = 2 ^ m) by (apply pairs_length; rewrite L1; apply pow2_S).
    rewrite firstn_app, skipn_app, P1, Nat.sub_diag. cbn [firstn skipn].
    rewrite (firstn_all2 (pairs A)) by lia. rewrite (skipn_all2 (pairs A)) by lia. rewrite app_nil_r. reflexivity.
Qed.

Lemma proot_merkle : forall m (l : list hash256), length l = 2 ^ m -> exists i, MerkleRoot l (proot m l) i.
Proof.
  induction m as [|m IH]; intros l H.
  - destruct l as [|a [|b l]]; try discriminate H. exists []. constructor.
  - destruct (half_lengths m l H) as [L1 L2]. destruct (IH _ L1) as [i1 H1]. destruct (IH _ L2) as [i2 H2].
    exists (node_input (proot m (firstn (2 ^ m) l)) (proot m (skipn (2 ^ m) l)) :: i1 ++ i2).
    cbn [proot]. rewrite sum_node_hash. rewrite <- (firstn_skipn (2 ^ m) l) at 1.
    assert (HR : 0 < length (skipn (2 ^ m) l) <= 2 ^ m) by (rewrite L2; pose proof (Nat.pow_nonzero 2 m ltac:(lia)); lia).
    exact (MR_node m _ _ _ _ _ _ L1 HR H1 H2).
Qed.

(** ** The node passes *)

(** [t] holds the nodes [L], one every [step] positions. *)
Definition Stride (step : nat) (L t : list hash256) : Prop :=
  length t = length L * step /\ forall j, j < length L -> nth (j * step) t zero_hash = nth j L zero_hash.

(** The chunks of a list of [q * size] elements. *)
Fixpoint chunks {A} (q size : nat) (t : list A) : list (list A) :=
  match q with
  | O => []
  | S q' => firstn size t :: chunks q' size (skipn size t)
  end.

Lemma chunks_concat : forall A q size (t : list A), length t = q * size -> concat (chunks q size t) = t.
Proof.
  induction q as [|q IH]; intros size t H; cbn [chunks concat].
  - destruct t; [reflexivity|cbn in H; lia].
  - rewrite IH by (rewrite skipn_length; lia). apply firstn_skipn.
Qed.

Lemma chunks_length : forall A q size (t : list A), length (chunks q size t) = q.
Proof. induction q as [|q IH]; intros size t; cbn; auto. Qed.

Lemma chunks_sized : forall A q size (t : list A), length t = q * size -> sized size (chunks q size t).
Proof.
  induction q as [|q IH]; intros size t H; cbn [chunks]; constructor.
  - rewrite firstn_length. lia.
  - apply IH. rewrite skipn_length. lia.
Qed.

Lemma chunks_nth : forall A (d : A) q size (t : list A) i j, length t = q * size -> i < q -> j < size ->
  nth j (nth i (chunks q size t) []) d = nth (i * size + j) t d.
Proof.
  induction q as [|q IH]; intros size t i j H Hi Hj; [lia|]. cbn [chunks]. destruct i as [|i]; cbn [nth].
  - cbn [Nat.mul Nat.add]. rewrite <- (firstn_skipn size t) at 2. rewrite app_nth1; [reflexivity|].
    rewrite firstn_length. lia.
  - rewrite IH by (try rewrite skipn_length; lia).
    rewrite <- (firstn_skipn size t) at 2. rewrite app_nth2; rewrite firstn_length; [|cbn [Nat.mul]; lia].
    f_equal. cbn [Nat.mul]. lia.
Qed.

Lemma concat_nth : forall A (d : A) size cs i j, sized size cs -> i < length cs -> j < size ->
  nth (i * size + j) (concat cs) d = nth j (nth i cs []) d.
Proof.
  intros A d size cs i j H. revert i. induction H as [|c cs Hc Hcs IH]; intros i Hi Hj; [cbn in Hi; lia|].
  cbn [concat]. destruct i as [|i]; cbn [nth].
  - cbn [Nat.mul Nat.add]. rewrite app_nth1 by lia. reflexivity.
  - rewrite app_nth2 by (rewrite Hc; cbn [Nat.mul]; lia). rewrite Hc.
    replace (S i * size + j - size) with (i * size + j) by (cbn [Nat.mul]; lia).
    apply IH; [cbn in Hi; lia|lia].
Qed.

Lemma node_task_length : forall c i ns, length (node_task c i ns) = length ns.
Proof. intros c i ns. unfold node_task. cbv zeta. now rewrite !set_nth_length. Qed.

(** One pass with chunks of [4 * s] hashes turns nodes every [s] positions into their parents
    every [2 * s] positions. *)
Lemma pass_spec : forall s q L t order, 0 < s -> length L = 4 * q -> Stride s L t ->
  Permutation order (seq 0 q) ->
  Stride (2 * s) (pairs L) (par_for_each order (node_task (4 * s)) (4 * s) t).
Proof.
  intros s q L t order Hs HL [Hlen Hnth] HP.
  assert (Ht : length t = q * (4 * s)) by lia.
  rewrite <- (chunks_concat _ q (4 * s) t Ht) at 1.
  assert (Hsz := chunks_sized _ q (4 * s) t Ht).
  rewrite (par_for_each_spec (node_task (4 * s)) (4 * s) []); auto.
  2:{ intros i c Hc. now rewrite node_task_length. }
  2:{ now rewrite chunks_length. }
  rewrite chunks_length.
  set (cs' := map (fun i => node_task (4 * s) i (nth i (chunks q (4 * s) t) [])) (seq 0 q)).
  assert (Hcs'l : length cs' = q) by (unfold cs'; now rewrite map_length, seq_length).
  assert (Hcs's : sized (4 * s) cs').
  { unfold cs', sized. apply Forall_forall. intros c Hc. apply in_map_iff in Hc. destruct Hc as (i & <- & Hi).
    apply in_seq in Hi. rewrite node_task_length. apply sized_nth; [assumption|]. rewrite chunks_length. lia. }
  assert (Hcs'n : forall i, i < q -> nth i cs' [] = node_task (4 * s) i (nth i (chunks q (4 * s) t) [])).
  { intros i Hi. unfold cs'.
    rewrite (nth_indep _ [] (node_task (4 * s) 0 (nth 0 (chunks q (4 * s) t) [])))
      by (now rewrite map_length, seq_length).
    rewrite (map_nth (fun i => node_task (4 * s) i (nth i (chunks q (4 * s) t) [])) (seq 0 q) 0 i).
    now rewrite seq_nth by lia. }
  assert (HPl : length (pairs L) = 2 * q) by (apply pairs_length; lia).
  split.
  - rewrite (concat_sized_length _ (4 * s)), Hcs'l, HPl by assumption. lia.
  - rewrite HPl. intros j Hj.
    rewrite (pairs_nth (2 * q)) by lia.
    assert (Hch : forall i e, i < q -> e < 4 -> nth (e * s) (nth i (chunks q (4 * s) t) []) zero_hash
                 = nth (4 * i + e) L zero_hash).
    { intros i e Hi He. rewrite chunks_nth by (try assumption; nia).
      replace (i * (4 * s) + e * s) with ((4 * i + e) * s) by lia. apply Hnth. lia. }
    set (i := j / 2). pose proof (Nat.div_mod j 2 ltac:(lia)) as Hd. fold i in Hd.
    pose proof (Nat.mod_upper_bound j 2 ltac:(lia)) as Hm. set (b := j mod 2) in *.
    assert (Hi : i < q) by lia.
    replace (j * (2 * s)) with (i * (4 * s) + b * (2 * s)) by nia.
    rewrite (concat_nth _ _ (4 * s)) by (try assumption; nia). rewrite Hcs'n by assumption.
    set (ns := nth i (chunks q (4 * s) t) []) in *.
    assert (Hns : length ns = 4 * s) by (apply sized_nth; [assumption|]; rewrite chunks_length; lia).
    unfold node_task. cbv zeta. rewrite Hns.
    replace (4 * s / 2) with (2 * s) by (replace (4 * s) with (2 * s * 2) by lia; now rewrite Nat.div_mul).
    replace (4 * s / 4) with s by (replace (4 * s) with (s * 4) by lia; now rewrite Nat.div_mul).
    replace (0 * (4 * s) / 2) with 0 by reflexivity.
    replace (1 * (4 * s) / 2) with (2 * s)
      by (replace (1 * (4 * s)) with (2 * s * 2) by lia; now rewrite Nat.div_mul).
    rewrite nth_set_nth by (rewrite set_nth_length; lia). rewrite nth_set_nth by lia.
    assert (Hb : b = 0 \/ b = 1) by lia. destruct Hb as [Hb|Hb]; rewrite Hb in *.
    + change (0 * (2 * s)) with 0. destruct (Nat.eqb_spec 0 (2 * s)) as [|_]; [lia|].
      rewrite Nat.eqb_refl, Nat.add_0_l.
      pose proof (Hch i 0 Hi ltac:(lia)) as E0. pose proof (Hch i 1 Hi ltac:(lia)) as E1.
      fold ns in E0, E1. change (0 * s) with 0 in E0. replace (1 * s) with s in E1 by lia.
      rewrite E0, E1.
      assert (J0 : 2 * j = 4 * i + 0) by lia. assert (J1 : 2 * j + 1 = 4 * i + 1) by lia. rewrite J1, J0. reflexivity.
    + replace (1 * (2 * s)) with (2 * s) by lia. rewrite Nat.eqb_refl.
      pose proof (Hch i 2 Hi ltac:(lia)) as E0. pose proof (Hch i 3 Hi ltac:(lia)) as E1.
      fold ns in E0, E1. replace (3 * s) with (2 * s + s) in E1 by lia. rewrite E0, E1.
      assert (J0 : 2 * j = 4 * i + 2) by lia. assert (J1 : 2 * j + 1 = 4 * i + 3) by lia. rewrite J1, J0. reflexivity.
Qed.

Lemma par_length : forall (order : list nat) c q t, length t = q * c -> Permutation order (seq 0 q) ->
  length (par_for_each order (node_task c) c t) = length t.
Proof.
  intros order c q t Ht HP. rewrite <- (chunks_concat _ q c t Ht) at 1.
  rewrite (par_for_each_spec (node_task c) c []).
  - rewrite chunks_length. rewrite (concat_sized_length _ c).
    + now rewrite map_length, seq_length.
    + unfold sized. apply Forall_forall. intros x Hx. apply in_map_iff in Hx. destruct Hx as (i & <- & Hi).
      apply in_seq in Hi. rewrite node_task_length. apply sized_nth; [now apply chunks_sized|]. rewrite chunks_length. lia.
  - intros i x Hx. now rewrite node_task_length.
  - now apply chunks_sized.
  - now rewrite chunks_length.
Qed.

(** All the passes, then the last two nodes. *)
Lemma node_passes_spec : forall m fuel sched s L t, length L = 2 ^ S m -> m <= fuel -> 0 < s -> Stride s L t ->
  (forall k, k < m -> Permutation (sched (4 * s * 2 ^ k)) (seq 0 (length t / (4 * s * 2 ^ k)))) ->
  let t' := node_passes fuel sched (4 * s) t in
  sum_node (nth 0 t' zero_hash) (nth (length t' / 2) t' zero_hash) = proot (S m) L.
Proof.
  induction m as [|m IH]; intros fuel sched s L t HL Hf Hs HS Hp.
  - destruct HS as [Hlen Hnth]. cbn in HL. rewrite HL in *.
    assert (E : node_passes fuel sched (4 * s) t = t).
    { destruct fuel as [|fuel]; [reflexivity|]. cbn [node_passes].
      destruct (Nat.leb_spec (4 * s) (length t)); [lia|reflexivity]. }
    cbv zeta. rewrite E, Hlen. replace (2 * s / 2) with s by (rewrite Nat.mul_comm; now rewrite Nat.div_mul).
    pose proof (Hnth 0 ltac:(lia)) as E0. pose proof (Hnth 1 ltac:(lia)) as E1.
    cbn [Nat.mul] in E0. rewrite Nat.mul_1_l in E1. rewrite E0, E1.
    destruct L as [|a [|b [|c L]]]; try discriminate HL. reflexivity.
  - pose proof HS as [Hlen Hnth]. pose proof (Nat.pow_nonzero 2 m ltac:(lia)) as P.
    assert (HL4 : length L = 4 * 2 ^ m) by (rewrite HL; cbn [Nat.pow]; lia).
    destruct fuel as [|fuel]; [lia|]. cbv zeta. cbn [node_passes].
    assert (Hle : Nat.leb (4 * s) (length t) = true) by (apply Nat.leb_le; nia).
    rewrite Hle.
    assert (Hlt : length t = 2 ^ m * (4 * s)) by lia.
    pose proof (Hp 0 ltac:(lia)) as Hp0. cbn [Nat.pow] in Hp0. rewrite Nat.mul_1_r in Hp0.
    assert (Ed : length t / (4 * s) = 2 ^ m) by (rewrite Hlt; apply Nat.div_mul; lia).
    rewrite Ed in Hp0.
    pose proof (pass_spec s (2 ^ m) L t (sched (4 * s)) Hs HL4 HS Hp0) as HS'.
    pose proof (par_length (sched (4 * s)) (4 * s) (2 ^ m) t Hlt Hp0) as Hl'.
    set (t1 := par_for_each (sched (4 * s)) (node_task (4 * s)) (4 * s) t) in *.
    rewrite (proot_pairs (S m) L HL).
    replace (4 * s * 2) with (4 * (2 * s)) by lia.
    apply IH; auto.
    + apply pairs_length. rewrite HL. apply pow2_S.
    + lia.
    + lia.
    + intros k Hk. rewrite Hl'. replace (4 * (2 * s) * 2 ^ k) with (4 * s * 2 ^ S k) by (cbn [Nat.pow]; lia).
      apply Hp. lia.
Qed.

(** ** Leaves *)




Lemma seq_blocks : forall q b, seq (4 * b) (4 * q) = concat (map (fun i => [4 * i; 4 * i + 1; 4 * i + 2; 4 * i + 3]) (seq b q)).
Proof.
  induction q as [|q IH]; intros b; [reflexivity|]. replace (4 * S q) with (S (S (S (S (4 * q))))) by lia.
  cbn [seq map concat]. replace (S (S (S (S (4 * b))))) with (4 * S b) by lia. rewrite IH.
  cbn [app]. f_equal. f_equal; [lia|]. f_equal; [lia|]. f_equal. lia.
Qed.

Lemma code_segment_block : forall i e, e < 4 -> code_segment (4 * i + e) = i + e.
Proof.
  intros i e H. unfold code_segment. rewrite (Nat.mul_comm 4 i), Nat.div_add_l, Nat.add_comm with (n := i * 4) by lia.
  rewrite Nat.mod_add by lia. rewrite Nat.div_small, Nat.mod_small by lia. lia.
Qed.

Lemma leaves_spec : forall q order sector, Permutation order (seq 0 q) ->
  par_for_each order (leaf_task sector) 4 (repeat zero_hash (4 * q)) = code_leaves (4 * q) sector.
Proof.
  intros q order sector HP.
  rewrite <- (chunks_concat _ q 4 (repeat zero_hash (4 * q))) by (rewrite repeat_length; lia).
  rewrite (par_for_each_spec (leaf_task sector) 4 []).
  - rewrite chunks_length. unfold code_leaves. rewrite (seq_blocks q 0 : seq 0 (4 * q) = _).
    rewrite concat_map, map_map. f_equal. apply map_ext. intros i.
    cbn [map]. rewrite <- (Nat.add_0_r (4 * i)) at 1. rewrite !code_segment_block by lia. reflexivity.
  - reflexivity.
  - apply chunks_sized. rewrite repeat_length. lia.
  - now rewrite chunks_length.
Qed.


Lemma segments_root_spec : forall m sched sector, valid_schedule (2 ^ S (S m)) sched ->
  segments_root (2 ^ S (S m)) sched sector = proot (S (S m)) (code_leaves (2 ^ S (S m)) sector).
Proof.
  intros m sched sector [H0 H]. unfold segments_root. cbv zeta.
  pose proof (Nat.pow_nonzero 2 m ltac:(lia)) as P.
  assert (E4 : 2 ^ S (S m) = 4 * 2 ^ m) by (cbn [Nat.pow]; lia).
  assert (Ed : 2 ^ S (S m) / 4 = 2 ^ m) by (rewrite E4, Nat.mul_comm; apply Nat.div_mul; lia).
  rewrite Ed in H0. 
  assert (EL : par_for_each (sched 0) (leaf_task sector) 4 (repeat zero_hash (2 ^ S (S m)))
               = code_leaves (2 ^ S (S m)) sector) by (rewrite E4; now apply leaves_spec).
  rewrite EL.
  set (L := code_leaves (2 ^ S (S m)) sector).
  assert (HL : length L = 2 ^ S (S m)) by (unfold L, code_leaves; now rewrite map_length, seq_length).
  pose proof (node_passes_spec (S m) (2 ^ S (S m)) sched 1 L L HL) as HN. cbv zeta in HN.
  rewrite Nat.mul_1_r in HN. apply HN.
  - pose proof (Nat.pow_gt_lin_r 2 (S (S m)) ltac:(lia)). lia.
  - lia.
  - split; [lia|]. intros j _. now rewrite Nat.mul_1_r.
  - intros k _. rewrite HL. apply H.
Qed.


Lemma sector_segments : N.to_nat (sector_size / 64) = sector_leaves.
Proof.
  replace (sector_size / 64)%N with (2 ^ 16)%N by reflexivity. rewrite N2Nat.inj_pow.
  change (N.to_nat 2) with 2. change (N.to_nat 16) with 16. reflexivity.
Qed.

Lemma sector_root_spec : forall sched sector, valid_schedule sector_leaves sched ->
  N.of_nat (length sector) = sector_size ->
  exists inputs, sector_root sched sector = Val (proot 16 (code_leaves sector_leaves sector)) /\
    MerkleRoot (code_leaves sector_leaves sector) (proot 16 (code_leaves sector_leaves sector)) inputs.
Proof.
  intros sched sector HS HL. unfold sector_root. rewrite HL, N.eqb_refl, sector_segments.
  destruct (proot_merkle 16 (code_leaves sector_leaves sector)) as [i Hi].
  - unfold code_leaves. rewrite map_length, seq_length. reflexivity.
  - exists i. split; [|exact Hi]. f_equal. exact (segments_root_spec 14 sched sector HS).
Qed.

(** The result does not depend on the schedule. *)
Lemma sector_root_schedule : forall s1 s2 sector,
  valid_schedule sector_leaves s1 -> valid_schedule sector_leaves s2 ->
  sector_root s1 sector = sector_root s2 sector.
Proof.
  intros s1 s2 sector H1 H2. destruct (N.eq_dec (N.of_nat (length sector)) sector_size) as [E|E].
  - destruct (sector_root_spec s1 sector H1 E) as (i1 & E1 & _).
    destruct (sector_root_spec s2 sector H2 E) as (i2 & E2 & _). now rewrite E1, E2.
  - unfold sector_root. apply N.eqb_neq in E. now rewrite E.
Qed.

Lemma sector_root_length : forall s sector, N.of_nat (length sector) <> sector_size ->
  sector_root s sector = Panic AssertFailed.
Proof. intros s sector E. unfold sector_root. apply N.eqb_neq in E. now rewrite E. Qed.

(** Which bytes are read: the first [64 * 16387]. *)
Definition covered_segments : nat := N.to_nat 16387.

Lemma covered_bytes_val : covered_bytes = 64 * covered_segments.
Proof.
  unfold covered_bytes, covered_segments. change 64 with (N.to_nat 64). rewrite <- N2Nat.inj_mul. reflexivity.
Qed.

Lemma sector_leaves_val : sector_leaves = N.to_nat 65536.
Proof. rewrite <- sector_segments. reflexivity. Qed.

Lemma code_segment_lt : forall s, s < sector_leaves -> code_segment s < covered_segments.
Proof.
  intros s H. rewrite sector_leaves_val in H. unfold covered_segments, code_segment.
  pose proof (Nat.mod_upper_bound s 4 ltac:(lia)) as M. pose proof (Nat.div_mod s 4 ltac:(lia)) as D.
  remember (s / 4) as a eqn:Ea. remember (s mod 4) as b eqn:Eb. clear Ea Eb. lia.
Qed.

Lemma code_segment_onto : forall k, k < covered_segments -> exists s, s < sector_leaves /\ code_segment s = k.
Proof.
  intros k H. rewrite sector_leaves_val. unfold covered_segments in H. destruct (Nat.lt_ge_cases k 4) as [L|L].
  - exists k. split; [lia|]. unfold code_segment. rewrite Nat.div_small, Nat.mod_small by lia. lia.
  - exists (4 * (k - 3) + 3). split; [lia|]. rewrite code_segment_block by lia. lia.
Qed.

Lemma firstn_sub : forall A n m (l : list A), n <= m -> firstn n (firstn m l) = firstn n l.
Proof. intros A n m l H. rewrite firstn_firstn. now rewrite Nat.min_l. Qed.

Lemma segment_prefix : forall sector k n, 64 * k + 64 <= n -> segment (firstn n sector) k = segment sector k.
Proof.
  intros sector k n H. unfold segment, slice, segment_size. rewrite skipn_firstn_comm. apply firstn_sub. lia.
Qed.

(** Two sectors that agree on those bytes have the same root. *)
Lemma sector_root_tail : forall s a b, length a = length b -> firstn covered_bytes a = firstn covered_bytes b ->
  valid_schedule sector_leaves s -> sector_root s a = sector_root s b.
Proof.
  intros s a b HL HF HS. destruct (N.eq_dec (N.of_nat (length a)) sector_size) as [E|E].
  - assert (E' : N.of_nat (length b) = sector_size) by now rewrite <- HL.
    destruct (sector_root_spec s a HS E) as (i1 & -> & _).
    destruct (sector_root_spec s b HS E') as (i2 & -> & _). do 2 f_equal.
    unfold code_leaves. apply map_ext_in. intros k Hk. apply in_seq in Hk. destruct Hk as [_ Hk].
    pose proof (code_segment_lt k Hk) as Hc. f_equal.
    rewrite <- (segment_prefix a _ covered_bytes), <- (segment_prefix b _ covered_bytes), HF;
      [reflexivity|rewrite covered_bytes_val; lia|rewrite covered_bytes_val; lia].
  - rewrite !sector_root_length by congruence. reflexivity.
Qed.

Lemma segments_eq : forall n (a b : bytes), 64 * n <= length a -> 64 * n <= length b ->
  (forall k, k < n -> segment a k = segment b k) -> firstn (64 * n) a = firstn (64 * n) b.
Proof.
  induction n as [|n IH]; intros a b Ha Hb H; [reflexivity|].
  assert (HE : forall l : bytes, firstn (64 * S n) l = firstn (64 * n) l ++ segment l n).
  { intros l. unfold segment, slice, segment_size. rewrite <- (firstn_skipn (64 * n) (firstn (64 * S n) l)).
    rewrite firstn_sub by lia. f_equal. rewrite skipn_firstn_comm. f_equal. lia. }
  rewrite !HE. f_equal; [|apply H; lia]. apply IH; [lia|lia|]. intros k Hk. apply H. lia.
Qed.


(** The root binds those bytes. *)
Lemma sector_root_binding : forall s s' a b r ra rb ia ib,
  valid_schedule sector_leaves s -> valid_schedule sector_leaves s' ->
  sector_root s a = Val r -> sector_root s' b = Val r ->
  MerkleRoot (code_leaves sector_leaves a) ra ia -> MerkleRoot (code_leaves sector_leaves b) rb ib ->
  firstn covered_bytes a = firstn covered_bytes b \/
    Collision (leaf_inputs sector_leaves a ++ ia) (leaf_inputs sector_leaves b ++ ib).
Proof.
  intros s s' a b r ra rb ia0 ib0 HS HS' Ha Hb Ma0 Mb0.
  assert (La : N.of_nat (length a) = sector_size).
  { unfold sector_root in Ha. destruct (N.eqb_spec (N.of_nat (length a)) sector_size); [assumption|discriminate]. }
  assert (Lb : N.of_nat (length b) = sector_size).
  { unfold sector_root in Hb. destruct (N.eqb_spec (N.of_nat (length b)) sector_size); [assumption|discriminate]. }
  destruct (sector_root_spec s a HS La) as (ia & Ea & Ma). destruct (sector_root_spec s' b HS' Lb) as (ib & Eb & Mb).
  assert (Er : proot 16 (code_leaves sector_leaves a) = proot 16 (code_leaves sector_leaves b)) by congruence.
  destruct (MerkleRoot_fun _ _ _ Ma0 _ _ Ma) as [_ ->]. destruct (MerkleRoot_fun _ _ _ Mb0 _ _ Mb) as [_ ->].
  destruct (MerkleRoot_binding_eq _ _ _ Ma _ _ _ Mb) as [E|C]; [|exact Er| |].
  - unfold code_leaves. now rewrite !map_length.
  - assert (D : forall l, (forall k, In k l -> sum_leaf (segment a (code_segment k)) = sum_leaf (segment b (code_segment k))) ->
        (forall k, In k l -> segment a (code_segment k) = segment b (code_segment k)) \/
        Collision (map (fun s => x00 :: segment a (code_segment s)) l) (map (fun s => x00 :: segment b (code_segment s)) l)).
    { induction l as [|k l IH]; intros Hl; [left; intros k []|].
      destruct (hash_inj_or _ _ (Hl k (or_introl eq_refl))) as [Ek|[Nk Ck]].
      - destruct IH as [IH|IH]; [intros j Hj; apply Hl; now right| |].
        + left. intros j [<-|Hj]; [now inversion Ek|auto].
        + right. cbn [map]. now apply Collision_cons.
      - right. cbn [map]. exists (x00 :: segment a (code_segment k)), (x00 :: segment b (code_segment k)).
        split; [now left|]. split; [now left|]. split; assumption. }
    destruct (D (seq 0 sector_leaves)) as [H|H].
    + intros k Hk. unfold code_leaves in E.
      assert (Hn := f_equal (fun l => nth k l zero_hash) E). cbv beta in Hn. apply in_seq in Hk.
      assert (N1 : forall c, nth k (map (fun s => sum_leaf (segment c (code_segment s))) (seq 0 sector_leaves)) zero_hash
                  = sum_leaf (segment c (code_segment k))).
      { intros c. rewrite (nth_indep _ zero_hash ((fun s => sum_leaf (segment c (code_segment s))) 0))
          by (rewrite map_length, seq_length; lia).
        rewrite (map_nth (fun s => sum_leaf (segment c (code_segment s)))), seq_nth by lia. reflexivity. }
      now rewrite !N1 in Hn.
    + left. rewrite covered_bytes_val. apply segments_eq.
      * unfold covered_segments. unfold sector_size in La. lia.
      * unfold covered_segments. unfold sector_size in Lb. lia.
      * intros k Hk. destruct (code_segment_onto k Hk) as (j & Hj & <-). apply H. apply in_seq. lia.
    + right. now apply Collision_l.
  - right. now apply Collision_r.
Qed.

(** ** Constant sectors *)

Definition double (h : hash256) : hash256 := sum_node h h.

Lemma repeat_halves : forall A (x : A) m, firstn (2 ^ m) (repeat x (2 ^ S m)) = repeat x (2 ^ m) /\
  skipn (2 ^ m) (repeat x (2 ^ S m)) = repeat x (2 ^ m).
Proof.
  intros A x m. rewrite pow2_S. replace (2 * 2 ^ m) with (2 ^ m + 2 ^ m) by lia. rewrite repeat_app.
  rewrite firstn_app, skipn_app, repeat_length, Nat.sub_diag. cbn [firstn skipn]. rewrite app_nil_r.
  rewrite firstn_all2, skipn_all2 by (rewrite repeat_length; lia). auto.
Qed.

Lemma proot_repeat : forall m h, proot m (repeat h (2 ^ m)) = Nat.iter m double h.
Proof.
  induction m as [|m IH]; intros h; [reflexivity|].
  cbn [proot]. destruct (repeat_halves _ h m) as [-> ->]. rewrite IH. reflexivity.
Qed.

(** The perfect tree over [2^m - 1] copies of [h] followed by [x]. *)
Fixpoint last_root (m : nat) (h x : hash256) : hash256 :=
  match m with
  | O => x
  | S m' => sum_node (Nat.iter m' double h) (last_root m' h x)
  end.

Lemma proot_last : forall m h x, proot m (repeat h (2 ^ m - 1) ++ [x]) = last_root m h x.
Proof.
  induction m as [|m IH]; intros h x; [reflexivity|].
  cbn [proot last_root]. pose proof (Nat.pow_nonzero 2 m ltac:(lia)) as P. rewrite pow2_S.
  replace (2 * 2 ^ m - 1) with (2 ^ m + (2 ^ m - 1)) by lia. rewrite repeat_app, <- app_assoc.
  rewrite firstn_app, skipn_app, repeat_length, Nat.sub_diag. cbn [firstn skipn]. rewrite app_nil_r.
  rewrite firstn_all2, skipn_all2 by (rewrite repeat_length; lia). cbn [app]. rewrite proot_repeat, IH. reflexivity.
Qed.



Lemma segment_repeat : forall n k, k < n -> segment (repeat x00 (64 * n)) k = repeat x00 64.
Proof.
  intros n k H. unfold segment, slice, segment_size.
  replace (64 * n) with (64 * k + (64 + 64 * (n - k - 1))) by lia. rewrite repeat_app.
  rewrite skipn_app, repeat_length, Nat.sub_diag. rewrite skipn_all2 by (rewrite repeat_length; lia). cbn [skipn app].
  rewrite repeat_app. rewrite firstn_app, repeat_length, Nat.sub_diag.
  rewrite firstn_all2 by (rewrite repeat_length; lia). cbn [firstn]. now rewrite app_nil_r.
Qed.

Lemma map_const : forall A B (f : A -> B) y l, (forall x, In x l -> f x = y) -> map f l = repeat y (length l).
Proof.
  induction l as [|a l IH]; intros H; [reflexivity|]. cbn [map length repeat]. f_equal; [apply H; now left|].
  apply IH. intros x Hx. apply H. now right.
Qed.

Definition zero_leaf : hash256 := sum_leaf (repeat x00 64).
Definition one_leaf : hash256 := sum_leaf (repeat x00 63 ++ [x01]).

Lemma covered_lt : covered_segments < sector_leaves.
Proof. rewrite sector_leaves_val. unfold covered_segments. lia. Qed.

Lemma zero_sector_leaves : code_leaves sector_leaves zero_sector = repeat zero_leaf sector_leaves.
Proof.
  unfold code_leaves. rewrite (map_const _ _ _ zero_leaf); [now rewrite seq_length|].
  intros k Hk. apply in_seq in Hk. destruct Hk as [_ Hk]. cbn [Nat.add] in Hk. unfold zero_leaf. f_equal.
  apply segment_repeat. pose proof (code_segment_lt k Hk). pose proof covered_lt. lia.
Qed.

Lemma zero_sector_length : N.of_nat (length zero_sector) = sector_size.
Proof. unfold zero_sector. rewrite repeat_length, sector_leaves_val. rewrite Nat2N.inj_mul, N2Nat.id. reflexivity. Qed.

Lemma last_one_length : length last_one_sector = length zero_sector.
Proof.
  unfold last_one_sector, zero_sector. rewrite app_length, !repeat_length. cbn [length].
  rewrite sector_leaves_val. lia.
Qed.

Lemma zero_sector_root : forall s, valid_schedule sector_leaves s ->
  sector_root s zero_sector = Val (Nat.iter 16 double zero_leaf).
Proof.
  intros s H. destruct (sector_root_spec s zero_sector H zero_sector_length) as (i & E & _).
  rewrite E, zero_sector_leaves. unfold sector_leaves. rewrite proot_repeat. reflexivity.
Qed.

Lemma last_one_covered : firstn covered_bytes last_one_sector = firstn covered_bytes zero_sector.
Proof.
  unfold last_one_sector, zero_sector.
  assert (H : 64 * sector_leaves = (64 * sector_leaves - 1) + 1) by (rewrite sector_leaves_val; lia).
  rewrite H at 2. rewrite repeat_app, !firstn_app, repeat_length.
  assert (Z : covered_bytes - (64 * sector_leaves - 1) = 0).
  { rewrite covered_bytes_val, sector_leaves_val. unfold covered_segments. lia. }
  rewrite Z. cbn [firstn]. reflexivity.
Qed.

(** Changing the last byte of the zero sector does not change the root. *)
Lemma last_one_root : forall s, valid_schedule sector_leaves s ->
  sector_root s last_one_sector = sector_root s zero_sector.
Proof. intros s H. apply sector_root_tail; [apply last_one_length|apply last_one_covered|exact H]. Qed.

Lemma last_one_segments : segment_leaves sector_leaves last_one_sector
  = repeat zero_leaf (sector_leaves - 1) ++ [one_leaf].
Proof.
  unfold segment_leaves. assert (H : sector_leaves = (sector_leaves - 1) + 1) by (rewrite sector_leaves_val; lia).
  rewrite H at 1. rewrite seq_app, map_app. cbn [Nat.add seq map].
  assert (HS : last_one_sector = repeat x00 (64 * (sector_leaves - 1)) ++ repeat x00 63 ++ [x01]).
  { unfold last_one_sector. replace (64 * sector_leaves - 1) with (64 * (sector_leaves - 1) + 63)
      by (rewrite sector_leaves_val; lia). rewrite repeat_app, app_assoc. reflexivity. }
  rewrite HS. clear HS H. generalize (sector_leaves - 1). intros n. f_equal.
  - rewrite (map_const _ _ _ zero_leaf); [now rewrite seq_length|].
    intros k Hk. apply in_seq in Hk. unfold zero_leaf, sum_leaf. do 2 f_equal. rewrite <- (segment_repeat n k) by lia.
    unfold segment, slice, segment_size. rewrite skipn_app, firstn_app, repeat_length, skipn_length, repeat_length.
    replace (64 - (64 * n - 64 * k)) with 0 by lia. cbn [firstn]. now rewrite app_nil_r.
  - do 2 f_equal. unfold one_leaf, sum_leaf. do 2 f_equal. unfold slice.
    rewrite skipn_app, repeat_length, Nat.sub_diag. rewrite skipn_all2 by (rewrite repeat_length; lia). reflexivity.
Qed.

(** The true root of that sector is another one. *)
Lemma last_one_true_root : forall r i, MerkleRoot (segment_leaves sector_leaves last_one_sector) r i ->
  r = last_root 16 zero_leaf one_leaf.
Proof.
  intros r i H. rewrite last_one_segments in H.
  assert (L : length (repeat zero_leaf (sector_leaves - 1) ++ [one_leaf]) = 2 ^ 16).
  { rewrite app_length, repeat_length. cbn [length]. change (2 ^ 16) with sector_leaves. rewrite sector_leaves_val. lia. }
  destruct (proot_merkle 16 _ L) as [i' H']. destruct (MerkleRoot_fun _ _ _ H _ _ H') as [-> _].
  unfold sector_leaves. rewrite proot_last. reflexivity.
Qed.
