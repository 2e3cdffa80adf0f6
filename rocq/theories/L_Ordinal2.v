(** * Proofs about the ordinal models: classifiers, trees, DDAG, binarisation. *)

From Coq Require Import Reals List ZArith Lia Lra Permutation Bool Sorted.
From Verif Require Import Num Spec L_Num M_Baselines L_Baselines L_Metrics M_Ordinal Spec_Ordinal L_Ordinal.
Import ListNotations.
Open Scope R_scope.

(** ** Frank and Hall classifier (C15) *)

Lemma FH_row_length : forall l, l <> [] -> length (FH_row l) = S (length l).
Proof.
  intros l H. unfold FH_row. simpl. rewrite app_length, map_length, seq_length. simpl.
  destruct l; [congruence|simpl; lia].
Qed.

Lemma FH_row_first : forall l, l <> [] -> nth 0 (FH_row l) 0 = nth 0 l 0.
Proof. auto. Qed.

Lemma FH_row_last : forall l, l <> [] -> nth (length l) (FH_row l) 0 = 1 - nth (length l - 1) l 0.
Proof.
  intros l H. unfold FH_row. destruct l as [|x t]; [congruence|].
  cbn [length nth]. rewrite app_nth2; rewrite map_length, seq_length; [|lia].
  replace (length t - (S (S (length t)) - 2))%nat with O by lia. cbn [nth].
  replace (S (S (length t)) - 2)%nat with (length t) by lia. replace (S (length t) - 1)%nat with (length t) by lia. auto.
Qed.

Lemma FH_row_middle : forall l c, (1 <= c)%nat -> (c < length l)%nat ->
  nth c (FH_row l) 0 = 1 - nth (c - 1) l 0 * nth c l 0.
Proof.
  intros l c H1 H2. unfold FH_row. destruct c; [lia|]. cbn [nth].
  rewrite app_nth1 by (rewrite map_length, seq_length; lia).
  set (f := fun c => 1 - nth (c - 1) l 0 * nth c l 0).
  rewrite (nth_indep _ 0 (f O)) by (rewrite map_length, seq_length; lia).
  rewrite map_nth, seq_nth by lia. reflexivity.
Qed.

Lemma FH_middle_iff : forall l c, (1 <= c)%nat -> (c < length l)%nat ->
  (nth c (FH_row l) 0 = (1 - nth (c - 1) l 0) * nth c l 0 <-> nth c l 0 = 1).
Proof. intros l c H1 H2. rewrite FH_row_middle by auto. split; intro; lra. Qed.

Lemma FH_predict_proba_val : forall ests, ests <> [] -> FH_predict_proba ests = Val (FH_row (map snd ests)).
Proof. intros [|e t] H; [congruence|]. reflexivity. Qed.

(** ** Monotone Frank and Hall classifier (C16) *)

Lemma collect_val : forall (A B : Type) (f : A -> out B) (g : A -> B) l,
  (forall x, In x l -> f x = Val (g x)) -> collect (map f l) = Val (map g l).
Proof.
  intros A B f g l. induction l as [|a t IH]; intros H; simpl; auto.
  rewrite H by (left; auto). simpl. rewrite IH by (intros; apply H; right; auto). auto.
Qed.

Lemma collect_inv : forall (A : Type) (l : list (out A)) r, collect l = Val r -> l = map Val r.
Proof.
  induction l as [|o t IH]; intros r H; simpl in H.
  - inversion H. auto.
  - destruct o; simpl in H; try discriminate. destruct (collect t) eqn:E; simpl in H; try discriminate.
    inversion H; subst. simpl. f_equal. apply IH. auto.
Qed.

Lemma collect_exists : forall (A B : Type) (f : A -> out B) (P : A -> B -> Prop) l,
  (forall x, In x l -> exists b, f x = Val b /\ P x b) ->
  exists r, collect (map f l) = Val r /\ Forall2 P l r.
Proof.
  intros A B f P l. induction l as [|a t IH]; intros H.
  - exists []. split; auto.
  - destruct (H a ltac:(left; auto)) as [b [E Pb]]. destruct IH as [r [Er Fr]]; [intros; apply H; right; auto|].
    exists (b :: r). simpl. rewrite E. simpl. rewrite Er. simpl. split; auto.
Qed.

Lemma FHM_spec : forall examples,
  Forall (fun e => e <> [] /\ unit_interval (map snd e)) examples ->
  exists rows, FHM_predict_proba examples = Val rows /\
    Forall2 (fun e p => distribution_over (S (length e)) p /\
       forall i, (i < length e)%nat -> is_maximum (rsum (firstn (S i) p)) (firstn (S i) (map snd e)))
      examples rows.
Proof.
  intros ex H. unfold FHM_predict_proba.
  rewrite (collect_val _ _ left_probabilities (map snd)).
  2:{ intros e He. rewrite Forall_forall in H. destruct (H e He) as [Hn _]. destruct e; [congruence|reflexivity]. }
  cbn [obind]. unfold monotone_correct, monotone_rows_to_correct. rewrite map_map.
  apply collect_exists. intros e He. rewrite Forall_forall in H. destruct (H e He) as [Hn U].
  destruct (from_left_groups_spec (map snd e)) as [p [E [D C]]]; auto.
  { destruct e; [congruence|discriminate]. }
  rewrite map_length in *. exists p. split; auto. split; auto.
  intros i Hi. rewrite C by auto. apply left_to_right_max. rewrite map_length. auto.
Qed.

(** ** argmax *)

Lemma argmax_from_spec : forall l best bi i,
  let k := argmax_from best bi i l in
  ((k = bi /\ Forall (fun x => x <= best) l) \/
   (exists j, k = (i + j)%nat /\ (j < length l)%nat /\ best < nth j l 0 /\
     (forall m, (m < length l)%nat -> nth m l 0 <= nth j l 0) /\
     (forall m, (m < j)%nat -> nth m l 0 < nth j l 0))).
Proof.
  induction l as [|x t IH]; intros best bi i; cbn [argmax_from]; [left; split; auto|].
  destruct (Rlt_dec best x) as [H|H].
  - right. destruct (IH x i (S i)) as [[E F]|[j [E [Hj [Hb [Hm Hs]]]]]].
    + exists O. rewrite E. simpl. rewrite Forall_forall in F. repeat split; auto; try lia.
      intros [|m] Hm; simpl; [lra|]. apply F, nth_In. lia.
    + exists (S j). rewrite E. simpl. repeat split; auto; try lia; try lra.
      * intros [|m] Hl; [lra|]. apply Hm. lia.
      * intros [|m] Hl; [lra|]. apply Hs. lia.
  - destruct (IH best bi (S i)) as [[E F]|[j [E [Hj [Hb [Hm Hs]]]]]].
    + left. split; auto. apply Forall_cons; auto. lra.
    + right. exists (S j). rewrite E. simpl. repeat split; auto; try lia; try lra.
      * intros [|m] Hl; [lra|]. apply Hm. lia.
      * intros [|m] Hl; [lra|]. apply Hs. lia.
Qed.

Lemma argmax_spec : forall l, l <> [] -> (argmax l < length l)%nat /\
  (forall m, (m < length l)%nat -> nth m l 0 <= nth (argmax l) l 0) /\
  (forall m, (m < argmax l)%nat -> nth m l 0 < nth (argmax l) l 0).
Proof.
  intros [|x t] H; [congruence|]. unfold argmax.
  destruct (argmax_from_spec t x 0 1) as [[E F]|[j [E [Hj [Hb [Hm Hs]]]]]]; rewrite E; simpl.
  - rewrite Forall_forall in F. repeat split; try lia. intros [|m] Hm; [lra|]. apply F, nth_In; lia.
  - repeat split; try lia.
    + intros [|m] Hl; [lra|]. apply Hm; lia.
    + intros [|m] Hl; [lra|]. apply Hs; lia.
Qed.

Lemma nth_map_Ropp : forall l m, nth m (map Ropp l) 0 = - nth m l 0.
Proof. intros. rewrite <- (map_nth Ropp). f_equal. ring. Qed.

Lemma argmin_spec : forall l, l <> [] -> (argmin l < length l)%nat /\
  (forall m, (m < length l)%nat -> nth (argmin l) l 0 <= nth m l 0) /\
  (forall m, (m < argmin l)%nat -> nth (argmin l) l 0 < nth m l 0).
Proof.
  intros l H. unfold argmin.
  destruct (argmax_spec (map Ropp l)) as [A [B C]]; [destruct l; simpl; congruence|].
  rewrite map_length in *. split; auto. split.
  - intros m Hm. specialize (B m Hm). rewrite !nth_map_Ropp in B. lra.
  - intros m Hm. specialize (C m Hm). rewrite !nth_map_Ropp in C. lra.
Qed.

(** ** Building the tree (C17) *)

Inductive tree_over : qtree -> nat -> nat -> Prop :=
| over_leaf : forall first, tree_over QLeaf first 0
| over_node : forall first k m l r, tree_over l first k -> tree_over r (S (first + k)) m ->
    tree_over (QNode (first + k) l r) first (S (k + m)).

Lemma in_order_over : forall t first len, tree_over t first len -> in_order t = seq first len.
Proof.
  induction 1; simpl; auto. rewrite IHtree_over1, IHtree_over2.
  change (first :: seq (S first) (k + m)) with (seq first (S (k + m))).
  replace (S (k + m)) with (k + S m)%nat by lia. rewrite seq_app. reflexivity.
Qed.

Lemma nth_slice : forall (s : list R) first len i, (i < len)%nat ->
  nth i (firstn len (skipn first s)) 0 = nth (first + i) s 0.
Proof.
  intros s first len i H. assert (G : forall (l : list R) n i, (i < n)%nat -> nth i (firstn n l) 0 = nth i l 0).
  { induction l; intros [|n] [|j] Hj; simpl; auto; try lia. apply IHl. lia. }
  rewrite G by auto. clear. revert s. induction first; intros s; simpl; auto. destruct s; simpl; auto. destruct i; auto.
Qed.

Lemma slice_length : forall (s : list R) first len, (first + len <= length s)%nat ->
  length (firstn len (skipn first s)) = len.
Proof. intros. rewrite firstn_length, skipn_length. lia. Qed.

Lemma build_tree_over : forall fuel scores first len, (len <= fuel)%nat -> (first + len <= length scores)%nat ->
  tree_over (build_tree fuel scores first len) first len.
Proof.
  induction fuel; intros scores first len Hf Hl; [replace len with O by lia; constructor|].
  destruct len as [|len]; [constructor|]. cbn [build_tree]. cbv zeta.
  pose proof (slice_length scores first (S len) ltac:(lia)) as SL.
  destruct (argmin_spec (firstn (S len) (skipn first scores))) as [A _].
  { intro E. rewrite E in SL. discriminate. }
  rewrite SL in A. set (k := argmin _) in *.
  replace (S len - S k)%nat with (len - k)%nat by lia.
  assert (E : S len = S (k + (len - k))) by lia.
  enough (G : tree_over (QNode (first + k) (build_tree fuel scores first k)
    (build_tree fuel scores (S (first + k)) (len - k))) first (S (k + (len - k)))) by (rewrite E; exact G).
  clearbody k. constructor; apply IHfuel; lia.
Qed.

Lemma build_tree_best : forall fuel scores first len, (len <= fuel)%nat -> (first + len <= length scores)%nat ->
  best_first scores (build_tree fuel scores first len).
Proof.
  induction fuel; intros scores first len Hf Hl; [simpl; auto|].
  destruct len as [|len]; [simpl; auto|]. cbn [build_tree]. cbv zeta.
  pose proof (slice_length scores first (S len) ltac:(lia)) as SL.
  destruct (argmin_spec (firstn (S len) (skipn first scores))) as [A [B _]].
  { intro E. rewrite E in SL. discriminate. }
  rewrite SL in A, B. set (k := argmin _) in *. cbn [best_first].
  rewrite (in_order_over _ first k) by (apply build_tree_over; lia).
  rewrite (in_order_over _ (S (first + k)) (S len - S k)) by (apply build_tree_over; lia).
  split; [|split; apply IHfuel; lia].
  apply Forall_forall. intros j Hj. apply in_app_or in Hj.
  assert (R : (first <= j < first + S len)%nat) by (destruct Hj as [Hj|Hj]; apply in_seq in Hj; lia).
  specialize (B (j - first)%nat ltac:(lia)). rewrite !nth_slice in B by lia.
  replace (first + (j - first))%nat with j in B by lia. exact B.
Qed.

Lemma make_tree_spec : forall scores,
  in_order (make_tree scores) = seq 0 (length scores) /\ best_first scores (make_tree scores).
Proof.
  intros. unfold make_tree. split.
  - apply in_order_over, build_tree_over; lia.
  - apply build_tree_best; lia.
Qed.

(** ** Probabilities of the tree *)

Lemma index_of_nth : forall classes i, NoDup classes -> (i < length classes)%nat ->
  index_of (nth i classes 0%Z) classes = i.
Proof.
  induction classes as [|c t IH]; intros i N Hi; [simpl in Hi; lia|]. inversion N; subst.
  destruct i; simpl; [rewrite Z.eqb_refl; auto|].
  destruct (Z.eqb_spec c (nth i t 0%Z)) as [E|E].
  - exfalso. apply H1. rewrite E. apply nth_In. simpl in Hi; lia.
  - f_equal. apply IH; auto. simpl in Hi; lia.
Qed.

Lemma scale_at_length : forall l p v, length (scale_at p v l) = length l.
Proof. induction l; intros [|p] v; simpl; auto. Qed.
Lemma scale_at_nth : forall l p v i, (i < length l)%nat ->
  nth i (scale_at p v l) 0 = nth i l 0 * (if Nat.eqb i p then v else 1).
Proof.
  induction l as [|x l IH]; intros p v i Hi; [simpl in Hi; lia|].
  destruct p, i; simpl; try ring.
  apply IH. simpl in Hi; lia.
Qed.

Lemma scale_classes_length : forall cls classes v probs, length (scale_classes classes cls v probs) = length probs.
Proof.
  unfold scale_classes. induction cls; intros; simpl; auto. rewrite IHcls. apply scale_at_length.
Qed.

Lemma scale_classes_nth : forall cls classes v probs i, NoDup classes -> NoDup cls ->
  incl cls classes -> length probs = length classes -> (i < length classes)%nat ->
  nth i (scale_classes classes cls v probs) 0 =
  nth i probs 0 * (if in_dec Z.eq_dec (nth i classes 0%Z) cls then v else 1).
Proof.
  unfold scale_classes. induction cls as [|c t IH]; intros classes v probs i N Nc Inc L Hi.
  - simpl. ring.
  - inversion Nc; subst. cbn [fold_left]. rewrite IH; auto.
    2:{ intros x Hx. apply Inc. right; auto. }
    2:{ rewrite scale_at_length; auto. }
    rewrite scale_at_nth by lia.
    destruct (In_nth classes c 0%Z (Inc c ltac:(left; auto))) as [j [Hj Ej]].
    rewrite <- Ej at 1. rewrite index_of_nth by auto.
    destruct (in_dec Z.eq_dec (nth i classes 0%Z) t) as [I|I];
      destruct (in_dec Z.eq_dec (nth i classes 0%Z) (c :: t)) as [I'|I'];
      destruct (Nat.eqb_spec i j) as [E|E]; try ring; exfalso.
    + subst j. rewrite Ej in I. auto.
    + subst j. rewrite Ej in I. auto.
    + apply I'; right; auto.
    + destruct I' as [I'|I']; auto. apply E. apply (NoDup_nth classes 0%Z); auto. congruence.
    + subst j. apply I'. left. auto.
Qed.

Lemma setdiff_in : forall a b x, In x (setdiff1d a b) <-> In x a /\ ~ In x b.
Proof.
  intros. unfold setdiff1d. rewrite filter_In, np_unique_in. apply and_iff_compat_l.
  rewrite negb_true_iff. split.
  - intros H I. assert (existsb (Z.eqb x) b = true); [|congruence]. apply existsb_exists. exists x.
    split; auto. apply Z.eqb_refl.
  - intros H. destruct (existsb (Z.eqb x) b) eqn:E; auto. exfalso. apply H. apply existsb_exists in E.
    destruct E as [z [I E]]. apply Z.eqb_eq in E. subst. auto.
Qed.
Lemma setdiff_NoDup : forall a b, NoDup (setdiff1d a b).
Proof. intros. apply NoDup_filter, np_unique_NoDup. Qed.

Lemma in_firstn_pos : forall (classes : list Z) n i, NoDup classes -> (i < length classes)%nat ->
  (In (nth i classes 0%Z) (firstn n classes) <-> (i < n)%nat).
Proof.
  intros classes n i N Hi. split.
  - intros H. apply (In_nth _ _ 0%Z) in H. destruct H as [j [Hj E]]. rewrite firstn_length in Hj.
    assert (G : nth j (firstn n classes) 0%Z = nth j classes 0%Z).
    { clear -Hj. assert (Hj' : (j < n)%nat) by lia. clear Hj. revert j n Hj'.
      induction classes; intros [|j] [|n] Hj'; simpl; auto; try lia. apply IHclasses. lia. }
    rewrite G in E. apply (NoDup_nth classes 0%Z) in E; auto; lia.
  - intros H. clear N. revert i n Hi H. induction classes; intros i n Hi H; [simpl in Hi; lia|].
    destruct n; [lia|]. destruct i; simpl; [auto|]. right. apply IHclasses; simpl in Hi; lia.
Qed.
Lemma in_skipn_pos : forall (classes : list Z) n i, NoDup classes -> (i < length classes)%nat ->
  (In (nth i classes 0%Z) (skipn n classes) <-> (n <= i)%nat).
Proof.
  intros classes n i N Hi. split.
  - intros H. destruct (Nat.lt_ge_cases i n) as [L|L]; auto. exfalso.
    apply (in_firstn_pos classes n i N Hi) in L.
    rewrite <- (firstn_skipn n classes) in N.
    revert L H. generalize (nth i classes 0%Z). intros z.
    revert N. generalize (firstn n classes) (skipn n classes). intros a b N Ia Ib.
    induction a; simpl in *; auto. inversion N; subst. destruct Ia as [->|Ia]; auto.
    apply H1. apply in_or_app; auto.
  - intros H. destruct (in_app_or (firstn n classes) (skipn n classes) (nth i classes 0%Z)) as [I|I]; auto.
    + rewrite firstn_skipn. apply nth_In; auto.
    + apply in_firstn_pos in I; auto. lia.
Qed.

Lemma NoDup_app_l : forall (A : Type) (a b : list A), NoDup (a ++ b) -> NoDup a.
Proof.
  induction a; simpl; intros b N; [constructor|]. inversion N; subst. constructor; [|eapply IHa; eauto].
  intro I. apply H1. apply in_or_app; auto.
Qed.
Lemma NoDup_app_r : forall (A : Type) (a b : list A), NoDup (a ++ b) -> NoDup b.
Proof. induction a; simpl; intros b N; auto. inversion N; subst. auto. Qed.

(** What [subtree] stands for: the class positions first, ..., first+len. *)
Definition covers (classes sub : list Z) (first len : nat) : Prop :=
  NoDup sub /\ incl sub classes /\
  forall i, (i < length classes)%nat -> (In (nth i classes 0%Z) sub <-> (first <= i <= first + len)%nat).

Lemma tree_probabilities_spec : forall t first len, tree_over t first len ->
  forall classes ests sub probs, NoDup classes -> (first + len < length classes)%nat ->
    (sub = [] /\ first = O /\ S len = length classes \/ covers classes sub first len) ->
    length probs = length classes ->
    length (tree_probabilities classes ests t sub probs) = length classes /\
    forall i, (i < length classes)%nat ->
      nth i (tree_probabilities classes ests t sub probs) 0 =
      nth i probs 0 * (if (Nat.leb first i && Nat.leb i (first + len))%bool then path_probability ests t i else 1).
Proof.
  induction 1 as [first|first k m l r Hl IHl Hr IHr]; intros classes ests sub probs N Hb Hs Lp.
  - simpl. split; auto. intros. destruct (_ && _)%bool; ring.
  - cbn [tree_probabilities]. cbv zeta.
    set (pos := (first + k)%nat) in *.
    set (sl := match sub with [] => firstn (S pos) classes | _ => setdiff1d sub (skipn (S pos) classes) end).
    set (sr := match sub with [] => skipn (S pos) classes | _ => setdiff1d sub (firstn (S pos) classes) end).
    assert (Cl : covers classes sl first k).
    { destruct Hs as [[-> [-> Hlen]]|[Ns [Inc C]]].
      - unfold sl. split; [|split].
        + rewrite <- (firstn_skipn (S pos) classes) in N. apply NoDup_app_l in N. auto.
        + intros x Hx. eapply in_firstn; eauto.
        + intros i Hi. rewrite in_firstn_pos by auto. lia.
      - assert (sub <> []).
        { intro E. assert (G : In (nth first classes 0%Z) sub) by (apply C; lia). rewrite E in G. auto. }
        unfold sl. destruct sub as [|s0 sub']; [congruence|]. split; [|split].
        + apply setdiff_NoDup.
        + intros x Hx. apply setdiff_in in Hx. apply Inc. tauto.
        + intros i Hi. rewrite setdiff_in, C, in_skipn_pos by auto. lia. }
    assert (Cr : covers classes sr (S pos) m).
    { destruct Hs as [[-> [-> Hlen]]|[Ns [Inc C]]].
      - unfold sr. split; [|split].
        + rewrite <- (firstn_skipn (S pos) classes) in N. apply NoDup_app_r in N. auto.
        + intros x Hx. eapply in_skipn; eauto.
        + intros i Hi. rewrite in_skipn_pos by auto. lia.
      - assert (sub <> []).
        { intro E. assert (G : In (nth first classes 0%Z) sub) by (apply C; lia). rewrite E in G. auto. }
        unfold sr. destruct sub as [|s0 sub']; [congruence|]. split; [|split].
        + apply setdiff_NoDup.
        + intros x Hx. apply setdiff_in in Hx. apply Inc. tauto.
        + intros i Hi. rewrite setdiff_in, C, in_firstn_pos by auto. lia. }
    set (pl := snd (nth pos ests (0, 0))). set (pr := fst (nth pos ests (0, 0))).
    set (p1 := scale_classes classes sl pl probs).
    set (p2 := scale_classes classes sr pr p1).
    assert (L1 : length p1 = length classes) by (unfold p1; rewrite scale_classes_length; auto).
    assert (L2 : length p2 = length classes) by (unfold p2; rewrite scale_classes_length; auto).
    destruct (IHl classes ests sl p2 N ltac:(lia) ltac:(right; auto) L2) as [L3 V3].
    destruct (IHr classes ests sr _ N ltac:(lia) ltac:(right; auto) L3) as [L4 V4].
    split; auto. intros i Hi. rewrite V4, V3 by auto.
    unfold p2. destruct Cl as [Nl [Il CL]]. destruct Cr as [Nr [Ir CR]].
    rewrite scale_classes_nth by auto. unfold p1. rewrite scale_classes_nth by auto.
    specialize (CL i Hi). specialize (CR i Hi).
    cbn [path_probability]. fold pl pr.
    destruct (in_dec Z.eq_dec (nth i classes 0%Z) sl) as [I1|I1];
      destruct (in_dec Z.eq_dec (nth i classes 0%Z) sr) as [I2|I2];
      destruct (Nat.leb_spec first i); destruct (Nat.leb_spec i (first + k));
      destruct (Nat.leb_spec (S pos) i); destruct (Nat.leb_spec i (S pos + m));
      destruct (Nat.leb_spec i (first + S (k + m))); destruct (Nat.leb_spec i pos); cbn [andb];
      try ring; exfalso; (try (apply CL in I1)); (try (apply CR in I2)); try lia;
      (try (apply I1, CL; lia)); (try (apply I2, CR; lia)).
Qed.

Lemma FHT_row : forall classes ests scores i, NoDup classes -> length classes = S (length scores) ->
  (i < length classes)%nat ->
  length (FHT_predict_proba classes (make_tree scores) ests) = length classes /\
  nth i (FHT_predict_proba classes (make_tree scores) ests) 0 = path_probability ests (make_tree scores) i.
Proof.
  intros classes ests scores i N L Hi. unfold FHT_predict_proba, make_tree.
  destruct (tree_probabilities_spec _ 0 (length scores)
             (build_tree_over (length scores) scores 0 (length scores) ltac:(lia) ltac:(lia))
             classes ests [] (repeat 1 (length classes)) N ltac:(lia) ltac:(left; auto) ltac:(apply repeat_length)) as [L1 V].
  split; auto. rewrite V by auto.
  replace (Nat.leb 0 i && Nat.leb i (0 + length scores))%bool with true.
  - assert (E : nth i (repeat 1 (length classes)) 0 = 1).
    { clear -Hi. revert i Hi. induction (length classes); intros [|i] Hi; simpl; auto; try lia. apply IHn; lia. }
    rewrite E. ring.
  - symmetry. apply andb_true_iff. split; apply Nat.leb_le; lia.
Qed.

Lemma path_sum : forall t first len, tree_over t first len -> forall ests,
  (forall j, (first <= j < first + len)%nat -> complementary (nth j ests (0, 0))) ->
  (forall i, (i <= len)%nat -> 0 <= path_probability ests t (first + i)) /\
  sumn (S len) (fun i => path_probability ests t (first + i)) = 1.
Proof.
  induction 1 as [first|first k m l r Hl IHl Hr IHr]; intros ests Hc.
  - simpl. split; [intros; lra|ring].
  - destruct (IHl ests ltac:(intros; apply Hc; lia)) as [Pl Sl].
    destruct (IHr ests ltac:(intros; apply Hc; lia)) as [Pr Sr].
    destruct (Hc (first + k)%nat ltac:(lia)) as [A [B C]].
    set (pl := snd (nth (first + k) ests (0, 0))) in *. set (pr := fst (nth (first + k) ests (0, 0))) in *.
    split.
    + intros i Hi. cbn [path_probability]. fold pl pr. destruct (Nat.leb_spec (first + i) (first + k)).
      * apply Rmult_le_pos; auto. apply Pl. lia.
      * apply Rmult_le_pos; auto. replace (first + i)%nat with (S (first + k) + (i - S k))%nat by lia. apply Pr. lia.
    + replace (S (S (k + m))) with (S k + S m)%nat by lia. rewrite sumn_split.
      rewrite (sumn_ext _ _ (fun i => pl * path_probability ests l (first + i))).
      2:{ intros i Hi. cbn [path_probability]. fold pl pr. destruct (Nat.leb_spec (first + i) (first + k)); auto; lia. }
      rewrite (sumn_ext (S m) _ (fun i => pr * path_probability ests r (S (first + k) + i))).
      2:{ intros i Hi. cbn [path_probability]. fold pl pr. destruct (Nat.leb_spec (first + (S k + i)) (first + k)); [lia|].
          f_equal. f_equal. lia. }
      rewrite !sumn_scal, Sl, Sr. lra.
Qed.

Lemma FHT_distribution : forall classes ests scores, NoDup classes -> length classes = S (length scores) ->
  length ests = length scores -> Forall complementary ests ->
  distribution_over (length classes) (FHT_predict_proba classes (make_tree scores) ests).
Proof.
  intros classes ests scores N L Le F.
  pose proof (fun i => FHT_row classes ests scores i N L) as V.
  destruct (path_sum _ 0 (length scores)
             (build_tree_over (length scores) scores 0 (length scores) ltac:(lia) ltac:(lia)) ests) as [P S1].
  { intros j Hj. rewrite Forall_forall in F. apply F, nth_In. lia. }
  fold (make_tree scores) in *.
  destruct (V O ltac:(lia)) as [L1 _]. split; auto. split.
  - apply Forall_forall. intros x Hx. apply (In_nth _ _ 0) in Hx. destruct Hx as [i [Hi <-]]. rewrite L1 in Hi.
    destruct (V i Hi) as [_ ->]. apply (P i). lia.
  - rewrite <- sumn_nth, L1, L, <- S1. apply sumn_ext. intros i Hi. destruct (V i ltac:(lia)) as [_ ->]. auto.
Qed.

Lemma OQT_distribution : forall classes scores examples, NoDup classes -> length classes = S (length scores) ->
  examples <> [] -> Forall (fun e => length e = length scores /\ Forall complementary e) examples ->
  exists p, OQT_predict classes (make_tree scores) examples = Val p /\ distribution_over (length classes) p.
Proof.
  intros classes scores ex N L Hne F. unfold OQT_predict, PCC_predict, mean_rows.
  set (rows := map _ ex).
  assert (Hr : rows <> []) by (unfold rows; destruct ex; [congruence|discriminate]).
  destruct rows as [|r0 rows'] eqn:E; [congruence|]. rewrite <- E in *.
  eexists. split; [reflexivity|]. apply distribution_over_col_means; auto.
  unfold rows. apply Forall_forall. intros x Hx. apply in_map_iff in Hx. destruct Hx as [e [<- He]].
  rewrite Forall_forall in F. destruct (F e He). apply FHT_distribution; auto.
Qed.

(** ** Binarisation (C21) and tree scores (C18) *)

Lemma label_binarize_many : forall classes y, (3 <= length classes)%nat ->
  label_binarize classes y = map (fun v => map (fun c => if Z.eqb v c then 1 else 0) classes) y.
Proof. intros [|a [|b [|c t]]] y H; simpl in H; try lia. reflexivity. Qed.

Definition indicator (b : bool) : R := if b then 1 else 0.

Lemma indicator_sum : forall classes v i, NoDup classes ->
  rsum (firstn (S i) (map (fun c => if Z.eqb v c then 1 else 0) classes)) =
  if in_dec Z.eq_dec v (firstn (S i) classes) then 1 else 0.
Proof.
  intros classes v i N. generalize (S i). clear i. intros n. revert n N.
  induction classes as [|c t IH]; intros n N; [destruct n; simpl; auto|].
  inversion N; subst. destruct n; [simpl; auto|]. cbn [map firstn rsum]. rewrite IH by auto.
  destruct (Z.eqb_spec v c) as [E|E].
  - destruct (in_dec Z.eq_dec v (firstn n t)) as [I|I];
      destruct (in_dec Z.eq_dec v (c :: firstn n t)) as [I'|I']; try lra; exfalso.
    + subst. apply H1. eapply in_firstn; eauto.
    + subst. apply H1. eapply in_firstn; eauto.
    + apply I'. left; auto.
  - destruct (in_dec Z.eq_dec v (firstn n t)) as [I|I];
      destruct (in_dec Z.eq_dec v (c :: firstn n t)) as [I'|I']; try lra; exfalso.
    + apply I'. right; auto.
    + destruct I' as [I'|I']; [congruence|auto].
Qed.

Lemma FH_binarize_spec : forall classes y, NoDup classes -> (3 <= length classes)%nat ->
  FH_binarize classes y = Val (map (fun v => map (fun i => if in_dec Z.eq_dec v (firstn (S i) classes) then 1 else 0)
                                                 (seq 0 (length classes))) y).
Proof.
  intros classes y N L. unfold FH_binarize. destruct (Nat.eqb_spec (length classes) 2); [lia|].
  rewrite label_binarize_many by auto. f_equal. rewrite map_map. apply map_ext. intros v.
  apply map_ext. intros i. apply indicator_sum; auto.
Qed.

Lemma in_firstn_among : forall classes i v, In v (firstn (S i) classes) <-> among_first classes i v.
Proof.
  intros classes i v. unfold among_first. split.
  - intros H. apply In_nth_error in H. destruct H as [j E].
    assert (j < length (firstn (S i) classes))%nat by (apply nth_error_Some; congruence).
    rewrite firstn_length in H. exists j. split; [lia|]. rewrite <- E.
    rewrite <- (firstn_skipn (S i) classes) at 1. rewrite nth_error_app1; auto. rewrite firstn_length. auto.
  - intros [j [Hj E]]. assert (j < length classes)%nat by (apply nth_error_Some; congruence).
    apply nth_error_In with j. rewrite <- (firstn_skipn (S i) classes) in E.
    rewrite nth_error_app1 in E; auto. rewrite firstn_length. lia.
Qed.

Lemma FH_binarize_entries : forall y, (3 <= length (np_unique y))%nat ->
  exists m, FH_binarize (np_unique y) y = Val m /\ length m = length y /\
    forall k v, nth_error y k = Some v -> exists row, nth_error m k = Some row /\
      length row = length (np_unique y) /\
      (forall i, (i < length (np_unique y))%nat ->
         (among_first (np_unique y) i v -> nth i row 0 = 1) /\
         (~ among_first (np_unique y) i v -> nth i row 0 = 0)) /\
      nth (length (np_unique y) - 1) row 0 = 1.
Proof.
  intros y L. rewrite FH_binarize_spec by (auto; apply np_unique_NoDup).
  eexists. split; [reflexivity|]. rewrite map_length. split; auto.
  intros k v E. rewrite nth_error_map, E. simpl. eexists. split; [reflexivity|].
  rewrite map_length, seq_length. split; auto.
  set (f := fun i => if in_dec Z.eq_dec v (firstn (S i) (np_unique y)) then 1 else 0).
  assert (V : forall i, (i < length (np_unique y))%nat -> nth i (map f (seq 0 (length (np_unique y)))) 0 = f i).
  { intros i Hi. rewrite (nth_indep _ 0 (f O)) by (rewrite map_length, seq_length; auto).
    rewrite map_nth, seq_nth by auto. auto. }
  split.
  - intros i Hi. rewrite V by auto. unfold f. rewrite <- in_firstn_among.
    destruct (in_dec Z.eq_dec v (firstn (S i) (np_unique y))); split; intros; tauto.
  - rewrite V by lia. unfold f. destruct (in_dec Z.eq_dec v _) as [I|I]; auto. exfalso. apply I.
    rewrite firstn_all2 by lia. apply np_unique_in. eapply nth_error_In; eauto.
Qed.

Lemma FH_binarize_two : forall classes y, length classes = 2%nat -> FH_binarize classes y = Err IndexError.
Proof. intros classes y H. unfold FH_binarize. rewrite H. reflexivity. Qed.
