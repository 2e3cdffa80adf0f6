(** * Proofs about cross_validation.py. *)

From Coq Require Import Reals List ZArith Lia Lra Bool Permutation.
From Verif Require Import Num Spec M_Baselines M_Estimators Spec_Estimators L_Num L_Ordinal2.
Import ListNotations.
Open Scope R_scope.

(** ** Lists *)

Lemma set_nth_length : forall (A : Type) (l : list A) i v, length (set_nth i v l) = length l.
Proof. induction l; intros [|i] v; simpl; auto. Qed.

Lemma set_nth_same : forall (A : Type) (l : list A) i v, (i < length l)%nat -> nth_error (set_nth i v l) i = Some v.
Proof. induction l; intros [|i] v H; simpl in *; try lia; auto. apply IHl; lia. Qed.

Lemma set_nth_other : forall (A : Type) (l : list A) i j v, i <> j -> nth_error (set_nth i v l) j = nth_error l j.
Proof. induction l; intros [|i] [|j] v H; simpl; auto; try congruence. Qed.

Lemma pick_length : forall (A : Type) (l : list A) idx, Forall (fun i => (i < length l)%nat) idx ->
  length (pick l idx) = length idx.
Proof.
  induction idx as [|i idx IH]; intros H; auto. inversion H; subst. unfold pick in *. cbn [flat_map].
  destruct (nth_error l i) eqn:E; [|apply nth_error_None in E; lia]. simpl. rewrite IH; auto.
Qed.

Lemma pick_nth : forall (A : Type) (l : list A) idx, Forall (fun i => (i < length l)%nat) idx -> forall k i,
  nth_error idx k = Some i -> nth_error (pick l idx) k = nth_error l i.
Proof.
  induction idx as [|i0 idx IH]; intros H k i Hk; [destruct k; discriminate|]. inversion H; subst. unfold pick in *. cbn [flat_map].
  destruct (nth_error l i0) eqn:E; [|apply nth_error_None in E; lia]. destruct k; simpl in *.
  - inversion Hk; subst. auto.
  - apply IH; auto.
Qed.

Lemma put_rows_length : forall idx rows b, length (put_rows b idx rows) = length b.
Proof. induction idx; intros [|r rows] b; simpl; auto. rewrite IHidx. apply set_nth_length. Qed.

Lemma put_rows_other : forall idx rows b e, ~ In e idx -> nth_error (put_rows b idx rows) e = nth_error b e.
Proof.
  induction idx; intros [|r rows] b e H; simpl; auto. rewrite IHidx by (intro; apply H; right; auto).
  apply set_nth_other. intro; subst; apply H; left; auto.
Qed.

Lemma put_rows_same : forall idx rows b k e r, NoDup idx -> (e < length b)%nat -> nth_error idx k = Some e ->
  nth_error rows k = Some r -> nth_error (put_rows b idx rows) e = Some r.
Proof.
  induction idx; intros rows b k e r N He Hk Hr; [destruct k; discriminate|].
  destruct rows as [|r0 rows]; [destruct k; discriminate|]. inversion N; subst. simpl. destruct k; simpl in *.
  - inversion Hk; inversion Hr; subst. rewrite put_rows_other by auto. apply set_nth_same; auto.
  - eapply IHidx; eauto. rewrite set_nth_length; auto.
Qed.

(** ** The loop over the folds *)

Section Loop.
  Context {X M : Type} (A : learner X M) (x : list X) (y : list Z).

  Definition fold_model (f : fold_t) : M := p_learn A (pick x (fst f)) (pick y (fst f)).

  Definition put_group (block : list (list R)) (g : list fold_t) : list (list R) :=
    fold_left (fun b f => put_rows b (snd f) (map (p_row A (fold_model f)) (pick x (snd f)))) g block.

  Lemma put_group_length : forall g b, length (put_group b g) = length b.
  Proof. induction g; intros; simpl; auto. unfold put_group in *. cbn [fold_left]. rewrite IHg. apply put_rows_length. Qed.

  Lemma put_group_other : forall g b e, ~ In e (concat (map snd g)) -> nth_error (put_group b g) e = nth_error b e.
  Proof.
    induction g as [|f g IH]; intros b e H; auto. unfold put_group in *. cbn [fold_left]. simpl in H. rewrite in_app_iff in H.
    rewrite IH by tauto. apply put_rows_other. tauto.
  Qed.

  Lemma nodup_app : forall (B : Type) (l1 l2 : list B), NoDup (l1 ++ l2) -> NoDup l1 /\ NoDup l2 /\ forall e, In e l1 -> ~ In e l2.
  Proof.
    induction l1; intros l2 H; simpl in *; [repeat split; auto; constructor|]. inversion H; subst. apply IHl1 in H3.
    destruct H3 as [H3 [H4 H5]]. rewrite in_app_iff in H2. repeat split; auto.
    - constructor; tauto.
    - intros e [->|He]; [tauto|auto].
  Qed.

  Lemma put_group_same : forall g b e f, NoDup (concat (map snd g)) -> (e < length b)%nat ->
    Forall (fun i => (i < length x)%nat) (concat (map snd g)) -> In f g -> In e (snd f) ->
    nth_error (put_group b g) e = option_map (p_row A (fold_model f)) (nth_error x e).
  Proof.
    induction g as [|f0 g IH]; intros b e f N He F Hf Hin; [destruct Hf|]. simpl in N, F. apply nodup_app in N.
    destruct N as [N1 [N2 N3]]. apply Forall_app in F. destruct F as [F1 F2]. unfold put_group. cbn [fold_left].
    destruct (in_dec Nat.eq_dec e (snd f0)) as [I|I].
    - assert (f = f0).
      { destruct Hf as [Hf|Hf]; auto. exfalso. apply (N3 e I). apply in_concat. exists (snd f). split; auto. apply in_map; auto. }
      subst f0. change (nth_error (put_group (put_rows b (snd f) (map (p_row A (fold_model f)) (pick x (snd f)))) g) e =
        option_map (p_row A (fold_model f)) (nth_error x e)).
      rewrite put_group_other by (apply N3; auto).
      apply In_nth_error in I. destruct I as [k Hk]. pose proof (pick_nth _ x _ F1 k e Hk) as P.
      assert (Hex : (e < length x)%nat) by (rewrite Forall_forall in F1; apply F1; eapply nth_error_In; eauto).
      destruct (nth_error x e) as [v|] eqn:Ev; [|apply nth_error_None in Ev; lia].
      cbn [option_map]. eapply put_rows_same; eauto. rewrite nth_error_map, P. auto.
    - destruct Hf as [->|Hf]; [contradiction|]. apply IH; auto. rewrite put_rows_length; auto.
  Qed.

  Lemma loop_group : forall n g ms ts n_rep n_preds preds, g <> [] -> Forall (fun f => snd f <> []) g ->
    (n_preds + length (concat (map snd g)) = n)%nat -> (n_rep < length preds)%nat ->
    cv_loop A x n (map fold_model g ++ ms) (map snd g ++ ts) n_rep n_preds preds =
    cv_loop A x n ms ts (S n_rep) 0 (set_nth n_rep (put_group (nth n_rep preds []) g) preds).
  Proof.
    intros n. induction g as [|f g IH]; intros ms ts n_rep n_preds preds Hg F Hn Hr; [congruence|].
    pose proof (Forall_inv F) as F1. pose proof (Forall_inv_tail F) as F2. cbn [map app cv_loop].
    replace (Nat.ltb n_rep (length preds)) with true by (symmetry; apply Nat.ltb_lt; auto).
    cbn [map concat] in Hn. rewrite app_length in Hn. destruct g as [|f2 g].
    - simpl in Hn. replace (n_preds + length (snd f))%nat with n by lia. rewrite Nat.eqb_refl. reflexivity.
    - assert (length (concat (map snd (f2 :: g))) <> O).
      { inversion F2; subst. simpl. rewrite app_length. destruct (snd f2); [congruence|simpl; lia]. }
      match goal with |- context[Nat.eqb ?a ?b] => replace (Nat.eqb a b) with false by (symmetry; apply Nat.eqb_neq; lia) end.
      rewrite IH; auto; [|discriminate|lia|rewrite set_nth_length; auto].
      f_equal. change (put_group (nth n_rep preds []) (f :: f2 :: g)) with
        (put_group (put_rows (nth n_rep preds []) (snd f) (map (p_row A (fold_model f)) (pick x (snd f)))) (f2 :: g)).
      set (b := put_rows _ _ _).
      assert (E : nth n_rep (set_nth n_rep b preds) [] = b) by (apply nth_error_nth, set_nth_same; auto).
      rewrite E. generalize (put_group b (f2 :: g)). clearbody b. intros c. clear. revert n_rep.
      induction preds; intros [|k]; simpl; auto. f_equal; auto.
  Qed.

  Lemma kfold_size : forall n g, kfold n g -> length (concat (map snd g)) = n.
  Proof. intros n g [_ [P _]]. rewrite (Permutation_length P). apply seq_length. Qed.

  Lemma kfold_tests : forall n g, kfold n g -> NoDup (concat (map snd g)) /\ (forall i, In i (concat (map snd g)) <-> (i < n)%nat).
  Proof.
    intros n g [_ [P _]]. split.
    - eapply Permutation_NoDup; [apply Permutation_sym; exact P|apply seq_NoDup].
    - intros i. split; intros H.
      + apply (Permutation_in _ P) in H. apply in_seq in H. lia.
      + apply (Permutation_in _ (Permutation_sym P)). apply in_seq. lia.
  Qed.

  Lemma loop_groups : forall n groups n_rep preds, Forall (kfold n) groups -> (n_rep + length groups <= length preds)%nat ->
    exists preds', cv_loop A x n (map fold_model (concat groups)) (map snd (concat groups)) n_rep 0 preds = Val preds' /\
      length preds' = length preds /\
      (forall r, (r < n_rep)%nat -> nth_error preds' r = nth_error preds r) /\
      (forall r g b, nth_error groups r = Some g -> nth_error preds (n_rep + r) = Some b ->
         nth_error preds' (n_rep + r) = Some (put_group b g)).
  Proof.
    intros n. induction groups as [|g groups IH]; intros n_rep preds F H.
    - exists preds. simpl. repeat split; auto. intros [|r] g b Hg; discriminate.
    - inversion F as [|? ? K F2]; subst. simpl (concat _). rewrite !map_app. simpl in H.
      destruct K as [K1 [K2 K3]]. rewrite loop_group; auto; try lia.
      2:{ eapply Forall_impl; [|exact K3]. intros f [Hf _]; auto. }
      2:{ simpl. apply kfold_size. split; auto. }
      destruct (IH (S n_rep) (set_nth n_rep (put_group (nth n_rep preds []) g) preds)) as [preds' [E [L [H1 H2]]]]; [exact F2| |].
      { rewrite set_nth_length. lia. }
      exists preds'. split; [exact E|]. rewrite set_nth_length in L. split; [auto|]. split.
      + intros r Hr. rewrite H1 by lia. apply set_nth_other. lia.
      + intros [|r] g0 b Hg Hb.
        * simpl in Hg. inversion Hg; subst. rewrite Nat.add_0_r in *. rewrite H1 by lia. rewrite set_nth_same by lia.
          rewrite (nth_error_nth _ _ _ Hb). auto.
        * replace (n_rep + S r)%nat with (S n_rep + r)%nat in * by lia. apply H2; auto. rewrite set_nth_other by lia. auto.
  Qed.
End Loop.

Lemma sum_tests : forall n groups, Forall (kfold n) groups ->
  list_sum (map (fun f : fold_t => length (snd f)) (concat groups)) = (length groups * n)%nat.
Proof.
  intros n. induction groups as [|g groups IH]; intros F; auto. inversion F as [|? ? K F2]; subst. simpl.
  rewrite map_app, list_sum_app, IH by auto. f_equal. rewrite <- (kfold_size n g K). clear.
  induction g; simpl; auto. rewrite app_length, IHg. auto.
Qed.

Lemma concat_nth_error : forall (B : Type) (blocks : list (list B)) n r e, Forall (fun b => length b = n) blocks -> (e < n)%nat ->
  nth_error (concat blocks) (r * n + e) = match nth_error blocks r with Some b => nth_error b e | None => None end.
Proof.
  induction blocks as [|b blocks IH]; intros n r e F He.
  - destruct r; simpl; [destruct e; auto|]. destruct (n + r * n + e)%nat; auto.
  - inversion F; subst. destruct r; simpl.
    + apply nth_error_app1; auto.
    + rewrite nth_error_app2 by lia. replace (length b + r * length b + e - length b)%nat with (r * length b + e)%nat by lia.
      apply IH; auto.
Qed.

Lemma concat_blocks_length : forall (B : Type) (blocks : list (list B)) n, Forall (fun b => length b = n) blocks ->
  length (concat blocks) = (length blocks * n)%nat.
Proof. induction blocks; intros n F; auto. inversion F; subst. simpl. rewrite app_length. rewrite (IHblocks (length a)); auto. Qed.

(** The raw predictions over the training set. *)
Lemma raw_training : forall (X M : Type) (A : learner X M) eqX (x : list X) (y : list Z) groups,
  eqX x x = true -> x <> [] -> Forall (kfold (length x)) groups ->
  exists blocks, CV_raw A eqX (CV_fit A x y (concat groups)) (concat groups) (concat groups) x = Val blocks /\
    length blocks = length groups /\ Forall (fun b => length b = length x) blocks /\
    forall r g e f v, nth_error groups r = Some g -> nth_error x e = Some v -> In f g -> In e (snd f) ->
      exists b, nth_error blocks r = Some b /\ nth_error b e = Some (fold_answer A x y f v).
Proof.
  intros X M A eqX x y groups Heq Hx F. unfold CV_raw. cbn [CV_fit cv_X cv_classes cv_estimators]. rewrite Heq.
  assert (Hn : length x <> O) by (destruct x; [congruence|discriminate]).
  rewrite (sum_tests (length x)) by auto. rewrite Nat.div_mul by auto.
  set (zero := repeat (repeat 0 (length (np_unique y))) (length x)).
  destruct (loop_groups A x y (length x) groups 0 (repeat zero (length groups)) F) as [blocks [E [L [_ H]]]].
  { rewrite repeat_length. simpl. lia. }
  rewrite repeat_length in L. exists blocks. split; [exact E|]. split; [auto|].
  assert (B : forall r g, nth_error groups r = Some g -> nth_error blocks r = Some (put_group A x y zero g)).
  { intros r g Hg. apply (H r g zero Hg). apply nth_error_repeat. simpl. apply nth_error_Some. congruence. }
  split.
  - apply Forall_forall. intros b Hb. apply In_nth_error in Hb. destruct Hb as [r Hr].
    destruct (nth_error groups r) as [g|] eqn:Eg.
    + rewrite (B r g Eg) in Hr. inversion Hr. rewrite put_group_length. unfold zero. apply repeat_length.
    + apply nth_error_None in Eg. assert (r < length blocks)%nat by (apply nth_error_Some; congruence). lia.
  - intros r g e f v Hg Hv Hf He. exists (put_group A x y zero g). split; [apply B; auto|].
    rewrite Forall_forall in F. assert (K := F g (nth_error_In _ _ Hg)). destruct (kfold_tests _ _ K) as [K1 K2].
    assert (Hex : (e < length x)%nat) by (apply nth_error_Some; congruence).
    rewrite (put_group_same A x y g zero e f); auto.
    + rewrite Hv. reflexivity.
    + unfold zero. rewrite repeat_length. auto.
    + apply Forall_forall. intros i Hi. apply K2; auto.
Qed.

Lemma some_fold : forall n g e, kfold n g -> (e < n)%nat -> exists f, In f g /\ In e (snd f) /\ ~ In e (fst f).
Proof.
  intros n g e K He. destruct (kfold_tests n g K) as [_ T]. apply T in He. apply in_concat in He.
  destruct He as [t [Ht Hin]]. apply in_map_iff in Ht. destruct Ht as [f [<- Hf]]. exists f. split; auto. split; auto.
  destruct K as [_ [_ K]]. rewrite Forall_forall in K. destruct (K f Hf) as [_ K2]. intro Hin2. destruct (K2 e Hin2). auto.
Qed.

(** C38 *)
Theorem cv_out_of_fold : forall (X M : Type) (A : learner X M) eqX (x : list X) (y : list Z) groups,
  eqX x x = true -> x <> [] -> groups <> [] -> Forall (kfold (length x)) groups ->
  let s := CV_fit A x y (concat groups) in
  exists rows, CV_predict_proba A eqX false s (concat groups) (concat groups) x = Val rows /\
    length rows = (length groups * length x)%nat /\
    forall r g e v, nth_error groups r = Some g -> nth_error x e = Some v ->
      exists f, In f g /\ In e (snd f) /\ ~ In e (fst f) /\
        nth_error rows (r * length x + e) = Some (fold_answer A x y f v).
Proof.
  intros X M A eqX x y groups Heq Hx Hg F s. destruct (raw_training X M A eqX x y groups Heq Hx F) as [blocks [E [L [FL H]]]].
  exists (concat blocks). unfold CV_predict_proba.
  assert (cv_estimators s <> []).
  { unfold s. cbn [CV_fit cv_estimators]. destruct groups as [|g0 gs]; [congruence|]. inversion F as [|? ? [K _] _]; subst.
    destruct g0; [congruence|discriminate]. }
  destruct (cv_estimators s); [congruence|]. unfold s. rewrite E. cbn [obind]. split; [auto|].
  rewrite (concat_blocks_length _ _ _ FL), L. split; [auto|].
  intros r g e v Hr Hv. assert (He : (e < length x)%nat) by (apply nth_error_Some; congruence).
  rewrite Forall_forall in F. destruct (some_fold _ _ _ (F g (nth_error_In _ _ Hr)) He) as [f [Hf [H1 H2]]].
  exists f. repeat split; auto. destruct (H r g e f v Hr Hv Hf H1) as [b [Hb Hbe]].
  rewrite (concat_nth_error _ _ _ r e FL He), Hb. auto.
Qed.

(** The folds are disjoint, so the fold is the only one that tests the example. *)
Lemma only_fold : forall n g e f f', kfold n g -> In f g -> In f' g -> In e (snd f) -> In e (snd f') -> snd f = snd f'.
Proof.
  intros n g e f f' K Hf Hf' He He'. destruct (kfold_tests n g K) as [N _]. clear K. induction g as [|f0 g IH]; [destruct Hf|].
  simpl in N. apply nodup_app in N. destruct N as [N1 [N2 N3]].
  assert (Z : forall f1, In f1 g -> In e (snd f1) -> In e (concat (map snd g))).
  { intros f1 H1 H2. apply in_concat. exists (snd f1). split; auto. apply in_map; auto. }
  destruct Hf as [->|Hf], Hf' as [->|Hf']; auto.
  - exfalso. apply (N3 e He). eauto.
  - exfalso. apply (N3 e He'). eauto.
Qed.
