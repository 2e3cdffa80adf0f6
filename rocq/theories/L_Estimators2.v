(** * Proofs about cross_validation.py: alignment and votes. *)

From Coq Require Import Reals List ZArith Lia Lra Bool Permutation.
From Verif Require Import Num Spec M_Baselines M_Estimators Spec_Estimators L_Num L_Ordinal2 L_Estimators.
Import ListNotations.
Open Scope R_scope.

Lemma y_ext_nth : forall (y : list Z) reps r e, y <> [] -> (r < reps)%nat -> (e < length y)%nat ->
  nth_error (y_ext y (reps * length y)) (r * length y + e) = nth_error y e.
Proof.
  intros y reps r e Hy Hr He. unfold y_ext. destruct (Nat.eqb_spec (length y) (reps * length y)) as [E|E].
  - assert (reps = 1%nat) by nia. assert (r = O) by lia. subst. auto.
  - rewrite Nat.div_mul by lia. rewrite (concat_nth_error _ (repeat y reps) (length y)); auto.
    + rewrite nth_error_repeat; auto.
    + apply Forall_forall. intros b Hb. apply repeat_spec in Hb. subst; auto.
Qed.

Lemma y_ext_length : forall (y : list Z) reps, y <> [] -> length (y_ext y (reps * length y)) = (reps * length y)%nat.
Proof.
  intros y reps Hy. unfold y_ext. destruct (Nat.eqb_spec (length y) (reps * length y)) as [E|E]; auto.
  assert (length y <> O) by (destruct y; [congruence|discriminate]).
  rewrite Nat.div_mul by auto. rewrite (concat_blocks_length _ _ (length y)).
  - rewrite repeat_length; auto.
  - apply Forall_forall. intros b Hb. apply repeat_spec in Hb. subst; auto.
Qed.

(** C39 *)
Theorem cv_aligned : forall (X M : Type) (A : learner X M) eqX (x : list X) (y : list Z) groups,
  eqX x x = true -> x <> [] -> length y = length x -> groups <> [] -> Forall (kfold (length x)) groups ->
  let s := CV_fit A x y (concat groups) in
  exists rows, CV_predict_proba A eqX false s (concat groups) (concat groups) x = Val rows /\
    length rows = (length groups * length x)%nat /\
    length (y_ext y (length rows)) = length rows /\
    forall i, (i < length rows)%nat -> exists v c f,
      nth_error x (i mod length x) = Some v /\ nth_error y (i mod length x) = Some c /\
      In f (nth (i / length x) groups []) /\ In (i mod length x) (snd f) /\
      nth_error rows i = Some (fold_answer A x y f v) /\ nth_error (y_ext y (length rows)) i = Some c.
Proof.
  intros X M A eqX x y groups Heq Hx Ly Hg F s.
  destruct (cv_out_of_fold X M A eqX x y groups Heq Hx Hg F) as [rows [E [L H]]].
  assert (Hn : length x <> O) by (destruct x; [congruence|discriminate]).
  assert (Hy : y <> []) by (intro; subst y; simpl in Ly; congruence).
  exists rows. split; [exact E|]. split; [auto|]. rewrite L. split; [rewrite <- Ly; apply y_ext_length; auto|].
  intros i Hi. set (e := (i mod length x)%nat). set (r := (i / length x)%nat).
  assert (He : (e < length x)%nat) by (apply Nat.mod_upper_bound; auto).
  assert (Hr : (r < length groups)%nat) by (apply Nat.div_lt_upper_bound; auto; rewrite Nat.mul_comm; auto).
  assert (Ei : i = (r * length x + e)%nat) by (unfold r, e; rewrite Nat.mul_comm; apply Nat.div_mod; auto).
  destruct (nth_error x e) as [v|] eqn:Ev; [|apply nth_error_None in Ev; lia].
  destruct (nth_error y e) as [c|] eqn:Ec; [|apply nth_error_None in Ec; lia].
  destruct (H r (nth r groups []) e v) as [f [H1 [H2 [H3 H4]]]]; auto.
  { apply nth_error_nth'; auto. }
  exists v, c, f. repeat split; auto; rewrite Ei; auto.
  rewrite <- Ly. rewrite y_ext_nth; auto. lia.
Qed.

(** Over another sample, each estimator gives one block of rows, in the order of the sample. *)
Theorem cv_test_rows : forall (X M : Type) (A : learner X M) eqX (s : cv_fitted X M) f1 f2 (x : list X),
  eqX x (cv_X s) = false -> cv_estimators s <> [] ->
  exists rows, CV_predict_proba A eqX false s f1 f2 x = Val rows /\
    length rows = (length (cv_estimators s) * length x)%nat /\
    forall r e m v, nth_error (cv_estimators s) r = Some m -> nth_error x e = Some v ->
      nth_error rows (r * length x + e) = Some (p_row A m v).
Proof.
  intros X M A eqX s f1 f2 x Heq Hs. unfold CV_predict_proba, CV_raw. rewrite Heq.
  assert (FL : Forall (fun b => length b = length x) (map (fun m => map (p_row A m) x) (cv_estimators s))).
  { apply Forall_forall. intros b Hb. apply in_map_iff in Hb. destruct Hb as [m [<- _]]. apply map_length. }
  destruct (cv_estimators s) as [|m0 ms] eqn:Es; [congruence|]. cbn [obind]. eexists. split; [reflexivity|].
  rewrite (concat_blocks_length _ _ _ FL), map_length. split; auto.
  intros r e m v Hm Hv. rewrite (concat_nth_error _ _ _ r e FL) by (apply nth_error_Some; congruence).
  rewrite nth_error_map, Hm. cbn [option_map]. rewrite nth_error_map, Hv. auto.
Qed.

(** ** Combining the rows of an example *)

Lemma cv_loop_lengths : forall (X M : Type) (A : learner X M) x n k tests models n_rep n_preds preds res,
  cv_loop A x n models tests n_rep n_preds preds = Val res ->
  Forall (fun b => length b = k) preds -> Forall (fun b => length b = k) res.
Proof.
  intros X M A x n k. induction tests as [|t tests IH]; intros models n_rep n_preds preds res E F; cbn [cv_loop] in E.
  - inversion E; subst; auto.
  - destruct models as [|m models]; [discriminate|]. destruct (Nat.ltb_spec n_rep (length preds)) as [Hlt|]; [|discriminate].
    assert (F2 : Forall (fun b => length b = k)
      (set_nth n_rep (put_rows (nth n_rep preds []) t (map (p_row A m) (pick x t))) preds)).
    { apply Forall_forall. intros b Hb. apply In_nth_error in Hb. destruct Hb as [j Hj].
      destruct (Nat.eq_dec n_rep j) as [->|Hne].
      - rewrite set_nth_same in Hj by auto. inversion Hj. rewrite put_rows_length.
        rewrite Forall_forall in F. apply F, nth_In; auto.
      - rewrite set_nth_other in Hj by auto. rewrite Forall_forall in F. apply F. eapply nth_error_In; eauto. }
    destruct (Nat.eqb _ _); eapply IH; eauto.
Qed.

Lemma raw_lengths : forall (X M : Type) (A : learner X M) eqX (s : cv_fitted X M) f1 f2 x blocks,
  CV_raw A eqX s f1 f2 x = Val blocks -> Forall (fun b => length b = length x) blocks.
Proof.
  intros X M A eqX s f1 f2 x blocks E. unfold CV_raw in E. destruct (eqX x (cv_X s)).
  - eapply cv_loop_lengths; [exact E|]. apply Forall_forall. intros b Hb. apply repeat_spec in Hb. subst. apply repeat_length.
  - inversion E. apply Forall_forall. intros b Hb. apply in_map_iff in Hb. destruct Hb as [m [<- _]]. apply map_length.
Qed.

Lemma rows_of_blocks : forall (blocks : list (list (list R))) n e, Forall (fun b => length b = n) blocks -> (e < n)%nat ->
  map (fun b => nth e b []) blocks = rows_of n (length blocks) (concat blocks) e.
Proof.
  intros blocks n e F He. unfold rows_of. apply nth_ext with (d := nth e (@nil (list R)) []) (d' := nth (0 * n + e) (concat blocks) []).
  - rewrite !map_length, seq_length. auto.
  - intros r Hr. rewrite map_length in Hr. rewrite (map_nth (fun b => nth e b []) blocks []).
    rewrite (map_nth (fun r => nth (r * n + e) (concat blocks) []) (seq 0 (length blocks)) 0%nat), seq_nth by auto. simpl (0 + r)%nat.
    pose proof (concat_nth_error _ blocks n r e F He) as C.
    destruct (nth_error blocks r) as [b|] eqn:Eb; [|apply nth_error_None in Eb; lia].
    rewrite (nth_error_nth _ _ _ Eb). assert (Lb : length b = n).
    { rewrite Forall_forall in F. apply F. eapply nth_error_In; eauto. }
    rewrite (nth_error_nth' b []) in C by lia. symmetry. apply nth_error_nth. exact C.
Qed.

Lemma argmax_first_max : forall row, row <> [] -> first_max row (argmax row).
Proof. intros row H. unfold first_max. apply argmax_spec; auto. Qed.

Lemma first_max_unique : forall row i j, first_max row i -> first_max row j -> i = j.
Proof.
  intros row i j [A1 [A2 A3]] [B1 [B2 B3]]. destruct (lt_eq_lt_dec i j) as [[H|H]|H]; auto.
  - specialize (B3 i H). specialize (A2 j B1). lra.
  - specialize (A3 j H). specialize (B2 i A1). lra.
Qed.

Lemma bincount_nth : forall k votes i, (i < k)%nat -> nth i (bincount k votes) 0 = INR (count_occ Nat.eq_dec votes i).
Proof. intros k votes i H. exact (tabulate_nth k (fun c => INR (count_occ Nat.eq_dec votes c)) i 0 H). Qed.

Lemma bincount_length : forall k votes, length (bincount k votes) = k.
Proof. intros. unfold bincount. rewrite map_length, seq_length. auto. Qed.

Lemma most_voted_argmax : forall k rows, (0 < k)%nat -> Forall (fun r => length r = k) rows ->
  most_voted k rows (argmax (bincount k (map argmax rows))).
Proof.
  intros k rows Hk F. exists (map argmax rows). set (votes := map argmax rows). split.
  - unfold votes. clear -Hk F. induction F as [|r rows Hr F IH]; simpl; constructor; auto.
    apply argmax_first_max. destruct r; [simpl in Hr; lia|discriminate].
  - destruct (argmax_first_max (bincount k votes)) as [H1 [H2 H3]].
    { intro H. pose proof (bincount_length k votes) as L. rewrite H in L. simpl in L. lia. }
    rewrite bincount_length in *. split; [auto|]. split.
    + intros i Hi. specialize (H2 i Hi). rewrite !bincount_nth in H2 by auto. apply INR_le; auto.
    + intros i Hi. specialize (H3 i Hi). rewrite !bincount_nth in H3 by lia. apply INR_lt; auto.
Qed.

Lemma nth_tab : forall (B : Type) (f : nat -> B) n e d, (e < n)%nat -> nth e (map f (seq 0 n)) d = f e.
Proof. intros. exact (tabulate_nth n f e d H). Qed.

(** C40 *)
Theorem cv_combines : forall (X M : Type) (A : learner X M) eqX (s : cv_fitted X M) f1 f2 (x : list X) rows,
  x <> [] -> cv_classes s <> [] ->
  CV_predict_proba A eqX false s f1 f2 x = Val rows -> rows <> [] ->
  Forall (fun r => length r = length (cv_classes s)) rows ->
  let n := length x in let k := length (cv_classes s) in
  exists reps avg hard soft each, (0 < reps)%nat /\ length rows = (reps * n)%nat /\
    CV_predict_proba A eqX true s f1 f2 x = Val avg /\ length avg = n /\
    CV_predict A eqX true false s f1 f2 x = Val hard /\ length hard = n /\
    CV_predict A eqX true true s f1 f2 x = Val soft /\ length soft = n /\
    (forall sft, CV_predict A eqX false sft s f1 f2 x = Val each) /\ length each = (reps * n)%nat /\
    (forall e, (e < n)%nat ->
       length (nth e avg []) = k /\
       (forall j, (j < k)%nat -> nth j (nth e avg []) 0 = rmean (map (fun r => nth j r 0) (rows_of n reps rows e))) /\
       (distributions k (rows_of n reps rows e) -> distribution_over k (nth e avg [])) /\
       (exists j, most_voted k (rows_of n reps rows e) j /\ nth e hard 0%Z = nth j (cv_classes s) 0%Z) /\
       (exists j, first_max (nth e avg []) j /\ nth e soft 0%Z = nth j (cv_classes s) 0%Z)) /\
    (forall i, (i < reps * n)%nat -> exists j, first_max (nth i rows []) j /\ nth i each 0%Z = nth j (cv_classes s) 0%Z).
Proof.
  intros X M A eqX s f1 f2 x rows Hx Hc E Hrows Fk n k.
  assert (Hk : (0 < k)%nat) by (unfold k; destruct (cv_classes s); [congruence|simpl; lia]).
  assert (Hn : (0 < n)%nat) by (unfold n; destruct x; [congruence|simpl; lia]).
  unfold CV_predict_proba, CV_predict in *. destruct (cv_estimators s) as [|m ms]; [discriminate|].
  destruct (CV_raw A eqX s f1 f2 x) as [blocks|er|] eqn:Er; cbn [obind omap] in *; try discriminate.
  pose proof (raw_lengths _ _ _ _ _ _ _ _ _ Er) as FL.
  assert (Erows : rows = concat blocks) by congruence. clear E. subst rows. fold n in FL.
  assert (Hb : blocks <> []) by (intro; subst; apply Hrows; auto).
  assert (MB : mean_blocks (length (cv_classes s)) (length x) blocks =
     Val (map (fun e => col_means k (map (fun block => nth e block []) blocks)) (seq 0 n))).
  { unfold mean_blocks. destruct blocks; [congruence|reflexivity]. }
  rewrite MB. cbn [omap].
  assert (RL : forall e, (e < n)%nat -> Forall (fun r => length r = k) (map (fun b => nth e b []) blocks)).
  { intros e He. apply Forall_forall. intros r Hr. apply in_map_iff in Hr. destruct Hr as [b [<- Hb2]].
    rewrite Forall_forall in Fk. apply Fk. apply in_concat. exists b. split; auto. apply nth_In.
    rewrite Forall_forall in FL. rewrite FL; auto. }
  exists (length blocks), (map (fun e => col_means k (map (fun block => nth e block []) blocks)) (seq 0 n)).
  eexists _, _, _. split; [destruct blocks; [congruence|simpl; lia]|].
  split; [apply concat_blocks_length; auto|]. split; [reflexivity|].
  split; [rewrite map_length, seq_length; auto|]. split; [reflexivity|].
  split; [rewrite map_length, seq_length; auto|]. split; [reflexivity|].
  split; [rewrite !map_length, seq_length; auto|]. split; [reflexivity|].
  split; [rewrite map_length; apply concat_blocks_length; auto|]. split.
  - intros e He. rewrite !(nth_tab (list R)) by auto. fold n. rewrite (nth_tab Z) by auto. rewrite map_map. rewrite (nth_tab Z) by auto.
    rewrite <- (rows_of_blocks blocks n e FL He). specialize (RL e He).
    set (rs := map (fun b => nth e b []) blocks) in *.
    assert (Hrs : rs <> []) by (unfold rs; destruct blocks; [congruence|discriminate]).
    split; [apply col_means_length|]. split; [|split; [|split]].
    + intros j Hj. exact (tabulate_nth k (fun j => rmean (col j rs)) j 0 Hj).
    + intros D. apply distribution_over_col_means; auto.
    + exists (argmax (bincount k (map (fun block => argmax (nth e block [])) blocks))). split; [|reflexivity].
      replace (map (fun block => argmax (nth e block [])) blocks) with (map argmax rs) by (unfold rs; rewrite map_map; auto).
      apply most_voted_argmax; auto.
    + exists (argmax (col_means k rs)). split; [|reflexivity]. apply argmax_first_max.
      intro Z. pose proof (col_means_length k rs) as L. rewrite Z in L. simpl in L. lia.
  - intros i Hi. rewrite <- (concat_blocks_length _ blocks n FL) in Hi.
    exists (argmax (nth i (concat blocks) [])). split.
    + apply argmax_first_max. rewrite Forall_forall in Fk. specialize (Fk _ (@nth_In _ i (concat blocks) [] Hi)).
      intro Z. rewrite Z in Fk. simpl in Fk. fold k in Fk. lia.
    + rewrite (nth_indep _ 0%Z (nth (argmax []) (cv_classes s) 0%Z)) by (rewrite map_length; auto).
      exact (map_nth (fun r => nth (argmax r) (cv_classes s) 0%Z) (concat blocks) [] i).
Qed.

(** An unfitted CV_estimator. *)
Theorem cv_not_fitted : forall (X M : Type) (A : learner X M) eqX averaged soft (s : cv_fitted X M) f1 f2 x,
  cv_estimators s = [] -> CV_predict_proba A eqX averaged s f1 f2 x = Err NotFittedError /\
                          CV_predict A eqX averaged soft s f1 f2 x = Err NotFittedError.
Proof. intros. unfold CV_predict_proba, CV_predict. rewrite H. auto. Qed.

(** ** A learner that remembers the examples it has seen. *)
Definition memory : learner nat (list nat) :=
  {| p_learn := fun x _ => x; p_row := fun m v => if in_dec Nat.eq_dec v m then [1; 0] else [0; 1] |}.
Definition eq_nats (a b : list nat) : bool := if list_eq_dec Nat.eq_dec a b then true else false.

Lemma two_folds : kfold 2 [([1], [0]); ([0], [1])]%nat /\ kfold 2 [([0], [1]); ([1], [0])]%nat.
Proof.
  split; split; try discriminate; split; simpl.
  - apply Permutation_refl.
  - repeat apply Forall_cons; try apply Forall_nil; simpl; (split; [discriminate|]); intros i Hi; intuition lia.
  - apply perm_swap.
  - repeat apply Forall_cons; try apply Forall_nil; simpl; (split; [discriminate|]); intros i Hi; intuition lia.
Qed.

(** If cv gives other folds the second time, the predictions come from models trained on the example. *)
Theorem shuffled_folds_leak : exists (X M : Type) (A : learner X M) (eqX : list X -> list X -> bool) (x : list X) (y : list Z) folds folds',
  eqX x x = true /\ kfold (length x) folds /\ kfold (length x) folds' /\
  CV_predict_proba A eqX false (CV_fit A x y folds) folds folds x = Val [[0; 1]; [0; 1]] /\
  CV_predict_proba A eqX false (CV_fit A x y folds) folds' folds' x = Val [[1; 0]; [1; 0]].
Proof.
  exists nat, (list nat), memory, eq_nats, [7; 8]%nat, [0; 1]%Z, [([1], [0]); ([0], [1])]%nat, [([0], [1]); ([1], [0])]%nat.
  split; [reflexivity|]. split; [apply two_folds|]. split; [apply two_folds|]. split; reflexivity.
Qed.
