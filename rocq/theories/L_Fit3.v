(** * Proofs about fitting: the tree classifier and AC. *)

From Coq Require Import Reals List ZArith Bool Lia Lra Permutation.
From Verif Require Import Num Spec M_Baselines M_Base M_Ordinal M_Estimators M_Optim M_History M_Fit Spec_Ordinal Spec_Fit
  L_Num L_Baselines L_Ordinal2 L_Ordinal3 L_Fit L_Fit2 L_History2.
Import ListNotations.
Open Scope R_scope.

Local Hint Resolve raises_err raises_nan : core.

(** ** FrankAndHallTreeClassifier *)
Section Tree.
Context {X Pm Ob : Type} (E : estimator_class X Pm Ob) (measure : R -> R -> R) (accepted : list X -> list Z -> bool).

Theorem FHT_fit_result order x y s store store' s' : FHT_object_fit E measure accepted order x y s store = (store', s', Val tt) ->
  FH_fit E accepted order x y (ft_base s) store = (store', ft_base s', Val tt) /\
  exists left tree, FH_binary_proba E store' (ft_base s') x = Val left /\ ft_tree s' = Some tree /\
    in_order tree = seq 0 (n_problems y) /\
    exists scores, length scores = n_problems y /\ best_first scores tree /\
      forall i c, (i < n_problems y)%nat -> nth_error (np_unique y) i = Some c ->
        nth i scores 0 = measure (1 - rmean (map IZR (up_to c y))) (rmean (col i left)).
Proof.
  unfold FHT_object_fit. destruct (FH_fit E accepted order x y (ft_base s) store) as [[st base] r] eqn:F.
  destruct r as [[]|er|]; [|discriminate..].
  destruct (FH_fit_inv E accepted _ _ _ _ _ _ _ F) as (_ & Hy & H2 & _).
  destruct (FH_binary_proba E st base x) as [left|er|] eqn:B; [|discriminate..]. cbn [obind].
  destruct (FHT_fit measure (np_unique y) y left) as [tree|er|] eqn:T; [|discriminate..].
  intros [= <- <-]. cbn [ft_base ft_tree]. split; [reflexivity|]. exists left, tree. split; [exact B|]. split; [reflexivity|].
  unfold FHT_fit, tree_scores in T. destruct (binarize_cases y H2) as (m & Hm). rewrite Hm in T. cbn [obind omap] in T.
  set (scores := map _ (seq 0 (length (np_unique y) - 1))) in T. injection T as <-.
  assert (L : length scores = n_problems y) by (unfold scores; rewrite map_length, seq_length; reflexivity).
  destruct (make_tree_spec scores) as (Ho & Hbf). split; [rewrite Ho, L; reflexivity|]. exists scores. split; [exact L|].
  split; [exact Hbf|]. intros i c Hi Hc. unfold scores.
  set (f := fun i => measure _ _).
  rewrite (nth_indep _ _ (f O)) by (rewrite map_length, seq_length; unfold n_problems in Hi; lia).
  rewrite (map_nth f), seq_nth by (unfold n_problems in Hi; lia). cbn [plus]. unfold f. f_equal.
  pose proof (column_labels_up_to y m i c Hm Hc Hi) as U. unfold column_labels in U.
  assert (Lm : length m = length y).
  { apply (f_equal (@length Z)) in U. unfold up_to in U. now rewrite !map_length in U. }
  assert (L3 : (3 <= length (np_unique y))%nat) by (unfold n_problems in Hi; lia).
  assert (bin : Forall (fun r => nth i r 0 = 0 \/ nth i r 0 = 1) m).
  { rewrite FH_binarize_spec in Hm by (auto; apply np_unique_NoDup). injection Hm as <-. apply Forall_forall.
    intros r Hr. apply in_map_iff in Hr. destruct Hr as (v & <- & _).
    rewrite (nth_indep _ _ ((fun i => if in_dec Z.eq_dec v (firstn (S i) (np_unique y)) then 1 else 0) O))
      by (rewrite map_length, seq_length; unfold n_problems in Hi; lia).
    rewrite (map_nth (fun i => if in_dec Z.eq_dec v (firstn (S i) (np_unique y)) then 1 else 0)).
    destruct (in_dec _ _ _); auto. }
  assert (PY : 0 < INR (length y)) by (apply lt_0_INR; destruct y; [easy|cbn; lia]).
  unfold rmean. rewrite map_length.
  assert (LU : length (up_to c y) = length y) by (unfold up_to; apply map_length). rewrite LU.
  enough (W : INR (length (filter (fun v => if Req_EM_T v 0 then true else false) (col i m))) = INR (length m) - rsum (map IZR (up_to c y))).
  { rewrite W, Lm. field. lra. }
  rewrite <- U. clear - bin. unfold col. induction bin as [|r m [H|H] _ IH]; [cbn; lra|..]; cbn [map filter length]; rewrite H.
  - destruct (Req_EM_T 0 0); [|lra]. destruct (Req_EM_T 0 1); [lra|]. cbn [length rsum]. rewrite !S_INR, IH. lra.
  - destruct (Req_EM_T 1 0); [lra|]. destruct (Req_EM_T 1 1); [|lra]. cbn [rsum]. rewrite S_INR, IH. lra.
Qed.

Theorem FHT_failed order x y s store store' s' r : FHT_object_fit E measure accepted order x y s store = (store', s', r) -> raises r ->
  ft_tree s' = ft_tree s.
Proof.
  unfold FHT_object_fit. destruct (FH_fit E accepted order x y (ft_base s) store) as [[st base] r0].
  destruct r0 as [[]|er|]; [|intros [= <- <- <-]; reflexivity..].
  destruct (obind _ _) as [tree|er|]; intros [= <- <- <-] H; try reflexivity. exfalso. eapply raises_not_val, H.
Qed.
End Tree.

(** ** AC *)
Section AC.
Context {X M : Type} (A : nat -> algorithm X M) (inv : nat -> matrix -> option matrix) (N : numerics) (cvx : cvx_solver)
  (fuel : nat) (dist : distance).

Lemma UC_fit_keeps q w x y given r q' w' : UC_fit A q w x y given = (r, q', w') ->
  estimator_train q' = estimator_train q /\ estimator_test q' = estimator_test q /\ probabilistic q' = probabilistic q /\
  needs_predictions_train q' = needs_predictions_train q /\ classes_ q' = Some (np_unique y).
Proof.
  unfold UC_fit. cbv zeta. destruct (_ && _); [intros [= <- <- <-]; cbn; repeat split|].
  destruct (ensure_fitted A w _ x y) as [w1|er|]; [|intros [= <- <- <-]; cbn; repeat split..].
  destruct (ensure_fitted A w1 _ x y) as [w2|er|]; [|intros [= <- <- <-]; cbn; repeat split..].
  destruct (needs_predictions_train _) eqn:Hneeds; cbn in Hneeds; [|intros [= <- <- <-]; cbn; repeat split; assumption].
  match goal with |- match ?o with Val p => _ | Err e => _ | NotANumber => _ end = _ -> _ => destruct o end;
    intros [= <- <- <-]; cbn; repeat split; assumption.
Qed.

Lemma AC_fit_raised x y given s w r s' w' : AC_object_fit A N fuel dist x y given s w = (r, s', w') -> raises r ->
  ao_adjuster s' = ao_adjuster s /\ classes_ (ao_base s') = Some (np_unique y) /\
  estimator_test (ao_base s') = estimator_test (ao_base s) /\ probabilistic (ao_base s') = probabilistic (ao_base s).
Proof.
  unfold AC_object_fit. destruct (UC_fit A (ao_base s) w x y given) as [[r0 q] w0] eqn:U.
  destruct (UC_fit_keeps _ _ _ _ _ _ _ _ U) as (_ & H2 & H3 & _ & H5).
  destruct r0 as [[]|er|]; [|intros [= <- <- <-]; cbn; auto..].
  destruct (predictions_train_ q) as [[l|l|l]|]; [|intros [= <- <- <-]; cbn; auto..].
  destruct (AC_fit y l); intros [= <- <- <-] Hr; cbn; auto. exfalso. eapply raises_not_val, Hr.
Qed.

Lemma UC_predict_same q1 q2 w x given : estimator_test q1 = estimator_test q2 -> probabilistic q1 = probabilistic q2 ->
  classes_ q1 = classes_ q2 ->
  (exists p, UC_predict A q1 w x given = (Val tt, with_test q1 p) /\ UC_predict A q2 w x given = (Val tt, with_test q2 p)) \/
  (exists e, UC_predict A q1 w x given = (Err e, q1) /\ UC_predict A q2 w x given = (Err e, q2)) \/
  (UC_predict A q1 w x given = (NotANumber, q1) /\ UC_predict A q2 w x given = (NotANumber, q2)).
Proof.
  intros H1 H2 H3. unfold UC_predict. cbv zeta. rewrite H1, H2, H3.
  match goal with |- context [match ?o with Val p => (Val tt, with_test q1 p) | Err e => _ | NotANumber => _ end] => destruct o end; eauto.
Qed.

Theorem AC_failed_same_classes x y given s w r s' w' : AC_object_fit A N fuel dist x y given s w = (r, s', w') -> raises r ->
  classes_ (ao_base s) = Some (np_unique y) ->
  forall t pt w2, snd (AC_object_predict A inv N cvx dist t pt s' w2) = snd (AC_object_predict A inv N cvx dist t pt s w2).
Proof.
  intros H Hr Hc t pt w2. destruct (AC_fit_raised _ _ _ _ _ _ _ _ H Hr) as (Ha & Hc' & He & Hp).
  unfold AC_object_predict. cbv zeta. rewrite Ha.
  destruct (UC_predict_same (ao_base s') (ao_base s) w2 t pt He Hp) as [(p & -> & ->)|[(e & -> & ->)|(-> & ->)]]; [congruence| |reflexivity..].
  cbn [with_test classes_ predictions_test_]. rewrite Hc, Hc'. destruct (cm_problem _ _); [reflexivity|].
  destruct (adjuster_predict _ _ _ _ _ _); reflexivity.
Qed.

Theorem AC_never_fitted s : AC_only_failed A inv N cvx fuel dist s ->
  forall t pt w, raises (snd (AC_object_predict A inv N cvx dist t pt s w)).
Proof.
  assert (P : forall s, aj_cm (ao_adjuster s) = [] -> forall t pt w,
    raises (snd (AC_object_predict A inv N cvx dist t pt s w)) /\
    aj_cm (ao_adjuster (fst (AC_object_predict A inv N cvx dist t pt s w))) = []).
  { intros s0 H t pt w. unfold AC_object_predict. cbv zeta. destruct (UC_predict A (ao_base s0) w t pt) as [[[]|er|] q]; cbn; auto.
    destruct (classes_ q) as [cl|]; cbn; auto. rewrite H. cbn. auto. }
  intros H. assert (K : aj_cm (ao_adjuster s) = []).
  { induction H as [|s x y given w r s' w' H IH F Hr|s x given w H IH]; [reflexivity| |].
    - destruct (AC_fit_raised _ _ _ _ _ _ _ _ F Hr) as (-> & _). exact IH.
    - apply P, IH. }
  intros t pt w. apply (P s K).
Qed.

(** After a fit that returned, whatever the calls of fit before, the answers are those of a new object (with the same
    estimators already trained), as long as the answer does not use problem_ or G_, i.e. with two classes. *)
Lemma AC_fit_val x y given s w s' w' : AC_object_fit A N fuel dist x y given s w = (Val tt, s', w') ->
  exists l cm, AC_fit y l = Val cm /\ aj_cm (ao_adjuster s') = cm /\ classes_ (ao_base s') = Some (np_unique y) /\
    estimator_test (ao_base s') = estimator_test (ao_base s) /\ probabilistic (ao_base s') = probabilistic (ao_base s).
Proof.
  unfold AC_object_fit. destruct (UC_fit A (ao_base s) w x y given) as [[r0 q] w0] eqn:U.
  destruct (UC_fit_keeps _ _ _ _ _ _ _ _ U) as (_ & H2 & H3 & _ & H5).
  destruct r0 as [[]|er|]; [|discriminate..].
  destruct (predictions_train_ q) as [[l|l|l]|]; [|discriminate..].
  destruct (AC_fit y l) as [cm|er|] eqn:F; [|discriminate..]. intros [= <- <-]. exists l, cm. cbn. auto.
Qed.
End AC.

(** ** A fit that raises changes the answers of AC *)
Definition no_algorithm : nat -> algorithm nat nat := fun _ => {| learn := fun _ _ => O; crisp := fun _ _ => []; proba := fun _ _ => [] |}.
Definition nobody : world nat nat := {| models := fun _ => None; fits := [] |}.

Lemma AC_failed_refit_changes : exists (X M : Type) (A : nat -> algorithm X M) inv N cvx fuel dist w s1 s2 r x1 y1 p1 x2 y2 p2 t pt,
  AC_object_fit A N fuel dist x1 y1 p1 (AC_new None None) w = (Val tt, s1, w) /\
  AC_object_fit A N fuel dist x2 y2 p2 s1 w = (r, s2, w) /\ raises r /\
  snd (AC_object_predict A inv N cvx dist t pt s1 w) = Val [1/2; 1/2] /\
  snd (AC_object_predict A inv N cvx dist t pt s2 w) = Val [1; 0].
Proof.
  exists nat, nat, no_algorithm, (fun _ _ => None), no_numerics, (fun _ _ _ => None), O, HD, nobody.
  pose (s1 := {| ao_base := {| estimator_train := None; estimator_test := None; needs_predictions_train := true;
                   probabilistic := false; predictions_train_ := Some (Labels [0; 1]%Z); predictions_test_ := None;
                   classes_ := Some [0; 1]%Z; y_ext_ := Some [0; 1]%Z |};
     ao_adjuster := {| aj_classes := Some [0; 1]%Z; aj_cm := map norm_row (confusion [0; 1]%Z [0; 1]%Z [0; 1]%Z); aj_l2 := None; aj_problem := None |} |}).
  pose (s2 := {| ao_base := {| estimator_train := None; estimator_test := None; needs_predictions_train := true;
                   probabilistic := false; predictions_train_ := Some (Labels [0; 1]%Z); predictions_test_ := None;
                   classes_ := Some [5; 7]%Z; y_ext_ := Some [0; 1]%Z |};
     ao_adjuster := {| aj_classes := Some [0; 1]%Z; aj_cm := map norm_row (confusion [0; 1]%Z [0; 1]%Z [0; 1]%Z); aj_l2 := None; aj_problem := None |} |}).
  exists s1, s2, (Err ValueError), [0; 1]%nat, [0; 1]%Z, (Some (Labels [0; 1]%Z)), [0; 1]%nat, [5; 7]%Z, None, [0; 1]%nat, (Some (Labels [0; 1]%Z)).
  assert (CM : map norm_row (confusion [0; 1]%Z [0; 1]%Z [0; 1]%Z) = [Some [1; 0]; Some [0; 1]]).
  { unfold confusion, pair_count. cbn -[norm_row INR]. unfold norm_row, vdiv. cbn.
    destruct (Req_EM_T (1 + (0 + 0)) 0); [lra|]. destruct (Req_EM_T (0 + (1 + 0)) 0); [lra|]. repeat (f_equal; try field). }
  split; [reflexivity|]. split; [reflexivity|]. split; [auto|].
  unfold AC_object_predict, s1, s2. cbn -[norm_row confusion binary_adjust map class_frequencies length]. rewrite CM. cbn -[binary_adjust].
  unfold binary_adjust. cbn.
  destruct (Rlt_dec (1/1000) (Rabs (1 - 0))) as [G|G].
  2:{ exfalso. apply G. rewrite Rabs_right; lra. }
  split.
  - f_equal. unfold clip01. replace (1 / 2 - 0) with (1/2) by lra.
    match goal with |- context [Rlt_dec 0 ?s] => assert (W : s = 1); [|rewrite W] end.
    { unfold zcount; cbn. rewrite !Rmax_left by lra. rewrite !Rmin_left by lra. lra. }
    destruct (Rlt_dec 0 1); [|lra]. unfold vdiv, zcount; cbn. rewrite !Rmax_left by lra. rewrite !Rmin_left by lra.
    repeat (f_equal; try lra).
  - f_equal. unfold clip01, zcount. cbn.
    match goal with |- context [Rlt_dec 0 ?s] => assert (W : s = 1); [|rewrite W] end.
    { rewrite (Rmax_left (1 - _)) by lra. rewrite (Rmax_left (_ / _)) by lra. rewrite (Rmin_left (1 - _)) by lra. rewrite Rmin_left by lra. lra. }
    destruct (Rlt_dec 0 1); [|lra]. unfold vdiv; cbn.
    rewrite (Rmax_left (1 - _)) by lra. rewrite (Rmax_left (_ / _)) by lra. rewrite (Rmin_left (1 - _)) by lra. rewrite Rmin_left by lra.
    repeat (f_equal; try lra).
Qed.
