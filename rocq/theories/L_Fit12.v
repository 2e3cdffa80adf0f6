(** * Proofs about FriedmanME after failing fits (C133). *)

From Coq Require Import Reals List ZArith Lia Lra Bool Arith.
From Coq Require FunctionalExtensionality.
From Verif Require Import Num Spec L_Num M_Baselines L_Baselines M_Eoq M_Base M_Bags M_Search M_Optim Spec_Optim L_Optim2 L_Optim4 L_Optim5 M_Match
  Spec_Match L_Match L_Match2 L_Match3 L_Match6 M_History M_Fit M_Fit2 M_Fit3 M_Fit4 M_Fit5 Spec_Fit Spec_Fit4 Spec_Fit5 L_Fit3 L_Fit6 L_Fit7 L_Fit8 L_Fit11.
Import ListNotations.
Open Scope R_scope.

Lemma fr_column : forall n prevs ye rows c v, length ye = length rows ->
  Friedman_fill_column n prevs ye rows c = (v, Val tt) <-> friedman_represent prevs (select c ye rows) = Val v.
Proof.
  intros n prevs ye rows c v HL. unfold Friedman_fill_column. rewrite HL, Nat.eqb_refl. cbn [negb].
  destruct (friedman_represent _ _); split; intros H; inversion H; reflexivity.
Qed.

Lemma all_columns : forall n P, Spec_Fit4.columns n P -> exists l, collect (map (prediction_column (Matrix P)) (seq 0 n)) = Val l.
Proof. intros n P H. apply collect_all. intros j Hj. apply in_seq in Hj. rewrite (prediction_columns n P j H) by lia. eauto. Qed.

Lemma no_column : forall k n P, P <> [] -> Spec_Fit4.columns k P -> (k < n)%nat -> collect (map (prediction_column (Matrix P)) (seq 0 n)) = Err IndexError.
Proof.
  intros k n P HP HC HK. assert (W : width P = k) by (destruct P as [|r P]; [congruence|]; inversion HC; subst; reflexivity).
  assert (LP : length P <> 0%nat) by (destruct P; [congruence|discriminate]).
  assert (EV : forall j, prediction_column (Matrix P) j = if Nat.ltb j k then Val (col j P) else Err IndexError).
  { intros j. unfold prediction_column. rewrite W. destruct (Nat.ltb j k); [reflexivity|]. destruct (Nat.eqb_spec (length P) 0); [contradiction|reflexivity]. }
  apply collect_err.
  - intros j _. rewrite EV. destruct (Nat.ltb j k); eauto.
  - exists k. split; [apply in_seq; lia|]. rewrite EV, Nat.ltb_irrefl. reflexivity.
Qed.

Lemma items_all : forall (l pre : list R), map (item (pre ++ l)) (seq (length pre) (length l)) = map Val l.
Proof.
  induction l as [|a l IH]; intros pre; [reflexivity|]. cbn [length seq map]. f_equal.
  - unfold item. rewrite nth_error_app2 by lia. rewrite Nat.sub_diag. reflexivity.
  - specialize (IH (pre ++ [a])). rewrite <- app_assoc, app_length in IH. cbn [length app] in IH. rewrite Nat.add_1_r in IH. exact IH.
Qed.

Lemma represent_above : forall prevs rows, rows <> [] -> friedman_represent prevs rows = Val (above prevs rows).
Proof.
  intros prevs rows H. unfold friedman_represent. destruct rows as [|r rs]; [congruence|]. unfold above, tabulate, rmean. f_equal.
  apply map_ext. intros c. now rewrite map_length.
Qed.

Lemma above_length : forall prevs rows, length (above prevs rows) = length prevs.
Proof. intros. unfold above. now rewrite map_length, seq_length. Qed.

Lemma fr_test : forall n prevs rows, Spec_Fit4.columns n rows -> length prevs = n ->
  Friedman_test_distribution n (Some prevs) (Matrix rows) = friedman_represent prevs rows.
Proof.
  intros n prevs rows HC HL. unfold Friedman_test_distribution.
  assert (EQ : map (fun j => obind (prediction_column (Matrix rows) j) (fun _ => item prevs j)) (seq 0 n) = map Val prevs).
  { rewrite <- (items_all prevs []). cbn [app length]. rewrite HL. apply map_ext_in. intros j Hj. apply in_seq in Hj.
    rewrite (prediction_columns n rows j HC) by lia. reflexivity. }
  rewrite EQ. assert (EV : collect (map (@Val R) prevs) = Val prevs).
  { clear. induction prevs as [|a l IH]; [reflexivity|]. cbn [map collect]. rewrite IH. reflexivity. }
  rewrite EV. reflexivity.
Qed.

Lemma fr_test_length : forall n prevs p t, Friedman_test_distribution n prevs p = Val t -> length t = n.
Proof.
  intros n prevs p t H. unfold Friedman_test_distribution in H. destruct prevs as [prevs|]; [|discriminate].
  destruct (collect _) as [l| |] eqn:E; try discriminate. cbn [obind] in H. rewrite <- (collect_seq_length _ _ _ E).
  unfold friedman_represent in H. destruct (as_rows p); [discriminate|]. injection H as <-. unfold tabulate. now rewrite map_length, seq_length.
Qed.

Lemma prevs_length : forall y, length (train_prevs y) = length (np_unique y).
Proof. intros. apply map_length. Qed.

Section Object.
Context {X M : Type} (A : nat -> algorithm X M) (N : numerics) (cvx : cvx_solver) (fuel : nat) (crit : criterion) (tol : R).
Notation calls := (Friedman_calls A N cvx fuel crit tol).
Notation after := (Friedman_after_fit A N cvx fuel crit tol).
Notation fit := (Friedman_object_fit A N fuel crit).
Notation predict := (Friedman_object_predict A N cvx crit tol).

Lemma fr_predict_base s x given w : let s' := fst (predict x given s w) in
  fr_base s' = snd (UC_predict A (fr_base s) w x given) /\ fr_prevs s' = fr_prevs s /\ fr_train s' = fr_train s /\ fr_l2 s' = fr_l2 s.
Proof.
  cbv zeta. unfold Friedman_object_predict. destruct (UC_predict A (fr_base s) w x given) as [r q]. cbn [snd].
  destruct r as [[]| |]; try solve [cbn; auto]. destruct (classes_ q) as [cl|]; [|solve [cbn; auto]]. destruct (predictions_test_ q) as [p|]; [|solve [cbn; auto]].
  destruct (Friedman_test_distribution _ _ _) as [t| |]; try solve [cbn; auto]. destruct (fr_train s) as [cols|] eqn:ET; [|solve [cbn; auto]]. cbv zeta.
  match goal with |- context [if ?b then _ else _] => destruct b end; [solve [cbn; auto]|].
  destruct (estimate N cvx crit tol (fr_matcher cols s) t) as [m r]; cbn; auto.
Qed.

Lemma fr_fit_base x y given s w r s' w' : fit x y given s w = (r, s', w') -> exists r0, UC_fit A (fr_base s) w x y given = (r0, fr_base s', w').
Proof.
  unfold Friedman_object_fit. destruct (UC_fit A (fr_base s) w x y given) as [[r0 q] w0]. intros H. exists r0.
  destruct r0 as [[]| |]; [|injection H as <- <- <-; reflexivity..]. cbv zeta in H.
  destruct (predictions_train_ q); [|injection H as <- <- <-; reflexivity].
  destruct (collect _); [|injection H as <- <- <-; reflexivity..].
  destruct (DFX_fill_train _ _ _) as [cols [[]| |]]; injection H as <- <- <-; reflexivity.
Qed.

Lemma fr_flags s : calls s -> probabilistic (fr_base s) = true /\ needs_predictions_train (fr_base s) = true.
Proof.
  intros C. induction C as [et es|s x y given w r s' w' _ [I1 I2] F|s x given w _ [I1 I2]]; [split; reflexivity| |].
  - destruct (fr_fit_base _ _ _ _ _ _ _ _ F) as [r0 U]. destruct (UC_fit_keeps A _ _ _ _ _ _ _ _ U) as (_ & _ & K3 & K4 & _). split; congruence.
  - destruct (fr_predict_base s x given w) as (EB & _). rewrite EB. destruct (UC_predict A (fr_base s) w x given) as [r q] eqn:U.
    destruct (UC_predict_keeps A _ _ _ _ _ _ U) as (_ & _ & K3 & K4 & _). cbn [snd]. split; congruence.
Qed.

Lemma fr_after_calls y s : after y s -> calls s.
Proof. intros H. induction H; [eapply Friedman_calls_fit; eassumption|now apply Friedman_calls_predict]. Qed.

Definition fr_returned (q : quantifier_object) (y : list Z) (cols : list (list R)) (s : fr_object) : fr_object :=
  {| fr_base := q; fr_prevs := Some (train_prevs y); fr_train := Some cols;
     fr_l2 := match crit with
              | Named L2 => option_map (pair (length cols)) (compute_l2_param_train N fuel (length (np_unique y)) (length cols) (matrix_of_columns cols))
              | _ => fr_l2 s
              end;
     fr_problem := None; fr_mixtures := None |}.

Lemma fr_given_train s x y P w q w' : calls s -> UC_fit A (fr_base s) w x y (Some (Matrix P)) = (Val tt, q, w') -> predictions_train_ q = Some (Matrix P).
Proof.
  intros C U. destruct (fr_flags _ C) as [HP HN]. unfold UC_fit in U. cbv zeta in U.
  cbn [with_classes needs_predictions_train estimator_train estimator_test probabilistic] in U. rewrite HN, HP in U.
  destruct (estimator_train (fr_base s)); cbn [andb] in U;
    destruct (ensure_fitted A w _ x y) as [wa| |]; try discriminate; destruct (ensure_fitted A wa _ x y); try discriminate; injection U as <- <-; reflexivity.
Qed.

Lemma fr_fit_val x y P s w s' w' : calls s -> y <> [] -> fit x y (Some (Matrix P)) s w = (Val tt, s', w') ->
  exists q cols, UC_fit A (fr_base s) w x y (Some (Matrix P)) = (Val tt, q, w') /\ length (y_ext y (length P)) = length P /\
    collect (map (fun c => friedman_represent (train_prevs y) (select c (y_ext y (length P)) P)) (np_unique y)) = Val cols /\
    s' = fr_returned q y cols s.
Proof.
  intros C HY F. unfold Friedman_object_fit in F. destruct (UC_fit A (fr_base s) w x y (Some (Matrix P))) as [[r0 q] w0] eqn:U.
  destruct r0 as [[]| |]; [|discriminate..]. cbv zeta in F. rewrite (fr_given_train _ _ _ _ _ _ _ C U) in F. cbn [as_rows] in F.
  destruct (collect (map (prediction_column (Matrix P)) _)); [|discriminate..].
  destruct (DFX_fill_train _ _ _) as [cols [[]| |]] eqn:ET; [|discriminate..]. apply fill_train_val in ET.
  assert (HL : length (y_ext y (length P)) = length P).
  { destruct (Nat.eq_dec (length (y_ext y (length P))) (length P)) as [E|E]; [exact E|]. exfalso.
    destruct y as [|z y]; [congruence|]. assert (I : In z (np_unique (z :: y))) by (apply np_unique_in; now left).
    destruct (np_unique (z :: y)) as [|c cs]; [destruct I|]. destruct cols as [|v cols]; [discriminate|]. cbn [map] in ET. inversion ET as [[E1 E2]].
    unfold Friedman_fill_column in E1. destruct (Nat.eqb_spec (length (y_ext (z :: y) (length P))) (length P)); [contradiction|discriminate]. }
  exists q, cols. inversion F; subst. split; [reflexivity|]. split; [exact HL|]. split.
  - apply (map_val_pair _ (fun c => friedman_represent (train_prevs y) (select c (y_ext y (length P)) P))) in ET; [exact ET|].
    intros c v _. now apply fr_column.
  - reflexivity.
Qed.

Theorem fr_fit_returns x y P s w s' w' : calls s -> y <> [] -> fit x y (Some (Matrix P)) s w = (Val tt, s', w') ->
  exists m, FriedmanME_fit N fuel crit y P = Val m /\
  forall t rows w2, rows <> [] -> Spec_Fit4.columns (length (np_unique y)) rows ->
    snd (predict t (Some (Matrix rows)) s' w2) = snd (matching_predict N cvx crit tol m rows).
Proof.
  intros C HY F. destruct (fr_fit_val _ _ _ _ _ _ _ C HY F) as (q & cols & U & HL & ET & ->). destruct (fr_flags _ C) as [HP _].
  destruct (UC_fit_keeps A _ _ _ _ _ _ _ _ U) as (_ & _ & K3 & _ & K5).
  assert (LT : length cols = length (np_unique y)).
  { apply collect_inv in ET. apply (f_equal (@length _)) in ET. rewrite !map_length in ET. congruence. }
  exists (new_matcher N fuel crit (length (np_unique y)) (friedman_represent (train_prevs y)) cols). split.
  { unfold FriedmanME_fit. cbv zeta. fold (train_prevs y). unfold fit_matching. rewrite HL, Nat.eqb_refl, ET. reflexivity. }
  intros t rows w2 HR HC2. unfold Friedman_object_predict, UC_predict. cbv zeta. cbn [fr_returned fr_base]. rewrite K3, HP.
  cbn [with_test classes_ predictions_test_]. rewrite K5. cbn [fr_returned fr_prevs]. rewrite (fr_test _ _ _ HC2 (prevs_length y)).
  unfold matching_predict. cbn [new_matcher mt_represent]. rewrite (represent_above _ _ HR). cbn [fr_train fr_returned fr_problem].
  rewrite andb_false_r, above_length, prevs_length, LT, Nat.eqb_refl. cbn [negb andb].
  match goal with |- context [estimate N cvx crit tol ?m ?v] => set (m1 := m); set (tt := v) end.
  transitivity (snd (estimate N cvx crit tol m1 tt)); [destruct (estimate N cvx crit tol m1 tt); reflexivity|].
  apply estimate_same; unfold m1; cbn [fr_matcher new_matcher mt_classes mt_bins mt_T mt_l2 mt_problem mt_mixtures fr_returned fr_problem fr_mixtures fr_l2];
    try reflexivity; try assumption.
  intros EL. rewrite EL. destruct (compute_l2_param_train _ _ _ _ _); cbn [option_map]; [now rewrite Nat.eqb_refl|reflexivity].
Qed.

Theorem fr_fit_when x y P s w : calls s -> estimator_train (fr_base s) = None -> estimator_test (fr_base s) = None -> y <> [] ->
  Spec_Fit4.columns (length (np_unique y)) P ->
  ((exists m, FriedmanME_fit N fuel crit y P = Val m) <-> exists s' w', fit x y (Some (Matrix P)) s w = (Val tt, s', w')).
Proof.
  intros C E1 E2 HY HC. split.
  - intros [m Em]. destruct (fr_flags _ C) as [HP HN]. unfold Friedman_object_fit, UC_fit. cbv zeta.
    cbn [with_classes needs_predictions_train estimator_train estimator_test probabilistic]. rewrite E1, E2, HP, HN. cbn [andb ensure_fitted].
    cbn [with_train predictions_train_ as_rows]. destruct (all_columns _ _ HC) as [l El]. rewrite El. unfold FriedmanME_fit in Em. cbv zeta in Em. fold (train_prevs y) in Em.
    unfold fit_matching in Em. destruct (Nat.eqb_spec (length (y_ext y (length P))) (length P)) as [HL|]; [|discriminate].
    destruct (collect (map _ (np_unique y))) as [cols| |] eqn:ET; try discriminate.
    apply (map_val_pair (Friedman_fill_column (length (np_unique y)) (train_prevs y) (y_ext y (length P)) P)) in ET; [|intros c v _; now apply fr_column].
    apply (proj2 (fill_train_val (repeat 0 (length (np_unique y))) _ _ _)) in ET. rewrite ET. eauto.
  - intros (s' & w' & F). destruct (fr_fit_returns _ _ _ _ _ _ _ C HY F) as (m & Em & _). eauto.
Qed.

(** ** Between a fit that returned and the next *)

Definition fr_settled (y0 : list Z) (s : fr_object) : Prop := exists classes cols, classes_ (fr_base s) = Some classes /\
  length classes = length (np_unique y0) /\ fr_prevs s = Some (train_prevs y0) /\ fr_train s = Some cols /\ length cols = length (np_unique y0) /\
  match fr_problem s with None => True | Some P => cp_d P = length (np_unique y0) end.

Lemma fr_after_settled y0 s : after y0 s -> fr_settled y0 s.
Proof.
  intros H. induction H as [s0 x given w s w' C F|s x given w _ (classes & cols & I1 & I2 & I3 & I4 & I5 & I6)].
  - unfold Friedman_object_fit in F. destruct (UC_fit A (fr_base s0) w x y0 given) as [[r0 q] w0] eqn:U.
    destruct (UC_fit_keeps A _ _ _ _ _ _ _ _ U) as (_ & _ & _ & _ & K5). destruct r0 as [[]| |]; [|discriminate..]. cbv zeta in F.
    destruct (predictions_train_ q) as [p|]; [|discriminate]. destruct (collect _); [|discriminate..].
    destruct (DFX_fill_train _ _ _) as [cols [[]| |]] eqn:ET; [|discriminate..]. injection F as <- <-.
    exists (np_unique y0), cols. cbn [fr_base fr_prevs fr_train fr_problem]. repeat (split; [assumption || reflexivity || exact (cols_length _ _ _ _ ET)|]). exact I.
  - destruct (fr_predict_base s x given w) as (EB & E1 & E2 & E3). set (s' := fst (predict x given s w)) in *.
    assert (EK : classes_ (fr_base s') = Some classes).
    { rewrite EB. destruct (UC_predict A (fr_base s) w x given) as [r q] eqn:U. destruct (UC_predict_keeps A _ _ _ _ _ _ U) as (_ & _ & _ & _ & K5).
      cbn [snd]. congruence. }
    exists classes, cols. rewrite E1, E2. repeat (split; [assumption|]).
    unfold s', Friedman_object_predict. destruct (UC_predict A (fr_base s) w x given) as [r q]. destruct r as [[]| |]; try exact I6.
    destruct (classes_ q) as [cl|]; [|exact I6]. destruct (predictions_test_ q) as [p|]; [|exact I6].
    destruct (Friedman_test_distribution _ _ _) as [t| |]; try exact I6. rewrite I4. cbv zeta.
    match goal with |- context [if ?b then _ else _] => destruct b eqn:EQB end; [exact I6|].
    set (m1 := fr_matcher cols s).
    assert (EP : match mt_problem (fst (estimate N cvx crit tol m1 t)) with None => True | Some P => cp_d P = length (np_unique y0) end).
    { assert (RP : forall P P' z, run_problem cvx P t = Val (P', z) -> cp_d P' = cp_d P).
      { intros P P' z E. unfold run_problem in E. destruct (valid_parameter _ _); [|discriminate]. destruct (cvx _ _ _); [|discriminate]. injection E as <- <-. reflexivity. }
      change (match mt_problem m1 with None => True | Some P => cp_d P = length (np_unique y0) end) in I6.
      assert (BM : mt_bins m1 = length (np_unique y0)) by exact I5.
      unfold estimate. cbv zeta. destruct crit as [[]|f]; try exact I6.
      - destruct (solve_hd _ _ _ _ _ _) as [[P' z]| |] eqn:E; try exact I6. cbn. unfold solve_hd in E. destruct (mt_problem m1) as [P|].
        + rewrite (RP _ _ _ E). exact I6.
        + destruct (Nat.eqb_spec (length t) (mt_bins m1)) as [El|]; [|discriminate]. rewrite (RP _ _ _ E). cbn. congruence.
      - destruct (solve_l1 _ _ _ _ _ _) as [[P' z]| |] eqn:E; try exact I6. cbn. unfold solve_l1 in E. destruct (mt_problem m1) as [P|].
        + rewrite (RP _ _ _ E). exact I6.
        + destruct (Nat.eqb_spec (length t) (mt_bins m1)) as [El|]; [|discriminate]. rewrite (RP _ _ _ E). cbn. congruence.
      - destruct (Nat.ltb _ _); [exact I6|]. destruct (global_search _ _ _ _ _ _) as [[]| |]; exact I6. }
    destruct (estimate N cvx crit tol m1 t) as [m' r']. exact EP.
Qed.

Lemma fr_predict_same s1 s2 cl1 cl2 : estimator_test (fr_base s1) = estimator_test (fr_base s2) -> probabilistic (fr_base s1) = true -> probabilistic (fr_base s2) = true ->
  classes_ (fr_base s1) = Some cl1 -> classes_ (fr_base s2) = Some cl2 -> length cl1 = length cl2 ->
  fr_prevs s1 = fr_prevs s2 -> fr_problem s1 = fr_problem s2 ->
  (fr_train s1 = fr_train s2 /\ fr_mixtures s1 = fr_mixtures s2 /\ (crit = Named L2 -> fr_l2 s1 = fr_l2 s2)) ->
  forall t p w, snd (predict t p s1 w) = snd (predict t p s2 w).
Proof.
  intros H1 H2 H3 H4 H5 H6 H7 H8 (T1 & T2 & T3) t p w. unfold Friedman_object_predict.
  destruct (UC_predict_prob A (fr_base s1) (fr_base s2) w t p H1 H2 H3) as [(pp & E1 & E2)|[(e & E1 & E2)|(E1 & E2)]]; rewrite E1, E2; try reflexivity.
  cbn [with_test classes_ predictions_test_]. rewrite H4, H5, H6, H7. destruct (Friedman_test_distribution _ _ _) as [td| |]; try reflexivity.
  rewrite T1. destruct (fr_train s2) as [cols|]; [|reflexivity]. cbv zeta. rewrite H8. match goal with |- context [if ?b then _ else _] => destruct b end; [reflexivity|].
  assert (ES : snd (estimate N cvx crit tol (fr_matcher cols s1) td) = snd (estimate N cvx crit tol (fr_matcher cols s2) td)).
  { apply estimate_same; try reflexivity; try assumption. intros EL. cbn [fr_matcher mt_l2]. now rewrite (T3 EL). }
  destruct (estimate N cvx crit tol (fr_matcher cols s1) td), (estimate N cvx crit tol (fr_matcher cols s2) td). exact ES.
Qed.

(** Another number of classes than that of train_distrib_. *)
Lemma mismatch s classes cols n : classes_ (fr_base s) = Some classes -> fr_train s = Some cols -> length cols = n ->
  match fr_problem s with None => True | Some P => cp_d P = n end -> length classes <> n -> forall t p w2, raises (snd (predict t p s w2)).
Proof.
  intros I1 I4 I5 I6 HN t p w2 v. unfold Friedman_object_predict.
  destruct (UC_predict A (fr_base s) w2 t p) as [r q'] eqn:UP. destruct (UC_predict_keeps A _ _ _ _ _ _ UP) as (_ & _ & _ & _ & K6).
  destruct r as [[]| |]; try discriminate. rewrite K6, I1. destruct (predictions_test_ q') as [pp|]; [|discriminate].
  destruct (Friedman_test_distribution _ _ _) as [td| |] eqn:ET; try discriminate. rewrite I4. cbv zeta. pose proof (fr_test_length _ _ _ _ ET) as LT.
  destruct (needs_cvx crit && match fr_problem s with None => false | Some _ => true end) eqn:EQ; cbn [negb andb].
  - apply andb_true_iff in EQ. destruct EQ as [EN EP]. destruct (fr_problem s) as [P|] eqn:EPP; [|discriminate EP]. unfold estimate. cbv zeta.
    cbn [fr_matcher mt_problem]. rewrite EPP.
    assert (RP : run_problem cvx P td = Err ValueError).
    { unfold run_problem, valid_parameter. rewrite I6, LT. destruct (Nat.eqb_spec (length classes) n); [contradiction|reflexivity]. }
    destruct crit as [[]|f]; try discriminate EN; cbn [solve_hd solve_l1]; rewrite RP; discriminate.
  - rewrite LT, I5. destruct (Nat.eqb_spec (length classes) n); [contradiction|]. cbn. discriminate.
Qed.

Theorem fr_early y0 s x y given w : after y0 s -> raises (fst (fst (UC_fit A (fr_base s) w x y given))) ->
  exists r s' w', fit x y given s w = (r, s', w') /\ raises r /\
  (length (np_unique y) = length (np_unique y0) -> forall t p w2, snd (predict t p s' w2) = snd (predict t p s w2)) /\
  (length (np_unique y) <> length (np_unique y0) -> forall t p w2, raises (snd (predict t p s' w2))).
Proof.
  intros HA HR. destruct (fr_after_settled _ _ HA) as (classes & cols & I1 & I2 & I3 & I4 & I5 & I6).
  destruct (fr_flags _ (fr_after_calls _ _ HA)) as [HP _].
  destruct (UC_fit A (fr_base s) w x y given) as [[r0 q] w0] eqn:U. cbn [fst] in HR. destruct (UC_fit_keeps A _ _ _ _ _ _ _ _ U) as (K1 & K2 & K3 & K4 & K5).
  assert (F : fit x y given s w = (r0, fr_with_base q s, w0)).
  { unfold Friedman_object_fit. rewrite U. destruct r0 as [[]| |]; [|reflexivity..]. destruct (HR tt eq_refl). }
  exists r0, (fr_with_base q s), w0. split; [exact F|]. split; [exact HR|]. split.
  - intros HN t p w2. apply (fr_predict_same (fr_with_base q s) s (np_unique y) classes); cbn [fr_with_base fr_base fr_prevs fr_problem fr_train fr_mixtures fr_l2]; auto; congruence.
  - intros HN. exact (mismatch (fr_with_base q s) (np_unique y) cols _ K5 I4 I5 I6 HN).
Qed.

Lemma fr_answer s classes cols prevs : probabilistic (fr_base s) = true -> classes_ (fr_base s) = Some classes -> fr_train s = Some cols ->
  length cols = length classes -> fr_prevs s = Some prevs -> length prevs = length classes ->
  forall t rows w2, rows <> [] -> Spec_Fit4.columns (length classes) rows ->
  snd (predict t (Some (Matrix rows)) s w2) = snd (estimate N cvx crit tol (fr_matcher cols s) (above prevs rows)).
Proof.
  intros HP I1 I2 I3 I4 I5 t rows w2 HR HC. unfold Friedman_object_predict, UC_predict. cbv zeta. rewrite HP. cbn [with_test classes_ predictions_test_].
  rewrite I1, I4, (fr_test _ _ _ HC I5), (represent_above _ _ HR), I2. rewrite above_length, I5, I3, Nat.eqb_refl. cbn [negb]. rewrite andb_false_r.
  destruct (estimate N cvx crit tol (fr_matcher cols s) (above prevs rows)). reflexivity.
Qed.

(** ** Too few columns: new thresholds with the old distributions *)
Theorem few_columns y0 s x y P k w : after y0 s -> estimator_train (fr_base s) = None -> estimator_test (fr_base s) = None ->
  P <> [] -> Spec_Fit4.columns k P -> (k < length (np_unique y))%nat ->
  exists s', fit x y (Some (Matrix P)) s w = (Err IndexError, s', w) /\
  (length (np_unique y) = length (np_unique y0) -> exists answer, forall t rows w2, rows <> [] -> Spec_Fit4.columns (length (np_unique y0)) rows ->
     snd (predict t (Some (Matrix rows)) s w2) = answer (above (class_shares y0) rows) /\
     snd (predict t (Some (Matrix rows)) s' w2) = answer (above (class_shares y) rows)) /\
  (length (np_unique y) <> length (np_unique y0) -> forall t p w2, raises (snd (predict t p s' w2))).
Proof.
  intros HA E1 E2 HP0 HC HK. destruct (fr_after_settled _ _ HA) as (classes & cols & I1 & I2 & I3 & I4 & I5 & I6).
  destruct (fr_flags _ (fr_after_calls _ _ HA)) as [HP HN].
  eexists. split.
  { unfold Friedman_object_fit, UC_fit. cbv zeta. cbn [with_classes needs_predictions_train estimator_train estimator_test probabilistic]. rewrite E1, E2, HP, HN.
    cbn [andb ensure_fitted with_train predictions_train_ as_rows]. rewrite (no_column k _ _ HP0 HC HK). reflexivity. }
  split.
  - intros HE. exists (fun t => snd (estimate N cvx crit tol (fr_matcher cols s) t)). intros t rows w2 HR HC2. split.
    + apply (fr_answer s classes cols (train_prevs y0)); auto; rewrite ?prevs_length; try congruence; try (rewrite I2; exact HC2).
    + rewrite (fr_answer _ (np_unique y) cols (train_prevs y)); cbn [fr_base fr_train fr_prevs with_train with_classes probabilistic classes_]; auto; rewrite ?prevs_length; try congruence; try (rewrite HE; exact HC2).
  - intros HE. eapply (mismatch _ (np_unique y) cols); cbn [fr_base fr_train fr_problem with_train with_classes classes_]; [reflexivity|exact I4|exact I5|exact I6|exact HE].
Qed.

(** ** A wrong number of predictions *)
Definition blank (n : nat) : list (list R) := repeat (repeat 0 n) n.

Lemma fr_short_fit x y P s w : calls s -> estimator_train (fr_base s) = None -> estimator_test (fr_base s) = None ->
  y <> [] -> Spec_Fit4.columns (length (np_unique y)) P -> wrong_number y P ->
  exists q, fit x y (Some (Matrix P)) s w = (Err IndexError, {| fr_base := q; fr_prevs := Some (train_prevs y); fr_train := Some (blank (length (np_unique y)));
    fr_l2 := fr_l2 s; fr_problem := fr_problem s; fr_mixtures := fr_mixtures s |}, w) /\ classes_ q = Some (np_unique y) /\ estimator_test q = None /\ probabilistic q = true.
Proof.
  intros C E1 E2 HY HC HW. destruct (fr_flags _ C) as [HP HN].
  unfold Friedman_object_fit, UC_fit. cbv zeta. cbn [with_classes needs_predictions_train estimator_train estimator_test probabilistic]. rewrite E1, E2, HP, HN.
  cbn [andb ensure_fitted with_train predictions_train_ as_rows]. destruct (all_columns _ _ HC) as [l El]. rewrite El.
  assert (ET : DFX_fill_train (repeat 0 (length (np_unique y)))
    (Friedman_fill_column (length (np_unique y)) (train_prevs y) (y_ext y (length P)) P) (np_unique y) = (blank (length (np_unique y)), Err IndexError)).
  { unfold blank. assert (NE : np_unique y <> []).
    { destruct y as [|z y]; [congruence|]. assert (Hi : In z (np_unique (z :: y))) by (apply np_unique_in; now left). intros E. rewrite E in Hi. destruct Hi. }
    destruct (np_unique y) as [|c cs]; [congruence|]. cbn [DFX_fill_train]. unfold Friedman_fill_column at 1.
    destruct (Nat.eqb_spec (length (y_ext y (length P))) (length P)); [contradiction|]. reflexivity. }
  rewrite ET. eexists. split; [reflexivity|]. cbn [with_train classes_ estimator_test probabilistic]. auto.
Qed.

Theorem fr_short_cached y0 s1 t1 p1 w1 s2 r1 x y P w : needs_cvx crit = true -> after y0 s1 ->
  estimator_train (fr_base s1) = None -> estimator_test (fr_base s1) = None ->
  predict t1 p1 s1 w1 = (s2, Val r1) ->
  y <> [] -> length (np_unique y) = length (np_unique y0) -> Spec_Fit4.columns (length (np_unique y)) P -> wrong_number y P ->
  exists s3 answer, fit x y (Some (Matrix P)) s2 w = (Err IndexError, s3, w) /\
  forall t rows w2, rows <> [] -> Spec_Fit4.columns (length (np_unique y0)) rows ->
     snd (predict t (Some (Matrix rows)) s2 w2) = answer (above (class_shares y0) rows) /\
     snd (predict t (Some (Matrix rows)) s3 w2) = answer (above (class_shares y) rows).
Proof.
  intros HC HA E1 E2 EP HY HN HM HW.
  assert (HA2 : after y0 s2) by (change s2 with (fst (s2, Val r1)); rewrite <- EP; now apply Friedman_after_predict).
  destruct (fr_predict_base s1 t1 p1 w1) as (EB & _). rewrite EP in EB. cbn [fst] in EB.
  assert (KE : estimator_train (fr_base s2) = None /\ estimator_test (fr_base s2) = None).
  { rewrite EB. destruct (UC_predict A (fr_base s1) w1 t1 p1) as [r q] eqn:U. destruct (UC_predict_keeps A _ _ _ _ _ _ U) as (K1 & K2 & _).
    cbn [snd]. split; congruence. }
  destruct KE as [E3 E4]. destruct (fr_after_settled _ _ HA2) as (classes & cols & I1 & I2 & I3 & I4 & I5 & I6).
  destruct (fr_flags _ (fr_after_calls _ _ HA2)) as [HP _].
  destruct (fr_short_fit x y P s2 w (fr_after_calls _ _ HA2) E3 E4 HY HM HW) as (q & F & Q1 & Q2 & Q3).
  assert (PN : fr_problem s2 <> None).
  { unfold Friedman_object_predict in EP. destruct (UC_predict A (fr_base s1) w1 t1 p1) as [r q1]. destruct r as [[]| |]; try discriminate.
    destruct (classes_ q1) as [cl|]; [|discriminate]. destruct (predictions_test_ q1) as [pp|]; [|discriminate].
    destruct (Friedman_test_distribution _ _ _) as [td| |]; try discriminate. destruct (fr_train s1) as [co|]; [|discriminate]. cbv zeta in EP.
    match type of EP with (if ?b then _ else _) = _ => destruct b end; [discriminate|].
    destruct (estimate N cvx crit tol (fr_matcher co s1) td) as [m r] eqn:ES. injection EP as <- Er. subst r. cbn [fr_problem].
    exact (estimate_caches _ _ _ _ _ _ _ _ HC ES). }
  eexists. exists (fun t => snd (estimate N cvx crit tol (fr_matcher cols s2) t)). split; [exact F|]. intros t rows w2 HR HC2. split.
  - apply (fr_answer s2 classes cols (train_prevs y0)); auto; rewrite ?prevs_length; try congruence; try (rewrite I2; exact HC2).
  - assert (LB : length (blank (length (np_unique y))) = length (np_unique y)) by apply repeat_length.
    rewrite (fr_answer _ (np_unique y) (blank (length (np_unique y))) (train_prevs y)); cbn [fr_base fr_train fr_prevs]; auto; rewrite ?prevs_length; try congruence; try (rewrite HN; exact HC2).
    destruct (fr_problem s2) as [C|] eqn:EC; [|congruence]. apply (estimate_cached _ _ _ _ _ _ _ C HC); [reflexivity|exact EC].
Qed.

Theorem fr_short_forgets x0 y0 given0 s0 w0 s w1 x y P w : crit <> Named L2 -> calls s0 ->
  estimator_train (fr_base s0) = None -> estimator_test (fr_base s0) = None ->
  fit x0 y0 given0 s0 w0 = (Val tt, s, w1) ->
  y <> [] -> Spec_Fit4.columns (length (np_unique y)) P -> wrong_number y P ->
  exists s' s'', fit x y (Some (Matrix P)) s w = (Err IndexError, s', w) /\ fit x y (Some (Matrix P)) (Friedman_new None None) w = (Err IndexError, s'', w) /\
  forall t p w2, snd (predict t p s' w2) = snd (predict t p s'' w2).
Proof.
  intros HC CS E1 E2 F0 HY HM HW.
  assert (CS1 : calls s) by (eapply Friedman_calls_fit; eassumption).
  destruct (fr_fit_base _ _ _ _ _ _ _ _ F0) as [r0 U]. destruct (UC_fit_keeps A _ _ _ _ _ _ _ _ U) as (K1 & K2 & _).
  assert (PN : fr_problem s = None /\ fr_mixtures s = None).
  { unfold Friedman_object_fit in F0. destruct (UC_fit A (fr_base s0) w0 x0 y0 given0) as [[r q] wq]. destruct r as [[]| |]; [|discriminate..]. cbv zeta in F0.
    destruct (predictions_train_ q); [|discriminate]. destruct (collect _); [|discriminate..].
    destruct (DFX_fill_train _ _ _) as [cols [[]| |]]; [|discriminate..]. injection F0 as <- <-. split; reflexivity. }
  destruct PN as [PN1 PN2].
  destruct (fr_short_fit x y P s w CS1 ltac:(congruence) ltac:(congruence) HY HM HW) as (q & F & Q1 & Q2 & Q3).
  destruct (fr_short_fit x y P (Friedman_new None None) w (Friedman_calls_new _ _ _ _ _ _ None None) eq_refl eq_refl HY HM HW) as (q' & F' & Q1' & Q2' & Q3').
  eexists. eexists. split; [exact F|]. split; [exact F'|]. intros t p w2.
  apply (fr_predict_same _ _ (np_unique y) (np_unique y)); cbn [fr_base fr_prevs fr_problem fr_train fr_mixtures fr_l2 Friedman_new]; auto; try congruence.
  split; [reflexivity|]. split; [exact PN2|]. intros E. contradiction.
Qed.

(** ** An answer without any fit that returned *)

Lemma blank_mix n d k p : mix d k (matrix_of_columns (blank n)) p = repeat 0 d.
Proof.
  assert (Z : forall r c, matrix_of_columns (blank n) r c = 0).
  { intros r c. unfold matrix_of_columns, blank. destruct (Nat.lt_ge_cases c n) as [H|H].
    - rewrite (nth_indep _ [] (repeat 0 n)) by (rewrite repeat_length; exact H). rewrite nth_repeat. apply nth_repeat.
    - rewrite (nth_overflow (repeat _ n)) by (rewrite repeat_length; exact H). destruct r; reflexivity. }
  unfold mix, tabulate. assert (S0 : forall r, sumn k (fun j => matrix_of_columns (blank n) r j * nth j p 0) = 0).
  { intros r. induction k as [|k IH]; [reflexivity|]. cbn [sumn]. rewrite ?IH, Z. lra. }
  rewrite (map_ext _ (fun _ => 0)) by exact S0. clear. generalize 0%nat. induction d as [|d IH]; intros i; [reflexivity|]. cbn. now rewrite IH.
Qed.

Lemma above_nonneg prevs rows : Forall (fun v => 0 <= v) (above prevs rows).
Proof.
  apply Forall_forall. intros v Hv. unfold above in Hv. apply in_map_iff in Hv. destruct Hv as (c & <- & _). unfold Rdiv. destruct rows as [|r0 rs]; [cbn; lra|].
  apply Rmult_le_pos; [|left; apply Rinv_0_lt_compat, lt_0_INR; cbn; lia].
  generalize (r0 :: rs). intros l. induction l as [|r l IH]; [cbn; lra|]. cbn [map]. unfold rsum in *. cbn. destruct (Rle_dec _ _); lra.
Qed.

Theorem fr_never_fitted x y P w rows t w2 : answering_cvx cvx -> needs_cvx crit = true ->
  y <> [] -> Spec_Fit4.columns (length (np_unique y)) P -> wrong_number y P -> rows <> [] -> Spec_Fit4.columns (length (np_unique y)) rows ->
  exists s p, fit x y (Some (Matrix P)) (Friedman_new None None) w = (Err IndexError, s, w) /\ snd (predict t (Some (Matrix rows)) s w2) = Val p.
Proof.
  intros HX HC HY HM HW HR HM2.
  destruct (fr_short_fit x y P (Friedman_new None None) w (Friedman_calls_new _ _ _ _ _ _ None None) eq_refl eq_refl HY HM HW) as (q & F & Q1 & Q2 & Q3).
  assert (NE : (0 < length (np_unique y))%nat).
  { destruct y as [|z y]; [congruence|]. assert (Hi : In z (np_unique (z :: y))) by (apply np_unique_in; now left). destruct (np_unique (z :: y)); [destruct Hi|cbn; lia]. }
  assert (LB : length (blank (length (np_unique y))) = length (np_unique y)) by apply repeat_length.
  eexists.
  assert (AN : exists p, snd (predict t (Some (Matrix rows)) {| fr_base := q; fr_prevs := Some (train_prevs y); fr_train := Some (blank (length (np_unique y)));
    fr_l2 := None; fr_problem := None; fr_mixtures := None |} w2) = Val p).
  { rewrite (fr_answer _ (np_unique y) (blank (length (np_unique y))) (train_prevs y)); auto using prevs_length.
    pose proof (above_nonneg (train_prevs y) rows) as FT. assert (LT : length (above (train_prevs y) rows) = length (np_unique y)) by (rewrite above_length; apply prevs_length).
    set (td := above _ _) in *. set (n := length (np_unique y)) in *. clearbody td.
    assert (RA : forall obj, (forall p p', obj td p = obj td p') ->
      exists P' z, run_problem cvx {| cp_n := n; cp_d := n; cp_objective := obj; cp_last := None |} td = Val (P', z)).
    { intros obj HO. clearbody n. destruct n as [|k]; [lia|]. apply (run_problem_answers _ _ _ (1 :: repeat 0 k) HX); [exact LT|exact FT|]. cbn [cp_n cp_objective]. split.
      - split; [cbn; now rewrite repeat_length|]. split.
        + constructor; [lra|]. apply Forall_forall. intros v Hv. apply repeat_spec in Hv. lra.
        + cbn [rsum]. assert (Z : rsum (repeat 0 k) = 0) by (clear; induction k; cbn; lra). unfold rsum in *. cbn. lra.
      - intros z _. rewrite (HO _ z). lra. }
    unfold estimate. cbv zeta. cbn [fr_matcher mt_problem mt_classes mt_bins mt_T fr_problem]. rewrite LB.
    destruct crit as [[]|f]; try discriminate HC; cbn [solve_hd solve_l1]; rewrite LT, Nat.eqb_refl.
    - destruct (RA (hd_objective n n (matrix_of_columns (blank n)))) as (P' & z & E).
      { intros p p'. unfold hd_objective. now rewrite !blank_mix. }
      rewrite E. cbn. eauto.
    - destruct (RA (l1_objective n n (matrix_of_columns (blank n)))) as (P' & z & E).
      { intros p p'. unfold l1_objective. now rewrite !blank_mix. }
      rewrite E. cbn. eauto. }
  destruct AN as [p AN]. exists p. split; [exact F|exact AN].
Qed.
(** With L2, what such a fit leaves in train_distrib_ makes the answer the same for every bag. *)
Lemma blank_entry n r c : matrix_of_columns (blank n) r c = 0.
Proof.
  unfold matrix_of_columns, blank. destruct (Nat.lt_ge_cases c n) as [H|H].
  - rewrite (nth_indep _ [] (repeat 0 n)) by (rewrite repeat_length; exact H). rewrite nth_repeat. apply nth_repeat.
  - rewrite (nth_overflow (repeat _ n)) by (rewrite repeat_length; exact H). destruct r; reflexivity.
Qed.

Theorem fr_short_l2 x y P s w : crit = Named L2 -> calls s ->
  estimator_train (fr_base s) = None -> estimator_test (fr_base s) = None ->
  y <> [] -> Spec_Fit4.columns (length (np_unique y)) P -> wrong_number y P ->
  exists s' r, fit x y (Some (Matrix P)) s w = (Err IndexError, s', w) /\
  forall t rows w2, rows <> [] -> Spec_Fit4.columns (length (np_unique y)) rows -> snd (predict t (Some (Matrix rows)) s' w2) = r.
Proof.
  intros HL C E1 E2 HY HM HW. destruct (fr_short_fit x y P s w C E1 E2 HY HM HW) as (q & F & Q1 & Q2 & Q3).
  assert (LB : length (blank (length (np_unique y))) = length (np_unique y)) by apply repeat_length.
  match type of F with _ = (_, ?s1, _) => set (s' := s1) in * end.
  exists s', (match mt_l2 (fr_matcher (blank (length (np_unique y))) s') with
              | Some (G, C, b) => match solve_qp N (length (np_unique y)) (S (length (np_unique y))) G (fun _ => 0) C b 1 with Some x => Val x | None => Err ValueError end
              | None => Err ValueError end).
  split; [exact F|]. intros t rows w2 HR HM2.
  rewrite (fr_answer s' (np_unique y) (blank (length (np_unique y))) (train_prevs y)); auto using prevs_length.
  assert (LT : length (above (train_prevs y) rows) = length (np_unique y)) by (rewrite above_length; apply prevs_length).
  set (td := above _ _) in *. clearbody td s'. set (n := length (np_unique y)) in *. clearbody n. rewrite HL. unfold estimate. cbv zeta. cbn [snd].
  destruct (mt_l2 _) as [[[G Cm] b]|]; [|reflexivity]. unfold solve_l2. cbv zeta. cbn [fr_matcher mt_bins mt_classes mt_T]. rewrite LB, LT, Nat.eqb_refl.
  assert (EA : (fun i => 2 * sumn n (fun r => matrix_of_columns (blank n) r i * nth r td 0)) = (fun _ => 0)).
  { apply FunctionalExtensionality.functional_extensionality. intros i.
    assert (S0 : forall k, sumn k (fun r => matrix_of_columns (blank n) r i * nth r td 0) = 0).
    { induction k as [|k IH]; [reflexivity|]. cbn [sumn]. rewrite ?IH, blank_entry. lra. }
    rewrite S0. lra. }
  rewrite EA. reflexivity.
Qed.
End Object.
