(** * Proofs about PDFOrdinaly after failing fits (C134). *)

From Coq Require Import Reals List ZArith Lia Lra Bool Arith.
From Coq Require FunctionalExtensionality.
From Verif Require Import Num Spec L_Num M_Baselines L_Baselines M_Eoq M_Base M_Bags M_Search M_Optim Spec_Optim L_Optim2 L_Optim4 L_Optim5 M_Match
  Spec_Match L_Match L_Match2 L_Match3 L_Match5 L_Match6 M_History M_Fit M_Fit2 M_Fit3 M_Fit4 M_Fit6 Spec_Fit Spec_Fit4 Spec_Fit6 L_Fit3 L_Fit6 L_Fit7 L_Fit8 L_Fit11.
Import ListNotations.
Open Scope R_scope.

Lemma first_positive_lt : forall r i, first_positive r = Some i -> (i < length r)%nat.
Proof.
  induction r as [|a r IH]; intros i H; [discriminate|]. cbn in H. destruct (Rlt_dec 0 a).
  - injection H as <-. cbn. lia.
  - destruct (first_positive r) as [j|] eqn:E; [|discriminate]. injection H as <-. specialize (IH j eq_refl). cbn. lia.
Qed.

Lemma scores_columns : forall m n rows, m <> OtherMethod -> (2 <= n)%nat -> Spec_Fit4.columns n rows -> po_scores m n (Matrix rows) = Val tt.
Proof.
  intros m n rows Hm Hn HC. unfold po_scores. destruct m; [| |congruence].
  - assert (E : forallb (fun r => Nat.eqb (length r) n) rows = true).
    { apply forallb_forall. intros r Hr. apply Nat.eqb_eq. unfold Spec_Fit4.columns in HC. rewrite Forall_forall in HC. now apply HC. }
    now rewrite E.
  - assert (E : forallb (fun r => Nat.ltb (winner_column n r) (length r)) rows = true).
    { apply forallb_forall. intros r Hr. apply Nat.ltb_lt. unfold Spec_Fit4.columns in HC. rewrite Forall_forall in HC. specialize (HC r Hr).
      unfold winner_column. cbv zeta. destruct (first_positive r) as [i|] eqn:EF.
      - apply first_positive_lt in EF. destruct (Nat.eqb_spec i (n - 1)); lia.
      - destruct (Nat.eqb_spec 0 (n - 1)); lia. }
    now rewrite E.
Qed.

Lemma represent_emd : forall n_bins n m emd rows, pdfo_represent n_bins n m emd rows =
  omap (fun t => if emd then firstn (n_bins * (n - 1) - 1) (cumsum t) else t) (pdfo_represent n_bins n m false rows).
Proof.
  intros. unfold pdfo_represent. destruct (n_bins * (n - 1))%nat as [|b]; [reflexivity|]. destruct rows as [|r rs]; [reflexivity|].
  destruct (histogram _ _); reflexivity.
Qed.

Lemma represent_length : forall n_bins n m emd rows t, pdfo_represent n_bins n m emd rows = Val t ->
  length t = pdfo_dim n_bins n emd /\ (0 < n_bins * (n - 1))%nat.
Proof.
  intros n_bins n m emd rows t H. unfold pdfo_dim. unfold pdfo_represent in H. destruct (n_bins * (n - 1))%nat as [|b] eqn:EB; [discriminate|]. split; [|lia].
  destruct rows as [|r rs]; [discriminate|]. unfold histogram in H. destruct (non_decreasing _); [|discriminate]. cbn [omap obind] in H. injection H as <-.
  destruct emd; [rewrite firstn_length, cumsum_length'|]; unfold vdiv; rewrite ?map_length, ?tabulate_length, ?map_length, ?uniform_edges_length; lia.
Qed.

Lemma po_column : forall n_bins n m ye rows c v, length ye = length rows ->
  PDFO_fill_column n_bins n m ye rows c = (v, Val tt) <-> pdfo_represent n_bins n m false (select c ye rows) = Val v.
Proof.
  intros n_bins n m ye rows c v HL. unfold PDFO_fill_column. cbv zeta. rewrite HL, Nat.eqb_refl. cbn [negb].
  destruct (pdfo_represent _ _ _ _ _); split; intros H; inversion H; reflexivity.
Qed.

Lemma dim_differs : forall n_bins n n' emd, n <> n' -> (0 < n_bins * (n - 1))%nat -> (0 < n_bins * (n' - 1))%nat -> pdfo_dim n_bins n' emd <> pdfo_dim n_bins n emd.
Proof.
  intros n_bins n n' emd Hn H1 H2 E. assert (EB : (n_bins * (n' - 1) = n_bins * (n - 1))%nat) by (unfold pdfo_dim in E; destruct emd; lia).
  apply Nat.mul_cancel_l in EB; [|intros ->; cbn in H1; lia]. destruct n, n'; cbn in *; lia.
Qed.

Section Object.
Context {X M : Type} (A : nat -> algorithm X M) (N : numerics) (cvx : cvx_solver) (fuel n_bins : nat) (d : ordinal_distance) (meth : scoring).
Notation calls := (PDFO_calls A N cvx fuel n_bins d meth).
Notation after := (PDFO_after_fit A N cvx fuel n_bins d meth).
Notation fit := (PDFO_object_fit A N fuel n_bins d meth).
Notation predict := (PDFO_object_predict A N cvx n_bins d meth).
Notation dim n := (pdfo_dim n_bins n (is_emd d)).
Notation matcher_of n bins cols s := (po_matcher n_bins d n bins cols s).
Notation crit := (pdfo_criterion d).

Definition ordinal_answer (o : out (list R)) : out (option (list R)) := omap (fun v => Some (if is_emd d then clip_normalise v else v)) o.

Lemma po_predict_base s x given w : let s' := fst (predict x given s w) in
  po_base s' = snd (UC_predict A (po_base s) w x given) /\ po_train s' = po_train s /\ po_l2 s' = po_l2 s.
Proof.
  cbv zeta. unfold PDFO_object_predict. destruct (UC_predict A (po_base s) w x given) as [r q]. cbn [snd].
  destruct r as [[]| |]; try solve [cbn; auto]. destruct (classes_ q) as [cl|]; [|solve [cbn; auto]]. destruct (predictions_test_ q) as [p|]; [|solve [cbn; auto]]. cbv zeta.
  destruct (obind _ _) as [t| |]; try solve [cbn; auto].
  destruct d; try solve [cbn; auto]; (destruct (po_train s) as [[bins cols]|] eqn:ET; [|solve [cbn; auto]]);
    (match goal with |- context [if ?b then _ else _] => destruct b end; [solve [cbn; auto]|]);
    match goal with |- context [estimate ?a ?b ?c ?e ?f ?g] => destruct (estimate a b c e f g) as [mm r] end; cbn; auto.
Qed.

Lemma po_fit_base x y given s w r s' w' : fit x y given s w = (r, s', w') -> exists r0, UC_fit A (po_base s) w x y given = (r0, po_base s', w').
Proof.
  unfold PDFO_object_fit. destruct (UC_fit A (po_base s) w x y given) as [[r0 q] w0]. intros H. exists r0.
  destruct r0 as [[]| |]; [|injection H as <- <- <-; reflexivity..]. cbv zeta in H. destruct (Nat.leb _ _); [injection H as <- <- <-; reflexivity|].
  destruct (predictions_train_ q); [|injection H as <- <- <-; reflexivity].
  destruct (po_scores _ _ _) as [[]| |]; [|injection H as <- <- <-; reflexivity..].
  destruct (DFX_fill_train _ _ _) as [cols [[]| |]]; injection H as <- <- <-; reflexivity.
Qed.

Lemma po_flags s : calls s -> probabilistic (po_base s) = true /\ needs_predictions_train (po_base s) = true.
Proof.
  intros C. induction C as [et es|s x y given w r s' w' _ [I1 I2] F|s x given w _ [I1 I2]]; [split; reflexivity| |].
  - destruct (po_fit_base _ _ _ _ _ _ _ _ F) as [r0 U]. destruct (UC_fit_keeps A _ _ _ _ _ _ _ _ U) as (_ & _ & K3 & K4 & _). split; congruence.
  - destruct (po_predict_base s x given w) as (EB & _). rewrite EB. destruct (UC_predict A (po_base s) w x given) as [r q] eqn:U.
    destruct (UC_predict_keeps A _ _ _ _ _ _ U) as (_ & _ & K3 & K4 & _). cbn [snd]. split; congruence.
Qed.

Lemma po_after_calls y s : after y s -> calls s.
Proof. intros H. induction H; [eapply PDFO_calls_fit; eassumption|now apply PDFO_calls_predict]. Qed.

Lemma po_given_train s x y P w q w' : calls s -> UC_fit A (po_base s) w x y (Some (Matrix P)) = (Val tt, q, w') -> predictions_train_ q = Some (Matrix P).
Proof.
  intros C U. destruct (po_flags _ C) as [HP HN]. unfold UC_fit in U. cbv zeta in U.
  cbn [with_classes needs_predictions_train estimator_train estimator_test probabilistic] in U. rewrite HN, HP in U.
  destruct (estimator_train (po_base s)); cbn [andb] in U;
    destruct (ensure_fitted A w _ x y) as [wa| |]; try discriminate; destruct (ensure_fitted A wa _ x y); try discriminate; injection U as <- <-; reflexivity.
Qed.

Definition po_returned (q : quantifier_object) (n : nat) (cols : list (list R)) (s : pdfo_object) : pdfo_object :=
  {| po_base := q; po_train := Some ((n_bins * (n - 1))%nat, if is_emd d then map cumsum cols else cols);
     po_l2 := match d with
              | OL2 => option_map (pair (length cols)) (compute_l2_param_train N fuel (n_bins * (n - 1)) (length cols) (matrix_of_columns cols))
              | _ => po_l2 s
              end;
     po_problem := None |}.

Lemma po_fit_val x y P s w s' w' : calls s -> fit x y (Some (Matrix P)) s w = (Val tt, s', w') ->
  exists q cols, UC_fit A (po_base s) w x y (Some (Matrix P)) = (Val tt, q, w') /\ (2 < length (np_unique y))%nat /\ meth <> OtherMethod /\
    length (y_ext y (length P)) = length P /\
    collect (map (fun c => pdfo_represent n_bins (length (np_unique y)) meth false (select c (y_ext y (length P)) P)) (np_unique y)) = Val cols /\
    s' = po_returned q (length (np_unique y)) cols s.
Proof.
  intros C F. unfold PDFO_object_fit in F. destruct (UC_fit A (po_base s) w x y (Some (Matrix P))) as [[r0 q] w0] eqn:U.
  destruct r0 as [[]| |]; [|discriminate..]. cbv zeta in F. destruct (Nat.leb_spec (length (np_unique y)) 2) as [|HN]; [discriminate|].
  rewrite (po_given_train _ _ _ _ _ _ _ C U) in F. cbn [as_rows] in F.
  destruct (po_scores _ _ _) as [[]| |] eqn:ES; [|discriminate..].
  destruct (DFX_fill_train _ _ _) as [cols [[]| |]] eqn:ET; [|discriminate..]. apply fill_train_val in ET.
  assert (HL : length (y_ext y (length P)) = length P).
  { destruct (Nat.eq_dec (length (y_ext y (length P))) (length P)) as [E|E]; [exact E|]. exfalso.
    destruct (np_unique y) as [|c cs]; [cbn in HN; lia|]. destruct cols as [|v cols]; [discriminate|]. cbn [map] in ET. inversion ET as [[E1 E2]].
    unfold PDFO_fill_column in E1. destruct (Nat.eqb_spec (length (y_ext y (length P))) (length P)); [contradiction|discriminate]. }
  exists q, cols. inversion F; subst. split; [reflexivity|]. split; [exact HN|]. split; [intros E; rewrite E in ES; discriminate|]. split; [exact HL|]. split.
  - apply (map_val_pair _ (fun c => pdfo_represent n_bins (length (np_unique y)) meth false (select c (y_ext y (length P)) P))) in ET; [exact ET|].
    intros c v _. now apply po_column.
  - reflexivity.
Qed.

Lemma po_answer s classes bins cols : probabilistic (po_base s) = true -> classes_ (po_base s) = Some classes -> po_train s = Some (bins, cols) ->
  meth <> OtherMethod -> d <> OtherOrdinalDistance -> (2 <= length classes)%nat -> length cols = length classes -> bins = (n_bins * (length classes - 1))%nat ->
  forall t rows w2 v, Spec_Fit4.columns (length classes) rows -> pdfo_represent n_bins (length classes) meth (is_emd d) rows = Val v ->
  snd (predict t (Some (Matrix rows)) s w2) = ordinal_answer (snd (estimate N cvx crit 0 (matcher_of (length classes) bins cols s) v)).
Proof.
  intros HP I1 I2 Hm Hd HN I3 I4 t rows w2 v HC EV. unfold PDFO_object_predict, UC_predict. cbv zeta. rewrite HP. cbn [with_test classes_ predictions_test_].
  rewrite I1, (scores_columns _ _ _ Hm HN HC). cbn [obind as_rows]. rewrite EV, I2.
  assert (EB : Nat.eqb (length v) (mt_bins (matcher_of (length classes) bins cols s)) = true).
  { apply Nat.eqb_eq. rewrite (proj1 (represent_length _ _ _ _ _ _ EV)). cbn [po_matcher mt_bins]. unfold pdfo_dim. destruct (is_emd d); [|now symmetry]. rewrite Nat.min_l; [reflexivity|lia]. }
  rewrite EB, I3, Nat.eqb_refl. cbn [negb orb]. rewrite !andb_false_r. cbn [orb]. rewrite ?andb_false_r.
  destruct (estimate N cvx crit 0 _ v) as [mm r]. unfold ordinal_answer. destruct d; try congruence; reflexivity.
Qed.

Theorem po_fit_returns x y P s w s' w' : calls s -> fit x y (Some (Matrix P)) s w = (Val tt, s', w') ->
  exists m, PDFO_fit N fuel n_bins d meth y P = Val m /\
  forall t rows w2, Spec_Fit4.columns (length (np_unique y)) rows ->
    snd (predict t (Some (Matrix rows)) s' w2) = snd (PDFO_predict N cvx d m rows).
Proof.
  intros C F. destruct (po_fit_val _ _ _ _ _ _ _ C F) as (q & cols & U & HN & HM & HL & ET & ->). destruct (po_flags _ C) as [HP _].
  destruct (UC_fit_keeps A _ _ _ _ _ _ _ _ U) as (_ & _ & K3 & _ & K5). set (n := length (np_unique y)) in *.
  assert (LT : length cols = n).
  { apply collect_inv in ET. apply (f_equal (@length _)) in ET. rewrite !map_length in ET. symmetry. exact ET. }
  set (f := fun t : list R => if is_emd d then firstn (n_bins * (n - 1) - 1) (cumsum t) else t).
  assert (EF : collect (map (fun c => pdfo_represent n_bins n meth (is_emd d) (select c (y_ext y (length P)) P)) (np_unique y)) = Val (map f cols)).
  { assert (E1 : map (fun c => pdfo_represent n_bins n meth (is_emd d) (select c (y_ext y (length P)) P)) (np_unique y) =
      map (fun c => omap f (pdfo_represent n_bins n meth false (select c (y_ext y (length P)) P))) (np_unique y)) by (apply map_ext; intros c; apply represent_emd).
    rewrite E1. rewrite (collect_omap f (fun c => pdfo_represent n_bins n meth false (select c (y_ext y (length P)) P))), ET. reflexivity. }
  exists (new_matcher N fuel crit (dim n) (pdfo_represent n_bins n meth (is_emd d)) (map f cols)). split.
  { unfold PDFO_fit. cbv zeta. fold n. destruct (Nat.leb_spec n 2); [lia|]. unfold fit_matching. rewrite HL, Nat.eqb_refl, EF. destruct meth; try reflexivity. congruence. }
  intros t rows w2 HC2. unfold PDFO_predict. change (mt_represent (new_matcher N fuel crit (dim n) (pdfo_represent n_bins n meth (is_emd d)) (map f cols)) rows)
    with (pdfo_represent n_bins n meth (is_emd d) rows).
  unfold matching_predict. change (mt_represent (new_matcher N fuel crit (dim n) (pdfo_represent n_bins n meth (is_emd d)) (map f cols)) rows)
    with (pdfo_represent n_bins n meth (is_emd d) rows).
  destruct (pdfo_represent n_bins n meth (is_emd d) rows) as [v| |] eqn:EV.
  - destruct (match d with OtherOrdinalDistance => true | _ => false end) eqn:ED.
    + destruct d; try discriminate ED. unfold PDFO_object_predict, UC_predict. cbv zeta. cbn [po_returned po_base]. rewrite K3, HP. cbn [with_test classes_ predictions_test_].
      rewrite K5. fold n. rewrite (scores_columns meth n rows HM ltac:(lia) HC2). cbn [obind as_rows]. rewrite EV. reflexivity.
    + assert (HD : d <> OtherOrdinalDistance) by (intros E; rewrite E in ED; discriminate).
      rewrite (po_answer (po_returned q n cols s) (np_unique y) (n_bins * (n - 1)) (if is_emd d then map cumsum cols else cols)) with (v := v);
        cbn [po_returned po_base po_train]; auto; try congruence; try (fold n; lia); try (fold n; destruct (is_emd d); rewrite ?map_length; exact LT).
      fold n.
      assert (ES : snd (estimate N cvx crit 0 (matcher_of n (n_bins * (n - 1)) (if is_emd d then map cumsum cols else cols) (po_returned q n cols s)) v) =
        snd (estimate N cvx crit 0 (new_matcher N fuel crit (dim n) (pdfo_represent n_bins n meth (is_emd d)) (map f cols)) v)).
      { apply estimate_same; cbn [po_matcher new_matcher mt_classes mt_bins mt_T mt_l2 mt_problem mt_mixtures po_returned po_problem po_l2]; try reflexivity.
        - destruct (is_emd d); now rewrite ?map_length.
        - unfold pdfo_dim. destruct (is_emd d); [rewrite Nat.min_l by apply Nat.le_sub_l; reflexivity|reflexivity].
        - unfold f. destruct (is_emd d); [now rewrite map_map|now rewrite map_id].
        - intros EL. destruct d; try discriminate EL. cbn [is_emd] in f. unfold f. rewrite map_id. cbn [is_emd pdfo_criterion pdfo_dim].
          destruct (compute_l2_param_train _ _ _ _ _); cbn [option_map]; [now rewrite Nat.eqb_refl|reflexivity]. }
      rewrite ES. destruct (estimate N cvx crit 0 (new_matcher _ _ _ _ _ _) v) as [mm r]. unfold ordinal_answer. destruct d; try congruence; reflexivity.
  - unfold PDFO_object_predict, UC_predict. cbv zeta. cbn [po_returned po_base]. rewrite K3, HP. cbn [with_test classes_ predictions_test_].
    rewrite K5. fold n. rewrite (scores_columns meth n rows HM ltac:(lia) HC2). cbn [obind as_rows]. rewrite EV. reflexivity.
  - unfold PDFO_object_predict, UC_predict. cbv zeta. cbn [po_returned po_base]. rewrite K3, HP. cbn [with_test classes_ predictions_test_].
    rewrite K5. fold n. rewrite (scores_columns meth n rows HM ltac:(lia) HC2). cbn [obind as_rows]. rewrite EV. reflexivity.
Qed.

Theorem po_fit_when x y P s w : calls s -> estimator_train (po_base s) = None -> estimator_test (po_base s) = None ->
  Spec_Fit4.columns (length (np_unique y)) P ->
  ((exists m, PDFO_fit N fuel n_bins d meth y P = Val m) <-> exists s' w', fit x y (Some (Matrix P)) s w = (Val tt, s', w')).
Proof.
  intros C E1 E2 HC. split.
  - intros [m Em]. destruct (PDFO_fit_inv _ _ _ _ _ _ _ _ Em) as (_ & HN & HM & EF). destruct (po_flags _ C) as [HP HNT]. unfold PDFO_object_fit, UC_fit. cbv zeta.
    cbn [with_classes needs_predictions_train estimator_train estimator_test probabilistic]. rewrite E1, E2, HP, HNT. cbn [andb ensure_fitted].
    destruct (Nat.leb_spec (length (np_unique y)) 2); [lia|].
    cbn [with_train predictions_train_ as_rows]. rewrite (scores_columns meth (length (np_unique y)) P HM ltac:(lia) HC).
    unfold fit_matching in EF. destruct (Nat.eqb_spec (length (y_ext y (length P))) (length P)) as [HL|]; [|discriminate].
    set (n := length (np_unique y)) in *. set (f := fun t : list R => if is_emd d then firstn (n_bins * (n - 1) - 1) (cumsum t) else t).
    assert (E3 : map (fun c => pdfo_represent n_bins n meth (is_emd d) (select c (y_ext y (length P)) P)) (np_unique y) =
      map (fun c => omap f (pdfo_represent n_bins n meth false (select c (y_ext y (length P)) P))) (np_unique y)) by (apply map_ext; intros c; apply represent_emd).
    rewrite E3, (collect_omap f (fun c => pdfo_represent n_bins n meth false (select c (y_ext y (length P)) P))) in EF.
    destruct (collect (map _ (np_unique y))) as [cols| |] eqn:ET; try discriminate.
    apply (map_val_pair (PDFO_fill_column n_bins n meth (y_ext y (length P)) P)) in ET; [|intros c v _; now apply po_column].
    apply (proj2 (fill_train_val (repeat 0 (n_bins * (n - 1))%nat) _ _ _)) in ET. rewrite ET. eauto.
  - intros (s' & w' & F). destruct (po_fit_returns _ _ _ _ _ _ _ C F) as (m & Em & _). eauto.
Qed.

(** ** Between a fit that returned and the next *)

Definition po_settled (n : nat) (s : pdfo_object) : Prop := exists classes cols, classes_ (po_base s) = Some classes /\
  length classes = n /\ po_train s = Some ((n_bins * (n - 1))%nat, cols) /\ length cols = n /\ (2 < n)%nat /\ (0 < n_bins)%nat /\ meth <> OtherMethod /\
  match po_problem s with None => True | Some P => cp_d P = dim n end.

Lemma po_after_settled y0 s : after y0 s -> po_settled (length (np_unique y0)) s.
Proof.
  intros H. induction H as [s0 x given w s w' C F|s x given w _ (classes & cols & I1 & I2 & I3 & I4 & I5 & I6 & I7 & I8)].
  - unfold PDFO_object_fit in F. destruct (UC_fit A (po_base s0) w x y0 given) as [[r0 q] w0] eqn:U.
    destruct (UC_fit_keeps A _ _ _ _ _ _ _ _ U) as (_ & _ & _ & _ & K5). destruct r0 as [[]| |]; [|discriminate..]. cbv zeta in F.
    destruct (Nat.leb_spec (length (np_unique y0)) 2) as [|HN]; [discriminate|].
    destruct (predictions_train_ q) as [p|]; [|discriminate]. destruct (po_scores _ _ _) as [[]| |] eqn:ES; [|discriminate..].
    destruct (DFX_fill_train _ _ _) as [cols [[]| |]] eqn:ET; [|discriminate..]. injection F as <- <-.
    exists (np_unique y0), (if is_emd d then map cumsum cols else cols). cbn [po_base po_train po_problem].
    split; [exact K5|]. split; [reflexivity|]. split; [reflexivity|].
    split; [destruct (is_emd d); rewrite ?map_length; exact (cols_length _ _ _ _ ET)|]. split; [exact HN|]. split; [|split; [intros E; rewrite E in ES; destruct p; discriminate|exact I]].
    apply fill_train_val in ET. destruct (np_unique y0) as [|c cs]; [cbn in HN; lia|]. destruct cols as [|v cols]; [discriminate|]. cbn [map] in ET. inversion ET as [[E1 E2]].
    unfold PDFO_fill_column in E1. cbv zeta in E1. destruct (negb _); [discriminate|]. destruct (pdfo_represent _ _ _ _ _) eqn:EP; try discriminate.
    apply represent_length in EP. destruct n_bins; [cbn in EP; lia|lia].
  - destruct (po_predict_base s x given w) as (EB & E1 & E2). set (s' := fst (predict x given s w)) in *.
    assert (EK : classes_ (po_base s') = Some classes /\ forall r q, UC_predict A (po_base s) w x given = (r, q) -> classes_ q = Some classes).
    { split.
      - rewrite EB. destruct (UC_predict A (po_base s) w x given) as [r q] eqn:U. destruct (UC_predict_keeps A _ _ _ _ _ _ U) as (_ & _ & _ & _ & K5).
        cbn [snd]. congruence.
      - intros r q U. destruct (UC_predict_keeps A _ _ _ _ _ _ U) as (_ & _ & _ & _ & K5). congruence. }
    destruct EK as [EK EQ]. exists classes, cols. rewrite E1. repeat (split; [assumption|]).
    unfold s', PDFO_object_predict. destruct (UC_predict A (po_base s) w x given) as [r q] eqn:U. destruct r as [[]| |]; try exact I8.
    rewrite (EQ _ _ eq_refl). destruct (predictions_test_ q) as [p|]; [|exact I8]. cbv zeta. rewrite I2.
    destruct (po_scores _ _ _) as [[]| |]; try exact I8. cbn [obind]. destruct (pdfo_represent _ _ _ _ _) as [t| |] eqn:EV; try exact I8.
    destruct (represent_length _ _ _ _ _ _ EV) as [LT HB]. rewrite I3.
    set (m1 := matcher_of (length (np_unique y0)) (n_bins * (length (np_unique y0) - 1)) cols s).
    assert (BM : mt_bins m1 = dim (length (np_unique y0))) by (unfold m1; cbn [po_matcher mt_bins]; unfold pdfo_dim; destruct (is_emd d); [rewrite Nat.min_l by apply Nat.le_sub_l; reflexivity|reflexivity]).
    pose proof (estimate_problem N cvx crit 0 m1 t) as EP. rewrite BM in EP. specialize (EP LT I8).
    destruct (estimate N cvx crit 0 m1 t) as [mm rr]. cbn [fst] in EP.
    destruct d; try exact I8; (match goal with |- context [if ?b then _ else _] => destruct b end; [exact I8|exact EP]).
Qed.

Lemma po_predict_same s1 s2 cl1 cl2 : estimator_test (po_base s1) = estimator_test (po_base s2) -> probabilistic (po_base s1) = true -> probabilistic (po_base s2) = true ->
  classes_ (po_base s1) = Some cl1 -> classes_ (po_base s2) = Some cl2 -> length cl1 = length cl2 -> po_problem s1 = po_problem s2 ->
  (po_train s1 = po_train s2 /\ (d = OL2 -> po_l2 s1 = po_l2 s2)) \/
  (needs_cvx crit = true /\ po_problem s1 <> None /\ po_train s1 <> None /\ po_train s2 <> None) ->
  forall t p w, snd (predict t p s1 w) = snd (predict t p s2 w).
Proof.
  intros H1 H2 H3 H4 H5 H6 H7 HT t p w. unfold PDFO_object_predict.
  destruct (UC_predict_prob A (po_base s1) (po_base s2) w t p H1 H2 H3) as [(pp & E1 & E2)|[(e & E1 & E2)|(E1 & E2)]]; rewrite E1, E2; try reflexivity.
  cbn [with_test classes_ predictions_test_]. rewrite H4, H5. cbv zeta. rewrite H6. destruct (obind _ _) as [td| |]; try reflexivity.
  destruct (match d with OtherOrdinalDistance => true | _ => false end) eqn:ED; [destruct d; try discriminate ED; reflexivity|].
  assert (G : forall b1 c1 b2 c2, po_train s1 = Some (b1, c1) -> po_train s2 = Some (b2, c2) ->
    let m1 := matcher_of (length cl2) b1 c1 s1 in let m2 := matcher_of (length cl2) b2 c2 s2 in
    snd (if negb (needs_cvx crit && match po_problem s1 with None => false | Some _ => true end) &&
            (negb (Nat.eqb (length td) (mt_bins m1)) || (needs_cvx crit && negb (Nat.eqb (length cl2) (length c1))))
         then (s1, Err ValueError) else let '(mt, r) := estimate N cvx crit 0 m1 td in (s1, omap (fun v => Some (if is_emd d then clip_normalise v else v)) r)) =
    snd (if negb (needs_cvx crit && match po_problem s2 with None => false | Some _ => true end) &&
            (negb (Nat.eqb (length td) (mt_bins m2)) || (needs_cvx crit && negb (Nat.eqb (length cl2) (length c2))))
         then (s2, Err ValueError) else let '(mt, r) := estimate N cvx crit 0 m2 td in (s2, omap (fun v => Some (if is_emd d then clip_normalise v else v)) r))).
  { intros b1 c1 b2 c2 T1 T2 m1 m2. destruct HT as [(HA & HB)|(HN & HA & HB & HC)].
    - rewrite T1, T2 in HA. injection HA as <- <-. subst m1 m2. rewrite H7. cbn [po_matcher mt_bins]. match goal with |- context [if ?b then _ else _] => destruct b end; [reflexivity|].
      assert (ES : snd (estimate N cvx crit 0 (matcher_of (length cl2) b1 c1 s1) td) = snd (estimate N cvx crit 0 (matcher_of (length cl2) b1 c1 s2) td)).
      { apply estimate_same; try reflexivity; try exact H7. intros EL. cbn [po_matcher mt_l2]. rewrite HB; [reflexivity|]. destruct d; try discriminate EL. reflexivity. }
      destruct (estimate N cvx crit 0 (matcher_of (length cl2) b1 c1 s1) td), (estimate N cvx crit 0 (matcher_of (length cl2) b1 c1 s2) td). cbn [snd] in *. now rewrite ES.
    - rewrite <- H7. destruct (po_problem s1) as [Q|] eqn:EQ; [|congruence]. rewrite HN. cbn [andb negb].
      assert (ES : snd (estimate N cvx crit 0 m1 td) = snd (estimate N cvx crit 0 m2 td)).
      { apply (estimate_cached N cvx crit 0 m1 m2 td Q HN); [exact EQ|symmetry; exact H7]. }
      destruct (estimate N cvx crit 0 m1 td), (estimate N cvx crit 0 m2 td). cbn [snd] in *. now rewrite ES. }
  assert (TT : (po_train s1 = None /\ po_train s2 = None) \/ exists b1 c1 b2 c2, po_train s1 = Some (b1, c1) /\ po_train s2 = Some (b2, c2)).
  { destruct HT as [(HA & _)|(_ & _ & HB & HC)].
    - rewrite HA. destruct (po_train s2) as [[b c]|]; [right; eauto 6|left; auto].
    - destruct (po_train s1) as [[b c]|]; [|congruence]. destruct (po_train s2) as [[b' c']|]; [|congruence]. right. eauto 6. }
  destruct TT as [[T1 T2]|(b1 & c1 & b2 & c2 & T1 & T2)].
  - rewrite T1, T2. destruct d; reflexivity.
  - specialize (G b1 c1 b2 c2 T1 T2). rewrite T1, T2. cbv zeta in G |- *.
    destruct d; try discriminate ED;
      (repeat match goal with |- context [if ?b then _ else _] => lazymatch b with context [negb] => destruct b end end;
       repeat match goal with |- context [estimate ?a ?b ?c ?e ?f ?g] => destruct (estimate a b c e f g) end; exact G).
Qed.

(** Another number of classes than that of train_distrib_. *)
Lemma po_mismatch s classes cols n : d <> OtherOrdinalDistance -> classes_ (po_base s) = Some classes -> po_train s = Some ((n_bins * (n - 1))%nat, cols) -> length cols = n ->
  (2 < n)%nat -> (0 < n_bins)%nat -> match po_problem s with None => True | Some P => cp_d P = dim n end -> length classes <> n -> forall t p w2, raises (snd (predict t p s w2)).
Proof.
  intros HD I1 I3 I4 I5 I6 I8 HN t p w2 v. unfold PDFO_object_predict.
  destruct (UC_predict A (po_base s) w2 t p) as [r q'] eqn:UP. destruct (UC_predict_keeps A _ _ _ _ _ _ UP) as (_ & _ & _ & _ & K6).
  destruct r as [[]| |]; try discriminate. rewrite K6, I1. destruct (predictions_test_ q') as [pp|]; [|discriminate]. cbv zeta.
  destruct (po_scores _ _ _) as [[]| |]; try discriminate. cbn [obind]. destruct (pdfo_represent _ _ _ _ _) as [td| |] eqn:ET; try discriminate. rewrite I3.
  destruct (represent_length _ _ _ _ _ _ ET) as [LT HB].
  assert (HB0 : (0 < n_bins * (n - 1))%nat) by (apply Nat.mul_pos_pos; lia).
  pose proof (dim_differs n_bins n (length classes) (is_emd d) (not_eq_sym HN) HB0 HB) as DD.
  assert (EN : Nat.eqb (length classes) (length cols) = false) by (apply Nat.eqb_neq; congruence).
  destruct (needs_cvx crit && match po_problem s with None => false | Some _ => true end) eqn:EQ; cbn [negb andb].
  - apply andb_true_iff in EQ. destruct EQ as [ENC EP]. destruct (po_problem s) as [P|] eqn:EPP; [|discriminate EP].
    assert (RP : run_problem cvx P td = Err ValueError).
    { unfold run_problem, valid_parameter. rewrite I8, LT. destruct (Nat.eqb_spec (dim (length classes)) (dim n)); [contradiction|reflexivity]. }
    unfold estimate. cbv zeta. cbn [po_matcher mt_problem]. rewrite EPP.
    destruct d; try congruence; try discriminate ENC; cbn [pdfo_criterion solve_hd solve_l1]; rewrite RP; discriminate.
  - rewrite EN. destruct (needs_cvx crit) eqn:ENC; cbn [negb andb].
    + rewrite orb_true_r. destruct d; try congruence; discriminate.
    + destruct d; try congruence; try discriminate ENC. cbn [po_matcher mt_bins is_emd] in *. unfold pdfo_dim in DD, LT. rewrite LT.
      destruct (Nat.eqb_spec (n_bins * (length classes - 1)) (n_bins * (n - 1))); [contradiction|]. discriminate.
Qed.

(** Whenever fit raises before it assigns train_distrib_. *)
Lemma po_untouched y0 s y q : after y0 s -> classes_ q = Some (np_unique y) -> estimator_test q = estimator_test (po_base s) -> probabilistic q = probabilistic (po_base s) ->
  (length (np_unique y) = length (np_unique y0) -> forall t p w2, snd (predict t p (po_with_base q s) w2) = snd (predict t p s w2)) /\
  (d <> OtherOrdinalDistance -> length (np_unique y) <> length (np_unique y0) -> forall t p w2, raises (snd (predict t p (po_with_base q s) w2))).
Proof.
  intros HA K5 K2 K3. destruct (po_after_settled _ _ HA) as (classes & cols & I1 & I2 & I3 & I4 & I5 & I6 & I7 & I8).
  destruct (po_flags _ (po_after_calls _ _ HA)) as [HP _]. split.
  - intros HN t p w2. apply (po_predict_same (po_with_base q s) s (np_unique y) classes); cbn [po_with_base po_base po_problem po_train po_l2]; auto; congruence.
  - intros HD HN. exact (po_mismatch (po_with_base q s) (np_unique y) cols _ HD K5 I3 I4 I5 I6 I8 HN).
Qed.

Theorem po_early y0 s x y given w : after y0 s -> raises (fst (fst (UC_fit A (po_base s) w x y given))) ->
  exists r s' w', fit x y given s w = (r, s', w') /\ raises r /\
  (length (np_unique y) = length (np_unique y0) -> forall t p w2, snd (predict t p s' w2) = snd (predict t p s w2)) /\
  (d <> OtherOrdinalDistance -> length (np_unique y) <> length (np_unique y0) -> forall t p w2, raises (snd (predict t p s' w2))).
Proof.
  intros HA HR. destruct (UC_fit A (po_base s) w x y given) as [[r0 q] w0] eqn:U. cbn [fst] in HR. destruct (UC_fit_keeps A _ _ _ _ _ _ _ _ U) as (K1 & K2 & K3 & K4 & K5).
  exists r0, (po_with_base q s), w0. split; [|split; [exact HR|exact (po_untouched y0 s y q HA K5 K2 K3)]].
  unfold PDFO_object_fit. rewrite U. destruct r0 as [[]| |]; [|reflexivity..]. destruct (HR tt eq_refl).
Qed.

(** Labels of at most two classes. *)
Theorem two_classes y0 s x y P w : d <> OtherOrdinalDistance -> after y0 s -> estimator_train (po_base s) = None -> estimator_test (po_base s) = None ->
  (length (np_unique y) <= 2)%nat ->
  exists s', fit x y (Some (Matrix P)) s w = (Err TypeError, s', w) /\ forall t p w2, raises (snd (predict t p s' w2)).
Proof.
  intros HD HA E1 E2 HN. destruct (po_flags _ (po_after_calls _ _ HA)) as [HP HNT].
  destruct (po_after_settled _ _ HA) as (classes & cols & _ & _ & _ & _ & I5 & _).
  eexists. split.
  { unfold PDFO_object_fit, UC_fit. cbv zeta. cbn [with_classes needs_predictions_train estimator_train estimator_test probabilistic]. rewrite E1, E2, HP, HNT.
    cbn [andb ensure_fitted]. destruct (Nat.leb_spec (length (np_unique y)) 2); [reflexivity|lia]. }
  apply (po_untouched y0 s y _ HA); cbn [with_train with_classes classes_ estimator_test probabilistic]; auto. lia.
Qed.

(** The wrong number of columns. *)
Theorem wrong_columns y0 s x y P k w : meth = FullProbabilistic -> after y0 s -> estimator_train (po_base s) = None -> estimator_test (po_base s) = None ->
  P <> [] -> Spec_Fit4.columns k P -> (2 < length (np_unique y))%nat -> k <> length (np_unique y) ->
  exists s', fit x y (Some (Matrix P)) s w = (Err ValueError, s', w) /\
  (length (np_unique y) = length (np_unique y0) -> forall t p w2, snd (predict t p s' w2) = snd (predict t p s w2)) /\
  (d <> OtherOrdinalDistance -> length (np_unique y) <> length (np_unique y0) -> forall t p w2, raises (snd (predict t p s' w2))).
Proof.
  intros HM HA E1 E2 HP0 HC HN HK. destruct (po_flags _ (po_after_calls _ _ HA)) as [HP HNT].
  eexists. split.
  { unfold PDFO_object_fit, UC_fit. cbv zeta. cbn [with_classes needs_predictions_train estimator_train estimator_test probabilistic]. rewrite E1, E2, HP, HNT.
    cbn [andb ensure_fitted]. destruct (Nat.leb_spec (length (np_unique y)) 2); [lia|]. cbn [with_train predictions_train_]. rewrite HM. unfold po_scores.
    assert (EF : forallb (fun r => Nat.eqb (length r) (length (np_unique y))) P = false).
    { destruct P as [|r P]; [congruence|]. inversion HC; subst. cbn [forallb]. destruct (Nat.eqb_spec (length r) (length (np_unique y))); [congruence|reflexivity]. }
    rewrite EF. reflexivity. }
  apply (po_untouched y0 s y _ HA); cbn [with_train with_classes classes_ estimator_test probabilistic]; auto.
Qed.

(** ** A wrong number of predictions *)
Definition po_blank (n : nat) : list (list R) := repeat (repeat 0 (n_bins * (n - 1))%nat) n.

Lemma po_short_fit x y P s w : calls s -> estimator_train (po_base s) = None -> estimator_test (po_base s) = None -> meth <> OtherMethod ->
  (2 < length (np_unique y))%nat -> Spec_Fit4.columns (length (np_unique y)) P -> wrong_number y P ->
  exists q, fit x y (Some (Matrix P)) s w = (Err IndexError, {| po_base := q;
    po_train := Some ((n_bins * (length (np_unique y) - 1))%nat, po_blank (length (np_unique y)));
    po_l2 := po_l2 s; po_problem := po_problem s |}, w) /\ classes_ q = Some (np_unique y) /\ estimator_test q = None /\ probabilistic q = true.
Proof.
  intros C E1 E2 Hm HN HC HW. destruct (po_flags _ C) as [HP HNT].
  unfold PDFO_object_fit, UC_fit. cbv zeta. cbn [with_classes needs_predictions_train estimator_train estimator_test probabilistic]. rewrite E1, E2, HP, HNT.
  cbn [andb ensure_fitted]. destruct (Nat.leb_spec (length (np_unique y)) 2); [lia|]. cbn [with_train predictions_train_ as_rows].
  rewrite (scores_columns meth (length (np_unique y)) P Hm ltac:(lia) HC).
  assert (ET : DFX_fill_train (repeat 0 (n_bins * (length (np_unique y) - 1))%nat)
    (PDFO_fill_column n_bins (length (np_unique y)) meth (y_ext y (length P)) P) (np_unique y) = (po_blank (length (np_unique y)), Err IndexError)).
  { unfold po_blank. destruct (np_unique y) as [|c cs]; [cbn in HN; lia|]. cbn [DFX_fill_train]. unfold PDFO_fill_column at 1. cbv zeta.
    destruct (Nat.eqb_spec (length (y_ext y (length P))) (length P)); [contradiction|]. reflexivity. }
  rewrite ET. eexists. split; [reflexivity|]. cbn [with_train classes_ estimator_test probabilistic]. auto.
Qed.

Theorem po_short_cached y0 s1 t1 p1 w1 s2 r1 x y P w : needs_cvx crit = true -> d <> OtherOrdinalDistance -> after y0 s1 ->
  estimator_train (po_base s1) = None -> estimator_test (po_base s1) = None ->
  predict t1 p1 s1 w1 = (s2, Val r1) ->
  length (np_unique y) = length (np_unique y0) -> Spec_Fit4.columns (length (np_unique y)) P -> wrong_number y P ->
  exists s3, fit x y (Some (Matrix P)) s2 w = (Err IndexError, s3, w) /\ forall t p w2, snd (predict t p s3 w2) = snd (predict t p s2 w2).
Proof.
  intros HC HD HA E1 E2 EP HN HM HW.
  assert (HA2 : after y0 s2) by (change s2 with (fst (s2, Val r1)); rewrite <- EP; now apply PDFO_after_predict).
  destruct (po_predict_base s1 t1 p1 w1) as (EB & _). rewrite EP in EB. cbn [fst] in EB.
  assert (KE : estimator_train (po_base s2) = None /\ estimator_test (po_base s2) = None).
  { rewrite EB. destruct (UC_predict A (po_base s1) w1 t1 p1) as [r q] eqn:U. destruct (UC_predict_keeps A _ _ _ _ _ _ U) as (K1 & K2 & _).
    cbn [snd]. split; congruence. }
  destruct KE as [E3 E4]. destruct (po_after_settled _ _ HA2) as (classes & cols & I1 & I2 & I3 & I4 & I5 & I6 & I7 & I8).
  destruct (po_flags _ (po_after_calls _ _ HA2)) as [HP _].
  destruct (po_short_fit x y P s2 w (po_after_calls _ _ HA2) E3 E4 I7 ltac:(lia) HM HW) as (q & F & Q1 & Q2 & Q3).
  eexists. split; [exact F|]. intros t p w2. apply (po_predict_same _ s2 (np_unique y) classes); cbn [po_base po_problem po_train]; auto; try congruence.
  right. split; [exact HC|]. split; [|split; [discriminate|congruence]].
  unfold PDFO_object_predict in EP. destruct (UC_predict A (po_base s1) w1 t1 p1) as [r q1]. destruct r as [[]| |]; try discriminate.
  destruct (classes_ q1) as [cl|]; [|discriminate]. destruct (predictions_test_ q1) as [pp|]; [|discriminate]. cbv zeta in EP.
  destruct (obind _ _) as [td| |]; try discriminate. destruct (po_train s1) as [[b co]|]; [|destruct d; try discriminate; congruence].
  pose proof (estimate_caches N cvx crit 0 (matcher_of (length cl) b co s1) td) as EC.
  destruct (estimate N cvx crit 0 (matcher_of (length cl) b co s1) td) as [m r] eqn:ES.
  destruct (match d with OtherOrdinalDistance => true | _ => false end) eqn:ED; [destruct d; try discriminate ED; congruence|].
  assert (EP' : exists b0 : bool, (if b0 then (po_with_base q1 s1, Err ValueError) else
    ({| po_base := q1; po_train := Some (b, co); po_l2 := po_l2 s1; po_problem := mt_problem m |}, ordinal_answer r)) = (s2, Val r1)).
  { unfold ordinal_answer. destruct d; try discriminate ED; eexists; exact EP. }
  destruct EP' as [[|] EP']; [discriminate|]. destruct r as [v| |]; cbn [ordinal_answer omap obind] in EP'; try discriminate EP'. injection EP' as <- Er. cbn [po_problem].
  exact (EC m v HC eq_refl).
Qed.

Theorem po_short_forgets x0 y0 given0 s0 w0 s w1 x y P w : d <> OL2 -> calls s0 ->
  estimator_train (po_base s0) = None -> estimator_test (po_base s0) = None ->
  fit x0 y0 given0 s0 w0 = (Val tt, s, w1) ->
  (2 < length (np_unique y))%nat -> Spec_Fit4.columns (length (np_unique y)) P -> wrong_number y P ->
  exists s' s'', fit x y (Some (Matrix P)) s w = (Err IndexError, s', w) /\ fit x y (Some (Matrix P)) (PDFO_new None None) w = (Err IndexError, s'', w) /\
  forall t p w2, snd (predict t p s' w2) = snd (predict t p s'' w2).
Proof.
  intros HC CS E1 E2 F0 HN HM HW.
  assert (CS1 : calls s) by (eapply PDFO_calls_fit; eassumption).
  assert (HA : after y0 s) by exact (PDFO_after_now _ _ _ _ _ _ _ _ _ _ _ _ _ _ CS F0).
  destruct (po_after_settled y0 s HA) as (classes & cols & _ & _ & _ & _ & _ & _ & Hm & _).
  destruct (po_fit_base _ _ _ _ _ _ _ _ F0) as [r0 U]. destruct (UC_fit_keeps A _ _ _ _ _ _ _ _ U) as (K1 & K2 & _).
  assert (PN1 : po_problem s = None).
  { unfold PDFO_object_fit in F0. destruct (UC_fit A (po_base s0) w0 x0 y0 given0) as [[r q] wq]. destruct r as [[]| |]; [|discriminate..]. cbv zeta in F0.
    destruct (Nat.leb _ _); [discriminate|]. destruct (predictions_train_ q); [|discriminate]. destruct (po_scores _ _ _) as [[]| |]; [|discriminate..].
    destruct (DFX_fill_train _ _ _) as [co [[]| |]]; [|discriminate..]. injection F0 as <- <-. reflexivity. }
  destruct (po_short_fit x y P s w CS1 ltac:(congruence) ltac:(congruence) Hm HN HM HW) as (q & F & Q1 & Q2 & Q3).
  destruct (po_short_fit x y P (PDFO_new None None) w (PDFO_calls_new _ _ _ _ _ _ _ None None) eq_refl eq_refl Hm HN HM HW) as (q' & F' & Q1' & Q2' & Q3').
  eexists. eexists. split; [exact F|]. split; [exact F'|]. intros t p w2.
  apply (po_predict_same _ _ (np_unique y) (np_unique y)); cbn [po_base po_problem po_train po_l2 PDFO_new]; auto; try congruence.
  left. split; [reflexivity|]. intros E. contradiction.
Qed.

(** ** What the zeros of train_distrib_ make of the answers *)

Lemma zero_entries (cols : list (list R)) r c : (forall v, In v cols -> Forall (fun e => e = 0) v) -> matrix_of_columns cols r c = 0.
Proof.
  intros H. unfold matrix_of_columns. destruct (Nat.lt_ge_cases c (length cols)) as [HC|HC].
  - specialize (H (nth c cols []) (nth_In _ _ HC)). rewrite Forall_forall in H. destruct (Nat.lt_ge_cases r (length (nth c cols []))) as [HR|HR].
    + apply H. now apply nth_In.
    + now apply nth_overflow.
  - rewrite (nth_overflow cols) by exact HC. destruct r; reflexivity.
Qed.

Lemma blank_entries n k : forall v, In v (if is_emd d then map (firstn k) (po_blank n) else po_blank n) -> Forall (fun e => e = 0) v.
Proof.
  assert (Z : forall j, Forall (fun e : R => e = 0) (repeat 0 j)) by (intros j; apply Forall_forall; intros e He; now apply repeat_spec in He).
  intros v Hv. destruct (is_emd d).
  - apply in_map_iff in Hv. destruct Hv as (u & <- & Hu). apply repeat_spec in Hu. subst u. apply Forall_forall. intros e He.
    rewrite <- (firstn_skipn k (repeat 0 _)) in *. specialize (Z (n_bins * (n - 1))%nat). rewrite <- (firstn_skipn k (repeat 0 _)), Forall_app in Z.
    destruct Z as [Z _]. rewrite Forall_forall in Z. apply Z. rewrite firstn_skipn in He. exact He.
  - apply repeat_spec in Hv. subst v. apply Z.
Qed.

Theorem po_short_l2 x y P s w : d = OL2 -> (0 < n_bins)%nat -> meth <> OtherMethod -> calls s ->
  estimator_train (po_base s) = None -> estimator_test (po_base s) = None ->
  (2 < length (np_unique y))%nat -> Spec_Fit4.columns (length (np_unique y)) P -> wrong_number y P ->
  exists s' r, fit x y (Some (Matrix P)) s w = (Err IndexError, s', w) /\
  forall t rows w2, rows <> [] -> Spec_Fit4.columns (length (np_unique y)) rows -> snd (predict t (Some (Matrix rows)) s' w2) = r.
Proof.
  intros HL HB Hm C E1 E2 HN HM HW. destruct (po_short_fit x y P s w C E1 E2 Hm HN HM HW) as (q & F & Q1 & Q2 & Q3).
  set (n := length (np_unique y)) in *. assert (LB : length (po_blank n) = n) by apply repeat_length.
  match type of F with _ = (_, ?s1, _) => set (s' := s1) in * end.
  set (mt := matcher_of n (n_bins * (n - 1)) (po_blank n) s').
  exists s', (ordinal_answer (match mt_l2 mt with
              | Some (G, C, b) => match solve_qp N n (S n) G (fun _ => 0) C b 1 with Some x => Val x | None => Err ValueError end
              | None => Err ValueError end)).
  split; [exact F|]. intros t rows w2 HR HM2.
  pose proof (pdfo_averages' n_bins n meth (is_emd d) HB ltac:(lia) rows HR) as EV.
  set (td := tabulate _ _) in EV.
  rewrite (po_answer s' (np_unique y) (n_bins * (n - 1)) (po_blank n)) with (v := td); auto; try (fold n; lia); [|rewrite HL; discriminate].
  assert (LT : length td = (n_bins * (n - 1))%nat) by (unfold td; rewrite tabulate_length, HL; reflexivity).
  fold n. fold mt. clearbody td. assert (EC : crit = Named L2) by (rewrite HL; reflexivity). rewrite EC. f_equal. unfold estimate. cbv zeta. cbn [snd].
  assert (M1 : mt_bins mt = (n_bins * (n - 1))%nat) by (unfold mt; cbn [po_matcher mt_bins]; rewrite HL; reflexivity).
  assert (M2 : mt_classes mt = n) by exact LB. rewrite M1, M2.
  destruct (mt_l2 mt) as [[[G Cm] b]|]; [|reflexivity]. unfold solve_l2. cbv zeta. rewrite LT, Nat.eqb_refl.
  assert (EA : (fun i => 2 * sumn (n_bins * (n - 1)) (fun r => mt_T mt r i * nth r td 0)) = (fun _ => 0)).
  { apply FunctionalExtensionality.functional_extensionality. intros i. generalize (n_bins * (n - 1))%nat as k. intros k.
    assert (S0 : sumn k (fun r => mt_T mt r i * nth r td 0) = 0).
    { induction k as [|k IH]; [reflexivity|]. cbn [sumn]. rewrite ?IH. replace (mt_T mt k i) with 0; [lra|]. symmetry. apply zero_entries, blank_entries. }
    rewrite S0. lra. }
  rewrite EA. reflexivity.
Qed.

Lemma zero_mixture n k r j p : mix r j (matrix_of_columns (if is_emd d then map (firstn k) (po_blank n) else po_blank n)) p = repeat 0 r.
Proof.
  unfold mix, tabulate. set (T := matrix_of_columns _). assert (S0 : forall i, sumn j (fun c => T i c * nth c p 0) = 0).
  { intros i. induction j as [|j IH]; [reflexivity|]. cbn [sumn]. rewrite ?IH. replace (T i j) with 0; [lra|]. symmetry. apply zero_entries, blank_entries. }
  rewrite (map_ext _ (fun _ => 0)) by exact S0. clear. generalize 0%nat. induction r as [|r IH]; intros i; [reflexivity|]. cbn. now rewrite IH.
Qed.

Lemma mean_nonneg {B} (f : B -> R) l : (forall b, 0 <= f b) -> 0 <= mean_of f l.
Proof.
  intros H. unfold mean_of, Rdiv. destruct l as [|b l]; [cbn; lra|]. apply Rmult_le_pos; [|left; apply Rinv_0_lt_compat, lt_0_INR; cbn; lia].
  generalize (b :: l). intros k. induction k as [|c k IH]; [cbn; lra|]. cbn [map]. unfold rsum in *. cbn. specialize (H c). lra.
Qed.

Theorem po_never_fitted x y P w rows t w2 : answering_cvx cvx -> needs_cvx crit = true -> d <> OtherOrdinalDistance -> (0 < n_bins)%nat -> meth <> OtherMethod ->
  (2 < length (np_unique y))%nat -> Spec_Fit4.columns (length (np_unique y)) P -> wrong_number y P -> rows <> [] -> Spec_Fit4.columns (length (np_unique y)) rows ->
  exists s p, fit x y (Some (Matrix P)) (PDFO_new None None) w = (Err IndexError, s, w) /\ snd (predict t (Some (Matrix rows)) s w2) = Val (Some p).
Proof.
  intros HX HC HD HB Hm HN HM HW HR HM2.
  destruct (po_short_fit x y P (PDFO_new None None) w (PDFO_calls_new _ _ _ _ _ _ _ None None) eq_refl eq_refl Hm HN HM HW) as (q & F & Q1 & Q2 & Q3).
  set (n := length (np_unique y)) in *. assert (LB : length (po_blank n) = n) by apply repeat_length.
  cbn [PDFO_new po_l2 po_problem] in F. match type of F with _ = (_, ?s1, _) => set (s' := s1) in * end.
  pose proof (pdfo_averages' n_bins n meth (is_emd d) HB ltac:(lia) rows HR) as EV. set (td := tabulate _ _) in EV.
  assert (LT : length td = dim n) by apply tabulate_length.
  assert (FT : Forall (fun v => 0 <= v) td).
  { unfold td, tabulate. apply Forall_forall. intros v Hv. apply in_map_iff in Hv. destruct Hv as (k & <- & _). apply mean_nonneg. intros b. apply pdfo_phi_nonneg. }
  assert (AN : exists p, snd (predict t (Some (Matrix rows)) s' w2) = Val (Some p)).
  { rewrite (po_answer s' (np_unique y) (n_bins * (n - 1)) (po_blank n)) with (v := td); auto; try (fold n; lia). fold n. clearbody td.
    assert (RA : forall obj, (forall p p', obj td p = obj td p') ->
      exists P' z, run_problem cvx {| cp_n := n; cp_d := dim n; cp_objective := obj; cp_last := None |} td = Val (P', z)).
    { intros obj HO. destruct n as [|k] eqn:En; [lia|]. apply (run_problem_answers _ _ _ (1 :: repeat 0 k) HX); [exact LT|exact FT|]. cbn [cp_n cp_objective]. split.
      - split; [cbn; now rewrite repeat_length|]. split.
        + constructor; [lra|]. apply Forall_forall. intros v Hv. apply repeat_spec in Hv. lra.
        + cbn [rsum]. assert (Z : rsum (repeat 0 k) = 0) by (clear; induction k; cbn; lra). unfold rsum in *. cbn. lra.
      - intros z _. rewrite (HO _ z). lra. }
    assert (MB : mt_bins (matcher_of n (n_bins * (n - 1)) (po_blank n) s') = dim n).
    { cbn [po_matcher mt_bins]. unfold pdfo_dim. destruct (is_emd d); [rewrite Nat.min_l by apply Nat.le_sub_l; reflexivity|reflexivity]. }
    unfold estimate. cbv zeta. rewrite MB. change (mt_classes (matcher_of n (n_bins * (n - 1)) (po_blank n) s')) with (length (po_blank n)). rewrite LB.
    change (mt_problem (matcher_of n (n_bins * (n - 1)) (po_blank n) s')) with (@None cvx_problem).
    change (mt_T (matcher_of n (n_bins * (n - 1)) (po_blank n) s')) with (matrix_of_columns (if is_emd d then map (firstn (n_bins * (n - 1) - 1)) (po_blank n) else po_blank n)).
    set (T := matrix_of_columns _).
    assert (HH : forall p p', hd_objective (dim n) n T td p = hd_objective (dim n) n T td p') by (intros p p'; unfold hd_objective, T; now rewrite !zero_mixture).
    assert (H1 : forall p p', l1_objective (dim n) n T td p = l1_objective (dim n) n T td p') by (intros p p'; unfold l1_objective, T; now rewrite !zero_mixture).
    destruct (RA _ HH) as (P1 & z1 & R1). destruct (RA _ H1) as (P2 & z2 & R2). clearbody T.
    assert (EL : Nat.eqb (length td) (dim n) = true) by now apply Nat.eqb_eq.
    destruct d; try congruence; try discriminate HC; cbn [pdfo_criterion solve_hd solve_l1]; rewrite EL, LT; rewrite ?R1, ?R2;
      cbn; eauto. }
  destruct AN as [p AN]. exists s', p. split; [exact F|exact AN].
Qed.
End Object.
