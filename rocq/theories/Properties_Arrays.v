(** * C110, C111: arrays as mutable objects. *)

From Coq Require Import Reals List ZArith Lia Lra Bool.
From Verif Require Import Num Spec M_Baselines M_Base M_Metrics M_Ordinal M_Estimators M_Optim M_Search M_Bags M_Arrays
  Spec_Arrays Spec_Rename L_Arrays L_Arrays2 L_Arrays3 L_Arrays4.
Import ListNotations.
Open Scope R_scope.

(** ** C110: the code that writes into arrays computes what the value-level models say, and leaves the arrays of the
    caller as they were. *)

(** The correction of decreasing left-group prevalences. *)
Theorem C110_correction : forall h a p, nth_error h a = Some (Floats p) ->
  returns (correct_program a) h (Floats (correct_asc p)).
Proof. exact correct_program_returns. Qed.
Print Assumptions C110_correction.

(** A vector that has to be corrected is answered with a new array ... *)
Theorem C110_correction_new : forall h a p, nth_error h a = Some (Floats p) -> is_ascending p = false ->
  returns_new (correct_program a) h (Floats (correct_asc p)).
Proof. exact correct_program_ok. Qed.
Print Assumptions C110_correction_new.

(** ... but the answer for an ascending one is the array of the caller itself: writing into the answer changes it. *)
Theorem C110_correction_new_refuted : ~ forall h a p, nth_error h a = Some (Floats p) ->
  returns_new (correct_program a) h (Floats (correct_asc p)).
Proof. exact correct_program_new_refuted. Qed.
Print Assumptions C110_correction_new_refuted.

(** From the left groups to the prevalences of the classes. *)
Theorem C110_prevalences : forall h a left p, nth_error h a = Some (Floats left) -> from_left_groups left = Val p ->
  returns_new (prevalences_program (S (length left)) a) h (Floats p).
Proof. exact prevalences_program_ok. Qed.
Print Assumptions C110_prevalences.

(** Crisp predictions from probabilities. *)
Theorem C110_threshold : forall h a p, nth_error h a = Some (Floats p) ->
  returns_new (threshold_program a) h (Ints (threshold p)).
Proof. exact threshold_program_ok. Qed.
Print Assumptions C110_threshold.

(** Weights written with masks: QUANTy, SORDy, PWK. *)
Theorem C110_quantile_weights : forall h a labels prevalence c0 c1, nth_error h a = Some (Ints labels) ->
  returns_new (quantile_weights_program prevalence (length labels) a c0 c1) h
    (Floats (quantile_weights prevalence (length labels) labels c0 c1)).
Proof. exact quantile_weights_program_ok. Qed.
Print Assumptions C110_quantile_weights.

Theorem C110_sord_weights : forall h a labels p c0 c1, nth_error h a = Some (Ints labels) ->
  returns_new (sord_weights_program p a [c0; c1]) h (Floats (sord_weights p labels c0 c1)).
Proof. exact sord_weights_program_ok. Qed.
Print Assumptions C110_sord_weights.

Theorem C110_pwk_weights : forall h a labels, nth_error h a = Some (Ints labels) ->
  returns_new (pwk_weights_program a) h (Floats (PWK_weights labels)).
Proof. exact pwk_weights_program_new. Qed.
Print Assumptions C110_pwk_weights.

(** The recalls of the geometric mean. *)
Theorem C110_recall : forall h a b correction y_true y_pred classes,
  nth_error h a = Some (Floats (map (fun c => INR (tp_count c y_true y_pred)) classes)) ->
  nth_error h b = Some (Floats (map (fun c => INR (zcount c y_true)) classes)) ->
  returns_new (recall_program correction a b) h (Floats (map (recall correction y_true y_pred) classes)).
Proof. exact recall_program_ok. Qed.
Print Assumptions C110_recall.

(** The quantiles; in particular the while loop ends. *)
Theorem C110_quantiles : forall h pr wa q scores weights, (1 <= q)%nat ->
  nth_error h pr = Some (Floats scores) -> nth_error h wa = Some (Floats weights) -> length scores = length weights ->
  returns_new (quantiles_program q pr wa) h (Floats (quantiles_of q scores weights)).
Proof. exact quantiles_program_ok. Qed.
Print Assumptions C110_quantiles.

(** Cumulative sums. *)
Theorem C110_cumulative : forall h a p, nth_error h a = Some (Floats p) ->
  returns_new (cumulative_program a) h (Floats (cumsum p)).
Proof. exact cumulative_program_ok. Qed.
Print Assumptions C110_cumulative.

(** The Cholesky factorization that decides whether a matrix is positive definite. *)
Theorem C110_dpofa : forall h a n m, nth_error h a = Some (Grid n m) ->
  exists r h', dpofa_program a h = Some ((fst (dpofa n m), r), h') /\ nth_error h' r = Some (Grid n (snd (dpofa n m))) /\
    untouched h h' /\ nth_error h r = None.
Proof. exact dpofa_program_ok. Qed.
Print Assumptions C110_dpofa.

(** A node of the DDAG with 'winner_node' writes the right values ... *)
Theorem C110_winner_node : forall h a ps left right, nth_error h a = Some (Table (pairs ps)) -> (right - left <> 1)%nat ->
  winner_node_program a h = Some (tt, set_nth a (Table (pairs (map (node_probs WinnerNode left right) ps))) h).
Proof. exact winner_node_program_ok. Qed.
Print Assumptions C110_winner_node.

(** ... but into the array that the estimator returned: an estimator that keeps that array finds it changed. *)
Theorem C110_winner_node_refuted : ~ forall h a ps h', nth_error h a = Some (Table (pairs ps)) ->
  winner_node_program a h = Some (tt, h') -> untouched h h'.
Proof. exact winner_node_untouched_refuted. Qed.
Print Assumptions C110_winner_node_refuted.

(** Two arrays of a caller; the second one has to be corrected, its third entry is below the second one. *)
Example C110_correction_example :
  let h := [Ints [4; 7]%Z; Floats [1/10; 6/10; 4/10; 9/10]] in
  returns_new (correct_program 1%nat) h (Floats [1/10; 5/10; 5/10; 9/10]).
Proof. exact correct_program_example. Qed.

(** Scores 1/5, 3/5, 4/5 with the same weight and two quantiles: the second example is split between them. *)
Example C110_quantiles_example :
  let h := [Floats [1/5; 3/5; 4/5]; Floats [1; 1; 1]] in
  returns_new (quantiles_program 2 0%nat 1%nat) h (Floats (quantiles_of 2 [1/5; 3/5; 4/5] [1; 1; 1])) /\
  quantiles_of 2 [1/5; 3/5; 4/5] [1; 1; 1] = [1/3; 11/15].
Proof. exact quantiles_program_example. Qed.

Example C110_threshold_example : let h := [Floats [1/2; 1/5; 9/10]] in returns_new (threshold_program 0%nat) h (Ints [1; 0; 1]%Z).
Proof. exact threshold_program_example. Qed.

(** ** C111: what an object answers when the caller changes, after fit, the arrays it gave to fit. *)

(** EDy keeps copies: its answers are those of the data given to fit. *)
Theorem C111_EDy : forall N fuel dist h0 ya pa y preds f, reads_dimensions N -> y <> [] ->
  nth_error h0 ya = Some (Ints y) -> nth_error h0 pa = Some (Table preds) ->
  ED_fit N fuel dist (np_unique y) (y_ext y (length preds)) preds = Some f ->
  exists o h1, EDy_fit_program N fuel dist ya pa h0 = Some (o, h1) /\ untouched h0 h1 /\
  forall h2, caller_changes h0 h1 h2 -> forall test, value (EDy_answer N o test) h2 = Some (ED_predict N f test).
Proof. exact EDy_snapshot. Qed.
Print Assumptions C111_EDy.

(** So do SORDy and QUANTy. *)
Theorem C111_SORDy : forall argsort tol h0 ya pa y preds f,
  nth_error h0 ya = Some (Ints y) -> nth_error h0 pa = Some (Table preds) ->
  sorted_fit argsort (np_unique y) (y_ext y (length preds)) (col 1 preds) = Val f ->
  exists o h1, sorted_fit_program argsort ya pa h0 = Some (o, h1) /\ untouched h0 h1 /\
  forall h2, caller_changes h0 h1 h2 -> forall test,
    value (SORDy_answer argsort tol o test) h2 = Some (SORDy_predict argsort tol f test).
Proof. exact SORDy_snapshot. Qed.
Print Assumptions C111_SORDy.

Theorem C111_QUANTy : forall argsort q distance tol h0 ya pa y preds f,
  nth_error h0 ya = Some (Ints y) -> nth_error h0 pa = Some (Table preds) ->
  sorted_fit argsort (np_unique y) (y_ext y (length preds)) (col 1 preds) = Val f ->
  exists o h1, sorted_fit_program argsort ya pa h0 = Some (o, h1) /\ untouched h0 h1 /\
  forall h2, caller_changes h0 h1 h2 -> forall test,
    value (QUANTy_answer argsort q distance tol o test) h2 =
    Some (omap snd (QUANTy_predict argsort q distance tol f None test)).
Proof. exact QUANTy_snapshot. Qed.
Print Assumptions C111_QUANTy.

(** CvMy keeps the arrays of the caller: it answers from what they contain when predict is called, with the classes
    found by fit. *)
Theorem C111_CvMy : forall h0 ya pa y preds, nth_error h0 ya = Some (Ints y) -> nth_error h0 pa = Some (Table preds) ->
  length y = length preds ->
  exists o, CvMy_fit_program ya pa h0 = Some (o, h0) /\
  forall N fuel dist k h2 y2 preds2, nth_error h2 ya = Some (Ints y2) -> nth_error h2 pa = Some (Table preds2) ->
  forall test, value (CvMy_answer N fuel dist k o test) h2 = CvMy_predict N fuel dist (np_unique y) y2 k preds2 test.
Proof. exact CvMy_reads. Qed.
Print Assumptions C111_CvMy.

Theorem C111_CvMy_copies_refuted : ~ forall N fuel dist k ya pa test,
  keeps_copies (CvMy_fit_program ya pa) (fun o => CvMy_answer N fuel dist k o test).
Proof. exact CvMy_copies_refuted. Qed.
Print Assumptions C111_CvMy_copies_refuted.

(** PWK combines the weights of the labels given to fit with the labels the caller's array contains now. *)
Theorem C111_PWK : forall h0 ya y, nth_error h0 ya = Some (Ints y) ->
  exists o h1, PWK_fit_program ya h0 = Some (o, h1) /\ untouched h0 h1 /\
  forall h2 y2, caller_changes h0 h1 h2 -> nth_error h2 ya = Some (Ints y2) -> forall all,
  value (PWK_answer o all) h2 =
  Some (map (fun neighbours => weighted_mode y2 (PWK_weights y) neighbours
                                 (np_unique (map (fun i => nth i y2 0%Z) (concat all))) 0 0) all).
Proof. exact PWK_reads. Qed.
Print Assumptions C111_PWK.

Theorem C111_PWK_copies_refuted : ~ forall ya all, keeps_copies (PWK_fit_program ya) (fun o => PWK_answer o all).
Proof. exact PWK_copies_refuted. Qed.
Print Assumptions C111_PWK_copies_refuted.

(** CV_estimator compares the examples it is asked about with what the caller's training array contains now. *)
Theorem C111_CV : forall (M : Type) (A : learner (list R) M) h0 xa ya x y folds,
  nth_error h0 xa = Some (Table x) -> nth_error h0 ya = Some (Ints y) ->
  exists o, CV_fit_program A xa ya folds h0 = Some (o, h0) /\
  forall h2 x2 y2, nth_error h2 xa = Some (Table x2) -> nth_error h2 ya = Some (Ints y2) ->
  forall eqX averaged folds1 folds2 z,
  value (CV_answer A eqX averaged o folds1 folds2 z) h2 =
  Some (CV_predict_proba A eqX averaged
          {| cv_X := x2; cv_y := y2; cv_classes := np_unique y; cv_estimators := cv_estimators (CV_fit A x y folds) |}
          folds1 folds2 z).
Proof. exact @CV_reads. Qed.
Print Assumptions C111_CV.

Theorem C111_CV_copies_refuted : ~ forall (M : Type) (A : learner (list R) M) averaged xa ya folds z,
  keeps_copies (CV_fit_program A xa ya folds) (fun o => CV_answer A equal_rows averaged o folds folds z).
Proof. exact CV_copies_refuted. Qed.
Print Assumptions C111_CV_copies_refuted.

(** A bag generator gives away the array it keeps: the next call returns the same array, with whatever the caller has
    written into it. *)
Theorem C111_generator : forall draw h0, exists a h1 s,
  generate_program draw None h0 = Some ((a, s), h1) /\ untouched h0 h1 /\ nth_error h1 a = Some (Drawn draw) /\
  forall draw' h2, generate_program draw' s h2 = Some ((a, s), h2).
Proof. exact generate_shares. Qed.
Print Assumptions C111_generator.

(** Labels 2 and 5, one example each: EDy and CvMy are fitted and the caller then exchanges the two predictions. *)
Example C111_example :
  let h0 := [Ints [2; 5]%Z; Table [[0]; [1]]] in
  (exists f, ED_fit one_variable 1 line_distance (np_unique [2; 5]%Z) (y_ext [2; 5]%Z 2) [[0]; [1]] = Some f) /\
  reads_dimensions one_variable /\ caller_changes h0 h0 [Ints [2; 5]%Z; Table [[1]; [0]]].
Proof. exact arrays_example. Qed.
