(** * Property theorems: estimators and predictions of UsingClassifiers (C41-C43). *)

From Coq Require Import Reals List ZArith Lia Lra Bool.
From Verif Require Import Num Spec M_Baselines M_Base Spec_Base L_Num L_Base L_Bags4.
Import ListNotations.
Open Scope R_scope.

(** C41: whatever the history of fits, an estimator is fitted at most once, and never if it was fitted before. *)
Theorem C41_fitted_at_most_once : forall (X M : Type) (A : nat -> algorithm X M) w calls e, times_fitted e w = O ->
  (times_fitted e (after_fits A w calls) <= 1)%nat /\
  (models w e <> None -> times_fitted e (after_fits A w calls) = O /\ models (after_fits A w calls) e = models w e).
Proof. exact @fitted_at_most_once. Qed.
Print Assumptions C41_fitted_at_most_once.

(** Its model is the one of the first fit that meets it, whatever the later ones. *)
Theorem C41_first_fit_wins : forall (X M : Type) (A : nat -> algorithm X M) w before c after e,
  models w e = None -> (forall c', In c' before -> ~ meets e c') ->
  meets e c -> length (call_x c) = length (call_y c) -> has_source (caller c) (call_given c) ->
  models (after_fits A w (before ++ c :: after)) e = Some (learn (A e) (call_x c) (call_y c)).
Proof. exact @first_fit_wins. Qed.
Print Assumptions C41_first_fit_wins.

(** Two quantifiers share estimator 1; the second fit, with three examples, leaves the model of the first, with two. *)
Example C41_hypotheses :
  let c1 := {| caller := plain (Some 1%nat) (Some 1%nat) true; call_x := [5; 6]%nat; call_y := [0; 1]%Z; call_given := None |} in
  let c2 := {| caller := plain (Some 2%nat) (Some 1%nat) true; call_x := [7; 8; 9]%nat; call_y := [0; 1; 1]%Z; call_given := None |} in
  times_fitted 1 untrained = O /\ meets 1 c1 /\ meets 1 c2 /\ has_source (caller c1) (call_given c1) /\
  models (after_fits counting untrained [c1; c2]) 1%nat = Some 2%nat /\
  models (after_fits counting untrained [c1; c2]) 2%nat = Some 3%nat /\
  times_fitted 1 (after_fits counting untrained [c1; c2]) = 1%nat.
Proof.
  cbv zeta. repeat split; try (left; reflexivity); try (right; reflexivity); try reflexivity.
  intros _. left. discriminate.
Qed.

(** C42: probabilistic quantifiers use given predictions as they are; the labels are repeated to match them. *)
Theorem C42_given_predictions_fit : forall (X M : Type) (A : nat -> algorithm X M) q w x y p,
  length x = length y -> needs_predictions_train q = true -> probabilistic q = true ->
  exists q' w', UC_fit A q w x y (Some p) = (Val tt, q', w') /\ predictions_train_ q' = Some p /\
    classes_ q' = Some (np_unique y) /\ y_ext_ q' = Some (y_ext y (n_predictions p)).
Proof. exact @fit_given_probabilities. Qed.
Print Assumptions C42_given_predictions_fit.

(** Their number is that of the rows. *)
Theorem C42_given_rows : forall (X M : Type) (A : nat -> algorithm X M) q w x y rows,
  length x = length y -> needs_predictions_train q = true -> probabilistic q = true ->
  exists q' w', UC_fit A q w x y (Some (Matrix rows)) = (Val tt, q', w') /\ y_ext_ q' = Some (y_ext y (length rows)).
Proof. exact @fit_given_rows. Qed.
Print Assumptions C42_given_rows.

Theorem C42_given_predictions_predict : forall (X M : Type) (A : nat -> algorithm X M) q w x p, probabilistic q = true ->
  UC_predict A q w x (Some p) = (Val tt, with_test q p).
Proof. exact @predict_given. Qed.
Print Assumptions C42_given_predictions_predict.

(** Crisp quantifiers use given labels as they are (probabilities are C43). *)
Theorem C42_given_labels : forall (X M : Type) (A : nat -> algorithm X M) q w x l, probabilistic q = false ->
  UC_predict A q w x (Some (Labels l)) = (Val tt, with_test q (Labels l)) /\
  (forall y, length x = length y -> needs_predictions_train q = true ->
     exists q' w', UC_fit A q w x y (Some (Labels l)) = (Val tt, q', w') /\ predictions_train_ q' = Some (Labels l)).
Proof. exact @crisp_given_labels. Qed.
Print Assumptions C42_given_labels.

Theorem C42_fit_value_error : forall (X M : Type) (A : nat -> algorithm X M) q w x y, length x = length y ->
  (forall given, (needs_predictions_train q = true /\ estimator_train q = None /\ given = None) ->
     exists q', UC_fit A q w x y given = (Err ValueError, q', w)) /\
  (forall given, has_source q given -> probabilistic q = true \/ given = None ->
     exists q' w', UC_fit A q w x y given = (Val tt, q', w')).
Proof. exact @fit_value_error. Qed.
Print Assumptions C42_fit_value_error.

Theorem C42_predict_value_error : forall (X M : Type) (A : nat -> algorithm X M) q w x given,
  (probabilistic q = true \/ given = None) ->
  (forall e, estimator_test q = Some e -> models w e <> None) ->
  ((exists q', UC_predict A q w x given = (Err ValueError, q')) <-> (estimator_test q = None /\ given = None)) /\
  ((exists q', UC_predict A q w x given = (Val tt, q')) <-> (estimator_test q <> None \/ given <> None)).
Proof. exact @predict_value_error. Qed.
Print Assumptions C42_predict_value_error.

(** The estimator of [plain] would answer other predictions, but the given ones are used; without any, ValueError. *)
Example C42_hypotheses :
  fst (fst (UC_fit counting (plain None None true) untrained [5; 6]%nat [0; 1]%Z None)) = Err ValueError /\
  fst (UC_predict counting (plain None None true) untrained [5; 6]%nat None) = Err ValueError /\
  predictions_train_ (snd (fst (UC_fit counting (plain (Some 1%nat) None true) untrained [5; 6]%nat [0; 1]%Z
                                  (Some (Matrix [[1; 0]; [0; 1]]))))) = Some (Matrix [[1; 0]; [0; 1]]) /\
  predictions_train_ (snd (fst (UC_fit counting (plain (Some 1%nat) None true) untrained [5; 6]%nat [0; 1]%Z None)))
    = Some (Matrix [[1/2; 1/2]; [1/2; 1/2]]).
Proof. repeat split; reflexivity. Qed.

(** C43 *)
Theorem C43_fit_first_maximal_column : forall (X M : Type) (A : nat -> algorithm X M) q w x y rows,
  length x = length y -> needs_predictions_train q = true -> probabilistic q = false ->
  rows <> [] -> (2 <= length (np_unique y))%nat -> Forall (fun r => length r = length (np_unique y)) rows ->
  exists q' w' l, UC_fit A q w x y (Some (Matrix rows)) = (Val tt, q', w') /\ predictions_train_ q' = Some (Labels l) /\
    Forall2 (first_best_label (np_unique y)) rows l.
Proof. exact crisp_fit_matrix. Qed.
Print Assumptions C43_fit_first_maximal_column.

Theorem C43_predict_first_maximal_column : forall (X M : Type) (A : nat -> algorithm X M) q w x labels rows,
  probabilistic q = false -> classes_ q = Some labels ->
  rows <> [] -> (2 <= length labels)%nat -> Forall (fun r => length r = length labels) rows ->
  exists l, UC_predict A q w x (Some (Matrix rows)) = (Val tt, with_test q (Labels l)) /\
    Forall2 (first_best_label labels) rows l.
Proof. exact crisp_predict_matrix. Qed.
Print Assumptions C43_predict_first_maximal_column.

(** A vector of scores becomes 0 and 1 even if these are not the labels. *)
Theorem C43_scores_thresholded : forall (X M : Type) (A : nat -> algorithm X M) q w x labels l,
  probabilistic q = false -> classes_ q = Some labels -> l <> [] ->
  UC_predict A q w x (Some (Scores l)) =
    (Val tt, with_test q (Labels (map (fun p => if Rle_dec (1/2) p then 1%Z else 0%Z) l))).
Proof. exact crisp_predict_scores. Qed.
Print Assumptions C43_scores_thresholded.

(** A single probability in a column fails. *)
Theorem C43_single_probability_fails : forall (X M : Type) (A : nat -> algorithm X M) q w x labels p,
  probabilistic q = false -> classes_ q = Some labels ->
  UC_predict A q w x (Some (Matrix [[p]])) = (Err IndexError, q).
Proof. exact one_by_one_matrix_fails. Qed.
Print Assumptions C43_single_probability_fails.

Example C43_hypotheses :
  (2 <= length (np_unique [3; 7]%Z))%nat /\ Forall (fun r : list R => length r = length (np_unique [3; 7]%Z)) [[1/2; 1/2]; [0; 1]] /\
  classes_ (with_classes (plain None None false) [3; 7]%Z) = Some [3; 7]%Z.
Proof. split; [simpl; lia|]. split; [repeat constructor|reflexivity]. Qed.
