(** * Property theorems: CV_estimator, EnsembleOfClassifiers and PWK (C38-C40, C61, C64). *)

From Coq Require Import Reals List ZArith Lia Lra Bool Permutation.
From Verif Require Import Num Spec M_Baselines M_Estimators Spec_Estimators L_Num L_Estimators L_Estimators2 L_Estimators3.
Import ListNotations.
Open Scope R_scope.

(** C38: with a splitter that gives the same (repeated) k-fold partition at each call.  Row r*n+e is the answer, in repetition
    r, about example e. *)
Theorem C38_out_of_fold : forall (X M : Type) (A : learner X M) eqX (x : list X) (y : list Z) groups,
  eqX x x = true -> x <> [] -> groups <> [] -> Forall (kfold (length x)) groups ->
  let s := CV_fit A x y (concat groups) in
  exists rows, CV_predict_proba A eqX false s (concat groups) (concat groups) x = Val rows /\
    length rows = (length groups * length x)%nat /\
    forall r g e v, nth_error groups r = Some g -> nth_error x e = Some v ->
      exists f, In f g /\ In e (snd f) /\ ~ In e (fst f) /\
        nth_error rows (r * length x + e) = Some (fold_answer A x y f v).
Proof. exact cv_out_of_fold. Qed.
Print Assumptions C38_out_of_fold.

(** Two examples, the two folds that leave one out, twice; each example is new to the model that judges it. *)
Example C38_hypotheses : Forall (kfold (length [7; 8]%nat)) [[([1], [0]); ([0], [1])]; [([0], [1]); ([1], [0])]]%nat /\
  eq_nats [7; 8]%nat [7; 8]%nat = true.
Proof.
  split; [|reflexivity]. destruct two_folds as [H1 H2]. apply Forall_cons; [exact H1|]. apply Forall_cons; [exact H2|apply Forall_nil].
Qed.

(** If the splitter shuffles, so that its later calls give other folds, examples are judged by models that were trained on them. *)
Theorem C38_shuffling_splitter_refuted : exists (X M : Type) (A : learner X M) (eqX : list X -> list X -> bool) (x : list X) (y : list Z) folds folds',
  eqX x x = true /\ kfold (length x) folds /\ kfold (length x) folds' /\
  CV_predict_proba A eqX false (CV_fit A x y folds) folds folds x = Val [[0; 1]; [0; 1]] /\
  CV_predict_proba A eqX false (CV_fit A x y folds) folds' folds' x = Val [[1; 0]; [1; 0]].
Proof. exact shuffled_folds_leak. Qed.
Print Assumptions C38_shuffling_splitter_refuted.

(** C39 *)
Theorem C39_rows_aligned_with_labels : forall (X M : Type) (A : learner X M) eqX (x : list X) (y : list Z) groups,
  eqX x x = true -> x <> [] -> length y = length x -> groups <> [] -> Forall (kfold (length x)) groups ->
  let s := CV_fit A x y (concat groups) in
  exists rows, CV_predict_proba A eqX false s (concat groups) (concat groups) x = Val rows /\
    length rows = (length groups * length x)%nat /\
    length (y_ext y (length rows)) = length rows /\
    forall i, (i < length rows)%nat -> exists v c f,
      nth_error x (i mod length x) = Some v /\ nth_error y (i mod length x) = Some c /\
      In f (nth (i / length x) groups []) /\ In (i mod length x) (snd f) /\
      nth_error rows i = Some (fold_answer A x y f v) /\ nth_error (y_ext y (length rows)) i = Some c.
Proof. exact cv_aligned. Qed.
Print Assumptions C39_rows_aligned_with_labels.

(** Over another sample, estimator r gives rows r*n .. r*n+n-1, in the order of the sample. *)
Theorem C39_rows_of_another_sample : forall (X M : Type) (A : learner X M) eqX (s : cv_fitted X M) f1 f2 (x : list X),
  eqX x (cv_X s) = false -> cv_estimators s <> [] ->
  exists rows, CV_predict_proba A eqX false s f1 f2 x = Val rows /\
    length rows = (length (cv_estimators s) * length x)%nat /\
    forall r e m v, nth_error (cv_estimators s) r = Some m -> nth_error x e = Some v ->
      nth_error rows (r * length x + e) = Some (p_row A m v).
Proof. exact cv_test_rows. Qed.
Print Assumptions C39_rows_of_another_sample.

Example C39_hypotheses : length [0; 1]%Z = length [7; 8]%nat /\ eq_nats [9]%nat [7; 8]%nat = false.
Proof. split; reflexivity. Qed.

(** C40: [rows] are the predictions one by one (averaged_predictions=False), [n] per repetition. *)
Theorem C40_votes_and_averages : forall (X M : Type) (A : learner X M) eqX (s : cv_fitted X M) f1 f2 (x : list X) rows,
  x <> [] -> cv_classes s <> [] ->
  CV_predict_proba A eqX false s f1 f2 x = Val rows -> rows <> [] ->
  Forall (fun r => length r = length (cv_classes s)) rows ->
  let n := length x in let k := length (cv_classes s) in
  exists reps avg hard soft each, (0 < reps)%nat /\ length rows = (reps * n)%nat /\
    CV_predict_proba A eqX true s f1 f2 x = Val avg /\ length avg = n /\
    CV_predict A eqX true false s f1 f2 x = Val hard /\ length hard = n /\
    CV_predict A eqX true true s f1 f2 x = Val soft /\ length soft = n /\
    (forall sft, CV_predict A eqX false sft s f1 f2 x = Val each) /\ length each = (reps * n)%nat /\
    (forall e, (e < n)%nat ->
       length (nth e avg []) = k /\
       (forall j, (j < k)%nat -> nth j (nth e avg []) 0 = rmean (map (fun r => nth j r 0) (rows_of n reps rows e))) /\
       (distributions k (rows_of n reps rows e) -> distribution_over k (nth e avg [])) /\
       (exists j, most_voted k (rows_of n reps rows e) j /\ nth e hard 0%Z = nth j (cv_classes s) 0%Z) /\
       (exists j, first_max (nth e avg []) j /\ nth e soft 0%Z = nth j (cv_classes s) 0%Z)) /\
    (forall i, (i < reps * n)%nat -> exists j, first_max (nth i rows []) j /\ nth i each 0%Z = nth j (cv_classes s) 0%Z).
Proof. exact cv_combines. Qed.
Print Assumptions C40_votes_and_averages.

Theorem C40_not_fitted : forall (X M : Type) (A : learner X M) eqX averaged soft (s : cv_fitted X M) f1 f2 x,
  cv_estimators s = [] -> CV_predict_proba A eqX averaged s f1 f2 x = Err NotFittedError /\
                          CV_predict A eqX averaged soft s f1 f2 x = Err NotFittedError.
Proof. exact cv_not_fitted. Qed.
Print Assumptions C40_not_fitted.

(** Three models judge example 9 of a test sample. *)
Example C40_hypotheses :
  let s := {| cv_X := [7; 8]%nat; cv_y := [3; 5]%Z; cv_classes := [3; 5]%Z; cv_estimators := [[7]; [8; 9]; [9]]%nat |} in
  CV_predict_proba memory eq_nats false s [] [] [9]%nat = Val [[0; 1]; [1; 0]; [1; 0]] /\
  Forall (fun r : list R => length r = length (cv_classes s)) [[0; 1]; [1; 0]; [1; 0]].
Proof. cbv zeta. split; [reflexivity|]. repeat constructor. Qed.

(** C61: with copies of the base estimator in other processes, column i is the model of bag i ... *)
Theorem C61_other_processes : forall (X M : Type) (A : learner X M) (x : list X) (y : list Z) bags t, bags <> [] ->
  (forall b v, In b bags -> In v t -> length (p_row A (p_learn A (pick x b) (pick y b)) v) = length (np_unique y)) ->
  EoC_predict_proba A (EoC_fit A false fresh_ensemble x y bags) t = Val (map (fun b => bag_answer A x y b t) bags).
Proof. exact @ensemble_other_processes. Qed.
Print Assumptions C61_other_processes.

(** ... but in one process (n_jobs None or 1, the default) every column is the model of the last bag. *)
Theorem C61_same_process_last_bag_only : forall (X M : Type) (A : learner X M) (x : list X) (y : list Z) bags last_bag t,
  (forall v, In v t -> length (p_row A (p_learn A (pick x last_bag) (pick y last_bag)) v) = length (np_unique y)) ->
  EoC_predict_proba A (EoC_fit A true fresh_ensemble x y (bags ++ [last_bag])) t =
  Val (repeat (bag_answer A x y last_bag t) (length (bags ++ [last_bag]))).
Proof. exact @ensemble_in_process. Qed.
Print Assumptions C61_same_process_last_bag_only.

Theorem C61_one_model_per_bag_refuted : exists (X M : Type) (A : learner X M) x y bags t,
  length bags = 2%nat /\
  EoC_predict_proba A (EoC_fit A true fresh_ensemble x y bags) t <> Val (map (fun b => bag_answer A x y b t) bags).
Proof. exact ensemble_not_one_per_bag. Qed.
Print Assumptions C61_one_model_per_bag_refuted.

(** A second fit keeps the models and only changes the classes. *)
Theorem C61_second_fit : forall (X M : Type) (A : learner X M) (x : list X) (y : list Z) in_process in_process2 bags x2 y2 bags2,
  let s1 := EoC_fit A in_process fresh_ensemble x y bags in
  let s2 := EoC_fit A in_process2 s1 x2 y2 bags2 in
  e_heap s2 = e_heap s1 /\ e_refs s2 = e_refs s1 /\ e_classes s2 = Some (np_unique y2).
Proof. exact @ensemble_second_fit. Qed.
Print Assumptions C61_second_fit.

Example C61_hypotheses : forall b v, In b [[0]; [1]]%nat -> In v [7; 9]%nat ->
  length (p_row memory (p_learn memory (pick [7; 8]%nat b) (pick [3; 5]%Z b)) v) = length (np_unique [3; 5]%Z).
Proof. intros b v _ _. cbn [p_row memory]. destruct (in_dec Nat.eq_dec v _); reflexivity. Qed.

(** C64 *)
Theorem C64_rows_are_distributions : forall y, (2 <= length (np_unique y))%nat -> forall neighbours, neighbours <> [] ->
  Forall (fun i => (i < length y)%nat) neighbours -> distribution_over (length (np_unique y)) (PWK_row y neighbours).
Proof. exact PWK_row_distribution. Qed.
Print Assumptions C64_rows_are_distributions.

(** The entry of a class is proportional to its number of neighbours times one minus its training prevalence. *)
Theorem C64_row_values : forall y nb j, (2 <= length (np_unique y))%nat -> nb <> [] ->
  Forall (fun i => (i < length y)%nat) nb -> (j < length (np_unique y))%nat ->
  let labels := map (fun i => nth i y 0%Z) nb in
  let score c := INR (zcount c labels) * (1 - fraction c y) in
  0 < rsum (map score (np_unique y)) /\
  nth j (PWK_row y nb) 0 = score (nth j (np_unique y) 0%Z) / rsum (map score (np_unique y)).
Proof. exact PWK_row_value. Qed.
Print Assumptions C64_row_values.

Theorem C64_predict_is_first_maximum : forall y all i, (2 <= length (np_unique y))%nat ->
  Forall (fun nb => nb <> [] /\ Forall (fun i => (i < length y)%nat) nb) all -> (i < length all)%nat ->
  length (PWK_predict y all) = length all /\
  exists j, first_max (PWK_row y (nth i all [])) j /\ nth i (PWK_predict y all) 0%Z = nth j (np_unique y) 0%Z.
Proof. exact PWK_predict_first_max. Qed.
Print Assumptions C64_predict_is_first_maximum.

Theorem C64_rarer_classes_weigh_more : forall y i j, (i < length y)%nat -> (j < length y)%nat ->
  (zcount (nth i y 0%Z) y < zcount (nth j y 0%Z) y)%nat -> nth j (PWK_weights y) 0 < nth i (PWK_weights y) 0.
Proof. exact rarer_weigh_more. Qed.
Print Assumptions C64_rarer_classes_weigh_more.

(** Trained with a single class, PWK gives rows of zeros and predicts label 0, whatever the class. *)
Theorem C64_single_class : forall c n nb all, nb <> [] ->
  PWK_row (repeat c (S n)) nb = [0] /\ PWK_predict (repeat c (S n)) all = repeat 0%Z (length all).
Proof. exact PWK_single_class. Qed.
Print Assumptions C64_single_class.

Example C64_hypotheses : (2 <= length (np_unique [5; 3; 5]%Z))%nat /\
  Forall (fun nb => nb <> [] /\ Forall (fun i => (i < length [5; 3; 5]%Z)%nat) nb) [[0; 1]; [2]]%nat /\
  (zcount 3%Z [5; 3; 5]%Z < zcount 5%Z [5; 3; 5]%Z)%nat.
Proof.
  split; [simpl; lia|]. split; [|vm_compute; lia].
  repeat (apply Forall_cons; [split; [discriminate|]; repeat (apply Forall_cons; [simpl; lia|]); apply Forall_nil|]). apply Forall_nil.
Qed.
