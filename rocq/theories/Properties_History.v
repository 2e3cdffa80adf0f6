(** * Property theorems: fitting and predicting again and again (C62). *)

From Coq Require Import Reals List ZArith Lia Lra Bool.
From Verif Require Import Num Spec M_Baselines M_Bags M_Search M_Optim Spec_Optim L_Optim5 M_Estimators M_Match Spec_Match
  M_History Spec_History L_History L_History2 L_History3.
Import ListNotations.
Open Scope R_scope.

(** C62: whatever happened to the object before (other fits, fits that failed, predictions), its answers are those of a new
    object after the last fit.  With HD and L1 this needs a solver whose answer does not depend on its starting point. *)
Theorem C62_DFy : forall ppf N cvx fuel kind n_bins strat crit tol,
  (crit = Named HD \/ crit = Named L1 -> ignores_warm_start cvx) ->
  history_independent (DFy_class ppf N cvx fuel kind n_bins strat crit tol) (fun _ => True).
Proof. intros. apply matcher_history. assumption. Qed.
Print Assumptions C62_DFy.

Theorem C62_DFX : forall ppf N cvx fuel kind n_bins strat crit tol,
  (crit = Named HD \/ crit = Named L1 -> ignores_warm_start cvx) ->
  history_independent (DFX_class ppf N cvx fuel kind n_bins strat crit tol) (fun _ => True).
Proof. intros. apply matcher_history. assumption. Qed.
Print Assumptions C62_DFX.

Theorem C62_FriedmanME : forall N cvx fuel crit tol,
  (crit = Named HD \/ crit = Named L1 -> ignores_warm_start cvx) ->
  history_independent (FriedmanME_class N cvx fuel crit tol) (fun _ => True).
Proof. intros. apply matcher_history. assumption. Qed.
Print Assumptions C62_FriedmanME.

Theorem C62_ACOrdinal : forall N cvx fuel, ignores_warm_start cvx ->
  history_independent (ACOrdinal_class N cvx fuel) (fun _ => True).
Proof. exact aco_history. Qed.
Print Assumptions C62_ACOrdinal.

Theorem C62_PDFOrdinaly : forall N cvx fuel n_bins d meth, (d = OHD \/ d = OEMD -> ignores_warm_start cvx) ->
  history_independent (PDFOrdinaly_class N cvx fuel n_bins d meth) (fun _ => True).
Proof. exact pdfo_history. Qed.
Print Assumptions C62_PDFOrdinaly.

Theorem C62_QUANTy : forall argsort q distance tol,
  history_independent (QUANTy_class argsort q distance tol) (fun _ => True).
Proof. exact quanty_history. Qed.
Print Assumptions C62_QUANTy.

(** AC and PAC with L2: when the last fit saw a single class no parameters are computed, and those of an earlier fit stay;
    these fits are excluded. *)
Theorem C62_AC : forall inv N cvx fuel dist, (dist = HD \/ dist = L1 -> ignores_warm_start cvx) ->
  history_independent (AC_class inv N cvx fuel dist) (fun a => (2 <= length (np_unique (fst a)))%nat \/ dist <> L2).
Proof. exact ac_history. Qed.
Print Assumptions C62_AC.

Theorem C62_PAC : forall inv N cvx fuel dist, (dist = HD \/ dist = L1 -> ignores_warm_start cvx) ->
  history_independent (PAC_class inv N cvx fuel dist) (fun a => (2 <= length (np_unique (fst a)))%nat \/ dist <> L2).
Proof. exact pac_history. Qed.
Print Assumptions C62_PAC.

Theorem C62_PWKQuantifier : forall (X : Type) (kneighbors : list X -> list X -> list (list nat)) cvx, ignores_warm_start cvx ->
  history_independent (PWKQ_class kneighbors cvx) (fun _ => True).
Proof. exact @pwkq_history. Qed.
Print Assumptions C62_PWKQuantifier.

(** A history of the kind meant, with a solver as required: a fit that fails, a fit, a prediction, the last fit, a prediction. *)
Example C62_hypotheses :
  ignores_warm_start ideal_cvx /\ exact_cvx ideal_cvx /\
  last_fit ([0; 1], [0; 1])%Z example_history /\
  (exists s, reaches (ACOrdinal_class no_numerics ideal_cvx 0) example_history s) /\
  (exists s0, qc_fit (ACOrdinal_class no_numerics ideal_cvx 0) ([0; 1], [0; 1])%Z (qc_new (ACOrdinal_class no_numerics ideal_cvx 0)) = Val s0).
Proof.
  split; [exact ideal_ignores|]. split; [exact ideal_cvx_exact|].
  split. { exists [Fit ([0; 1], [0; 1; 1])%Z; Fit ([0; 1], [0; 0])%Z; Predict [0%Z]], [[0; 1]%Z]. reflexivity. }
  split; [apply example_reached|]. destruct (sharp_fit ideal_cvx (qc_new (ACOrdinal_class no_numerics ideal_cvx 0))) as (m & E & _).
  exists m. exact E.
Qed.

(** What the object answers after any history is what the models of AC, PAC and PWKQuantifier compute from the last
    training data (the properties C01-C09 are about those). *)
Theorem C62_AC_answers : forall inv N cvx fuel dist y preds cm bag h s,
  (dist = HD \/ dist = L1 -> ignores_warm_start cvx) -> (2 <= length (np_unique y))%nat \/ dist <> L2 ->
  AC_fit y preds = Val cm -> last_fit (y, preds) h -> reaches (AC_class inv N cvx fuel dist) h s ->
  snd (qc_predict (AC_class inv N cvx fuel dist) bag s) =
  AC_predict (library_solvers inv N cvx fuel) dist (np_unique y) cm bag.
Proof. exact ac_refines. Qed.
Print Assumptions C62_AC_answers.

Theorem C62_PAC_answers : forall inv N cvx fuel dist y preds cm bag h s,
  (dist = HD \/ dist = L1 -> ignores_warm_start cvx) -> (2 <= length (np_unique y))%nat \/ dist <> L2 ->
  PAC_fit y preds = Val cm -> last_fit (y, preds) h -> reaches (PAC_class inv N cvx fuel dist) h s ->
  snd (qc_predict (PAC_class inv N cvx fuel dist) bag s) =
  PAC_predict (library_solvers inv N cvx fuel) dist (np_unique y) cm bag.
Proof. exact pac_refines. Qed.
Print Assumptions C62_PAC_answers.

Theorem C62_PWKQuantifier_answers : forall (X : Type) (kneighbors : list X -> list X -> list (list nat)) inv N cvx fuel x y cm bag h s,
  ignores_warm_start cvx -> AC_fit y (PWK_predict y (kneighbors x x)) = Val cm ->
  last_fit (x, y) h -> reaches (PWKQ_class kneighbors cvx) h s ->
  snd (qc_predict (PWKQ_class kneighbors cvx) bag s) =
  PWKQ_predict (library_solvers inv N cvx fuel) (np_unique y) cm (PWK_predict y (kneighbors x bag)).
Proof. exact @pwkq_refines. Qed.
Print Assumptions C62_PWKQuantifier_answers.

(** Without the assumption on the starting point the answers can differ ... *)
Theorem C62_warm_start_refuted : exists N cvx fuel, exact_cvx cvx /\
  ~ history_independent (ACOrdinal_class N cvx fuel) (fun _ => True).
Proof. exact moody_refutes. Qed.
Print Assumptions C62_warm_start_refuted.

(** ... but for an exact solver, after any history, they are at minimal distance for the last training data ([m]: what a
    first fit with them computes), so all of them are at the same distance. *)
Theorem C62_L1_distance : forall (A B : Type) N cvx tol (fit : A -> out (matcher B)) a h s m bag t p, exact_cvx cvx ->
  last_fit a h -> reaches (matcher_class N cvx (Named L1) tol fit) h s -> fit a = Val m ->
  mt_represent m bag = Val t -> length t = mt_bins m ->
  snd (qc_predict (matcher_class N cvx (Named L1) tol fit) bag s) = Val p ->
  best_distribution (mt_classes m) (l1_distance (mt_bins m) (mt_classes m) (mt_T m) t) p.
Proof. exact @matcher_l1_best. Qed.
Print Assumptions C62_L1_distance.

Theorem C62_HD_distance : forall (A B : Type) N cvx tol (fit : A -> out (matcher B)) a h s m bag t p, exact_cvx cvx ->
  last_fit a h -> reaches (matcher_class N cvx (Named HD) tol fit) h s -> fit a = Val m ->
  mt_represent m bag = Val t -> length t = mt_bins m ->
  snd (qc_predict (matcher_class N cvx (Named HD) tol fit) bag s) = Val p ->
  best_distribution (mt_classes m)
    (fun q => 1 - sumn (mt_bins m) (fun r => sqrt (nth r t 0 * mixture_at (mt_classes m) (mt_T m) q r))) p.
Proof. exact @matcher_hd_best. Qed.
Print Assumptions C62_HD_distance.

Theorem C62_AC_distance : forall inv N cvx fuel dist y preds rows bag test p h s, exact_cvx cvx ->
  let n := length (np_unique y) in let M := fun i j => entry rows j i in
  AC_fit y preds = Val (map Some rows) -> n <> 2%nat -> inv n M = None ->
  last_fit (y, preds) h -> reaches (AC_class inv N cvx fuel dist) h s ->
  class_frequencies (np_unique y) bag = Val test ->
  snd (qc_predict (AC_class inv N cvx fuel dist) bag s) = Val p ->
  (dist = L1 -> best_distribution n (l1_distance n n M test) p) /\
  (dist = HD -> best_distribution n (fun q => 1 - sumn n (fun r => sqrt (nth r test 0 * mixture_at n M q r))) p).
Proof. exact ac_best. Qed.
Print Assumptions C62_AC_distance.

Theorem C62_PAC_distance : forall inv N cvx fuel dist y preds rows bag test p h s, exact_cvx cvx ->
  let n := length (np_unique y) in let M := fun i j => entry rows j i in
  PAC_fit y preds = Val (map Some rows) -> n <> 2%nat -> inv n M = None ->
  last_fit (y, preds) h -> reaches (PAC_class inv N cvx fuel dist) h s ->
  mean_rows n bag = Val test ->
  snd (qc_predict (PAC_class inv N cvx fuel dist) bag s) = Val p ->
  (dist = L1 -> best_distribution n (l1_distance n n M test) p) /\
  (dist = HD -> best_distribution n (fun q => 1 - sumn n (fun r => sqrt (nth r test 0 * mixture_at n M q r))) p).
Proof. exact pac_best. Qed.
Print Assumptions C62_PAC_distance.

(** If the quantifier trains its own estimator instead of being given predictions, its answers do depend on the history: a
    second fit keeps the model of the first (see C41). *)
Theorem C62_estimators_refuted :
  exists (X M : Type) (A : nat -> M_Base.algorithm X M) q w x1 y1 x2 y2 bag q1 w1 q2 w2 q2' w2',
    M_Base.UC_fit A q w x1 y1 None = (Val tt, q1, w1) /\ M_Base.UC_fit A q1 w1 x2 y2 None = (Val tt, q2, w2) /\
    M_Base.UC_fit A q w x2 y2 None = (Val tt, q2', w2') /\
    M_Base.predictions_test_ (snd (M_Base.UC_predict A q2 w2 bag None)) <>
    M_Base.predictions_test_ (snd (M_Base.UC_predict A q2' w2' bag None)).
Proof. exact estimators_keep_history. Qed.
Print Assumptions C62_estimators_refuted.
