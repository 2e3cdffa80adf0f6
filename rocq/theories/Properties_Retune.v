(** * Property theorems: changing the distance of a fitted quantifier (C127). *)

From Coq Require Import Reals List ZArith Lra Bool.
From Verif Require Import Num Spec M_Baselines M_Search M_Optim Spec_Optim L_Optim5 M_Match Spec_Match L_Match10 M_History L_History2
  M_Retune Spec_Retune L_Retune L_Retune2.
Import ListNotations.
Open Scope R_scope.

(** C127: whatever was done to the object before its last fit, and whichever distances and tolerances it was given since, it answers as
    a new object with the distance and the tolerance it has now, fitted once with the same data, provided that (1) if the distance is
    now L2 it was L2 at that fit, and (2) no prediction since that fit was made with the other one of HD and L1. *)
Theorem C127_answers : forall (A B : Type) N cvx (fit : criterion -> A -> out (matcher B)) c0 tol0 before o1 a o2 es o bag,
  tunable_class N fit -> after fit N cvx (tunable_new c0 tol0) before o1 -> tunable_fit fit a o1 = Val o2 ->
  after fit N cvx o2 es o -> no_fit es ->
  (tn_distance o = Named L2 -> tn_distance o1 = Named L2) ->
  (tn_distance o = Named HD -> ~ In (Named L1) (predicted_with (tn_distance o1) es)) ->
  (tn_distance o = Named L1 -> ~ In (Named HD) (predicted_with (tn_distance o1) es)) ->
  (tn_distance o = Named HD \/ tn_distance o = Named L1 -> ignores_warm_start cvx) ->
  exists fresh, tunable_fit fit a (tunable_new (tn_distance o) (tn_tol o)) = Val fresh /\
    snd (tunable_predict N cvx bag o) = snd (tunable_predict N cvx bag fresh).
Proof. exact @retuned_answers. Qed.
Print Assumptions C127_answers.

(** The distance and the tolerance that it has now are those it was given last, by the constructor or since; fit and predict do not
    change them. *)
Theorem C127_parameters : forall (A B : Type) N cvx (fit : criterion -> A -> out (matcher B)) o es o', after fit N cvx o es o' ->
  tn_distance o' = last_distance (tn_distance o) es /\ tn_tol o' = last_tol (tn_tol o) es.
Proof. exact parameters. Qed.
Print Assumptions C127_parameters.

(** A new object fitted once answers as the models of DFy, DFX and FriedmanME of C51 to C53 do. *)
Theorem C127_new_DFy : forall ppf N cvx fuel kind n_bins strat crit tol y P m, DFy_fit ppf N fuel kind n_bins strat crit y P = Val m ->
  exists o, tunable_fit (DFy_fits ppf N fuel kind n_bins strat) (y, P) (tunable_new crit tol) = Val o /\
    forall bag, snd (tunable_predict N cvx bag o) = snd (matching_predict N cvx crit tol m bag).
Proof. exact first_DFy. Qed.
Print Assumptions C127_new_DFy.

Theorem C127_new_DFX : forall ppf N cvx fuel kind n_bins strat crit tol y k X m, DFX_fit ppf N fuel kind n_bins strat crit y k X = Val m ->
  exists o, tunable_fit (DFX_fits ppf N fuel kind n_bins strat) (y, k, X) (tunable_new crit tol) = Val o /\
    forall bag, snd (tunable_predict N cvx bag o) = snd (matching_predict N cvx crit tol m bag).
Proof. exact first_DFX. Qed.
Print Assumptions C127_new_DFX.

Theorem C127_new_FriedmanME : forall N cvx fuel crit tol y P m, FriedmanME_fit N fuel crit y P = Val m ->
  exists o, tunable_fit (FriedmanME_fits N fuel) (y, P) (tunable_new crit tol) = Val o /\
    forall bag, snd (tunable_predict N cvx bag o) = snd (matching_predict N cvx crit tol m bag).
Proof. exact first_FriedmanME. Qed.
Print Assumptions C127_new_FriedmanME.

(** Both conditions are needed.  After a prediction with HD or L1, changing the distance to the other one changes nothing: the object
    goes on minimising the distance of that prediction ... *)
Theorem C127_frozen : forall (B : Type) N cvx bag p (o : tunable B), (tn_distance o = Named HD \/ tn_distance o = Named L1) ->
  snd (tunable_predict N cvx bag o) = Val p -> forall d bag', d = HD \/ d = L1 ->
  let o' := fst (tunable_predict N cvx bag o) in
  snd (tunable_predict N cvx bag' (set_distance (Named d) o')) = snd (tunable_predict N cvx bag' o').
Proof. exact @frozen. Qed.
Print Assumptions C127_frozen.

(** ... and this matters: here is a DFy that answers (0, 1) after its distance was changed to L1, where a new object with L1 answers
    (1/2, 1/2), whatever exact solver is used. *)
Theorem C127_distance_refuted : forall ppf N fuel cvx tol, exact_cvx cvx -> answering_cvx cvx ->
  let fit := DFy_fits ppf N fuel CDF 2 EqualWidth in
  exists o fresh, tunable_fit fit (ex_labels, ex_preds) (tunable_new (Named HD) tol) = Val o /\
    tunable_fit fit (ex_labels, ex_preds) (tunable_new (Named L1) tol) = Val fresh /\
    snd (tunable_predict N cvx ex_preds (set_distance (Named L1) (fst (tunable_predict N cvx ex_preds o)))) = Val [0; 1] /\
    snd (tunable_predict N cvx ex_preds fresh) = Val [1/2; 1/2].
Proof. exact distance_ignored. Qed.
Print Assumptions C127_distance_refuted.

(** After a first fit with another distance, L2 gives no answer until the next fit ... *)
Theorem C127_L2_needs_fit : forall (A B : Type) N cvx (fit : criterion -> A -> out (matcher B)) c tol a o1 es o bag p,
  c <> Named L2 -> tunable_fit fit a (tunable_new c tol) = Val o1 -> after fit N cvx o1 es o -> no_fit es -> tn_distance o = Named L2 ->
  snd (tunable_predict N cvx bag o) <> Val p.
Proof. exact @L2_needs_fit. Qed.
Print Assumptions C127_L2_needs_fit.

(** ... but if some earlier fit was with L2 it does answer, with the quadratic form G (and C, b) of that earlier training set and the
    linear term of the last one. *)
Theorem C127_L2_stale_refuted : forall (A B : Type) N cvx (fit : criterion -> A -> out (matcher B)) tol a1 o1 c a2 o2 m1 m2 G C b bag t,
  c <> Named L2 ->
  tunable_fit fit a1 (tunable_new (Named L2) tol) = Val o1 -> tunable_fit fit a2 (set_distance c o1) = Val o2 ->
  fit (Named L2) a1 = Val m1 -> mt_l2 m1 = Some (G, C, b) -> fit c a2 = Val m2 -> mt_represent m2 bag = Val t ->
  snd (tunable_predict N cvx bag (set_distance (Named L2) o2)) = solve_l2 N (mt_bins m2) (mt_classes m2) (mt_T m2) t G C b.
Proof. exact @L2_stale. Qed.
Print Assumptions C127_L2_stale_refuted.

(** AC and PAC: the same after a prediction with HD or L1 that had to solve the optimisation problem (the matrix has no inverse); the
    uncorrected prevalences p0 come from any two bags. *)
Theorem C127_AC_PAC_frozen : forall inv N cvx d p0_of p classes rows (s : adjuster), d = HD \/ d = L1 ->
  aj_classes s = Some classes -> length classes <> 2%nat -> all_some (aj_cm s) = Some rows ->
  inv (length classes) (fun i j => entry rows j i) = None ->
  snd (adjuster_predict inv N cvx d p0_of s) = Val p -> forall d' p0_of', d' = HD \/ d' = L1 ->
  let s' := fst (adjuster_predict inv N cvx d p0_of s) in
  snd (adjuster_predict inv N cvx d' p0_of' s') = snd (adjuster_predict inv N cvx d p0_of' s').
Proof. exact adjuster_frozen. Qed.
Print Assumptions C127_AC_PAC_frozen.

(** A history of the kind meant: fitted with HD, changed to L1 and to a smaller tolerance, and then used twice. *)
Example C127_hypotheses : forall ppf N fuel, let fit := DFy_fits ppf N fuel CDF 2 EqualWidth in
  exists o2 o, ignores_warm_start ideal_cvx /\ exact_cvx ideal_cvx /\ answering_cvx ideal_cvx /\ tunable_class N fit /\
    tunable_fit fit (ex_labels, ex_preds) (tunable_new (Named HD) 1) = Val o2 /\
    after fit N ideal_cvx o2 [SetDistance (Named L1); SetTol (1/2); Predict ex_preds; Predict ex_preds] o /\
    tn_distance o = Named L1 /\
    ~ In (Named HD) (predicted_with (Named HD) [@SetDistance (list Z * list (list R)) _ (Named L1); SetTol (1/2); Predict ex_preds; Predict ex_preds]).
Proof.
  intros ppf N fuel fit. unfold fit, tunable_fit, DFy_fits. cbn [tunable_new tn_distance tn_tol tn_state fst snd]. rewrite ex_fit.
  eexists. eexists. split; [exact ideal_ignores|]. split; [exact ideal_cvx_exact|]. split; [intros w n f x; apply ideal_cvx_answers|]. split; [apply class_DFy|]. split; [reflexivity|].
  split; [apply after_distance, after_tol, after_predict, after_predict, after_nothing|]. split.
  - unfold tunable_predict, set_tol, set_distance. cbn [tn_distance tn_tol tn_state].
    repeat (match goal with |- context [matching_predict ?a ?b ?c ?d ?e ?f] => destruct (matching_predict a b c d e f) end; cbn [fst tn_distance tn_tol tn_state]).
    reflexivity.
  - intros [H|[H|[]]]; discriminate.
Qed.
