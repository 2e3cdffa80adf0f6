(** * Property theorems: constructors, get_params, set_params and clone (C126). *)

From Coq Require Import String List Bool.
From Verif Require Import M_Params Spec_Params L_Params.
Import ListNotations.
Open Scope string_scope.

(** C126: get_params of a new object returns the parameters in order, each with the value of the argument that Python gave it, or with its
    default. *)
Theorem C126_get_params : forall c, In c plain_classes -> forall positional kw o, call c positional kw = Returns o ->
  exists ps, get_params c o = Returns ps /\ length ps = length (cl_params c) /\
    forall i n d, nth_error (cl_params c) i = Some (n, d) ->
      exists v, argument positional kw i n d = Some v /\ nth_error ps i = Some (n, v).
Proof. exact get_params_new. Qed.
Print Assumptions C126_get_params.

(** No method changes a parameter, except in CV_estimator ... *)
Theorem C126_methods_keep : forall c, In c plain_classes -> cl_name c <> "CV_estimator" -> forall o k v, In k (cl_assigns c) ->
  get_params c (set_attr k v o) = get_params c o.
Proof. exact methods_keep. Qed.
Print Assumptions C126_methods_keep.

(** ... whose fit overwrites cv. *)
Theorem C126_cv_refuted : forall e, exists o v, call cCV_estimator [e] [] = Returns o /\ In "cv" (cl_assigns cCV_estimator) /\
  get_params cCV_estimator (set_attr "cv" v o) <> get_params cCV_estimator o.
Proof. exact cv_overwritten. Qed.
Print Assumptions C126_cv_refuted.

(** set_params changes exactly the parameters it gets ... *)
Theorem C126_set_params : forall c o kw, In c plain_classes -> reachable c o ->
  (forall k, In k (map fst kw) -> In k (param_names c)) -> NoDup (map fst kw) ->
  exists o', set_params c o kw = (o', Returns tt) /\ forall k, o' k = match keyword k kw with Some v => Some v | None => o k end.
Proof. exact set_params_known. Qed.
Print Assumptions C126_set_params.

(** ... and refuses a name that is none, leaving all attributes that are not parameters as they were. *)
Theorem C126_set_params_unknown : forall c o kw, In c plain_classes -> reachable c o -> (exists k, In k (map fst kw) /\ ~ In k (param_names c)) ->
  snd (set_params c o kw) = Raises "ValueError" /\
  forall k, ~ In k (param_names c) -> fst (set_params c o kw) k = o k.
Proof. exact set_params_unknown. Qed.
Print Assumptions C126_set_params_unknown.

(** clone returns a new object made with copies of the current parameters; nothing else of the old object is kept. *)
Theorem C126_clone : forall c o copy, In c plain_classes -> reachable c o ->
  exists ps o', get_params c o = Returns ps /\ clone c copy o = Returns o' /\
    call c [] (map (fun kv => (fst kv, copy (snd kv))) ps) = Returns o' /\
    get_params c o' = Returns (map (fun kv => (fst kv, copy (snd kv))) ps).
Proof. exact clone_plain. Qed.
Print Assumptions C126_clone.

(** "Every object can be cloned and has parameters" is false: for EM, EDX, PWKQuantifier and PWK, get_params, clone and set_params always
    raise AttributeError ... *)
Theorem C126_renamed_refuted : forall c o, In c renaming_classes -> reachable c o ->
  get_params c o = Raises "AttributeError" /\ (forall copy, clone c copy o = Raises "AttributeError") /\
  forall kv kw, set_params c o (kv :: kw) = (o, Raises "AttributeError").
Proof. exact renaming_fails. Qed.
Print Assumptions C126_renamed_refuted.

(** ... an OrdinalQuantificationTree can never be cloned ... *)
Theorem C126_tree_clone_refuted : forall o copy, reachable cOrdinalQuantificationTree o -> clone cOrdinalQuantificationTree copy o = Raises "RuntimeError".
Proof. exact tree_clone. Qed.
Print Assumptions C126_tree_clone_refuted.

(** ... its get_params returns the tree it built, not the classifier it got, and set_params replaces the tree by the bare classifier. *)
Theorem C126_tree_params_refuted : forall e, exists o, call cOrdinalQuantificationTree [e] [] = Returns o /\
  get_params cOrdinalQuantificationTree o = Returns [("estimator_test", Made "FrankAndHallTreeClassifier" [e]); ("verbose", Lit "0")] /\
  forall e', fst (set_params cOrdinalQuantificationTree o [("estimator_test", e')]) "estimator_test" = Some e'.
Proof. exact tree_params. Qed.
Print Assumptions C126_tree_params_refuted.

(** A single classifier given by position is the one for training in AC and eleven other quantifiers, the one for testing in PAC, DeBias and
    FriedmanME; the other one is then missing. *)
Theorem C126_first_argument_train : forall c e, In c train_first -> exists o, call c [e] [] = Returns o /\
  o "estimator_train" = Some e /\ o "estimator_test" = Some (Lit "None").
Proof. exact first_argument_train. Qed.
Print Assumptions C126_first_argument_train.

Theorem C126_first_argument_test : forall c e, In c test_first -> exists o, call c [e] [] = Returns o /\
  o "estimator_test" = Some e /\ o "estimator_train" = Some (Lit "None").
Proof. exact first_argument_test. Qed.
Print Assumptions C126_first_argument_test.

(** Whether a quantifier needs training predictions and works with probabilities depends on its class only, never on its arguments, on
    set_params or on its methods. *)
Theorem C126_modes : forall c needs prob, In (c, (needs, prob)) modes -> forall o, reachable c o ->
  o "needs_predictions_train" = Some (Lit needs) /\ o "probabilistic_predictions" = Some (Lit prob).
Proof. exact modes_fixed. Qed.
Print Assumptions C126_modes.

(** OneVsRestQuantifier and FrankAndHallQuantifier work with probabilities and ask for training predictions when they are new (what they ask
    for later depends on their base quantifier, C71). *)
Theorem C126_decompositions : forall c, In c [cOneVsRestQuantifier; cFrankAndHallQuantifier] ->
  (forall o, reachable c o -> o "probabilistic_predictions" = Some (Lit "True")) /\
  (forall args kw o, call c args kw = Returns o -> o "needs_predictions_train" = Some (Lit "True")).
Proof. exact decompositions_fixed. Qed.
Print Assumptions C126_decompositions.

(** The same for the representation and the distance of HDy, MMy and HDX. *)
Theorem C126_presets : forall c df d, In (c, (df, d)) presets -> forall o, reachable c o ->
  o "distribution_function" = Some (Lit df) /\ o "distance" = Some (Lit d).
Proof. exact presets_fixed. Qed.
Print Assumptions C126_presets.

(** A fitted DFy whose number of bins was changed later. *)
Example C126_hypotheses : exists o, call cDFy [User 7] [("n_bins", Lit "20")] = Returns o /\
  reachable cDFy (fst (set_params cDFy (set_attr "train_distrib_" (User 9) o) [("n_bins", Lit "50")])) /\
  In cDFy plain_classes /\ In "train_distrib_" (cl_assigns cDFy) /\
  (exists o', call cEM [] [("max_iter", Lit "5")] = Returns o' /\ reachable cEM o') /\
  (exists o', call cOrdinalQuantificationTree [User 3] [] = Returns o' /\ reachable cOrdinalQuantificationTree o').
Proof.
  eexists. split; [reflexivity|]. split; [apply reachable_set, reachable_method; [eapply (reachable_new cDFy [User 7] [("n_bins", Lit "20")]); reflexivity|cbn; tauto]|].
  split; [cbn; tauto|]. split; [cbn; tauto|]. split.
  - eexists. split; [reflexivity|]. apply (reachable_new cEM [] [("max_iter", Lit "5")]). reflexivity.
  - eexists. split; [reflexivity|]. apply (reachable_new cOrdinalQuantificationTree [User 3] []). reflexivity.
Qed.
