(** * Properties of EoQ objects whose fit raises or whose parameters change (C131).

    The class of the base quantifier [c] has a fit, which turns an object into an object and returns or raises, and a predict.
    [new] is the base quantifier that the user passed, in its present state; EoQ works with copies of it.  The user may change the
    parameters [p] between calls.  [base_of c new] is the same class as C58-C60 and C89-C92 see it. *)

From Coq Require Import Reals List ZArith Lra Lia.
From Verif Require Import Num Spec M_Baselines M_Bags Spec_Bags M_Match Spec_Match M_Reg Spec_Reg M_Eoq Spec_Eoq L_Eoq7 M_Fit3 Spec_Fit M_Eoq2 Spec_Eoq2
  L_Eoq9 L_Eoq10 L_Eoq11.
Import ListNotations.
Open Scope R_scope.

(** ** C131 *)

(** After a fit that returned, predict answers what C58-C60 and C89-C92 say about the ensemble that this fit built.  Whatever the object
    went through before has no effect. *)
Theorem C131_fit_returns : forall S Q (B : settable S) ppf argsort distance (c : base_class Q) new p k X y preds given g o o' g',
  sorts argsort ->
  EoQ_object_fit B ppf c new p k X y (Val preds) given g o = Some (Val tt, o', g') ->
  exists q, EoQ_fit B ppf (base_of c new) p k X y preds given g = Some (Val q, g') /\
    forall p' k' X' preds', (only_prevalences p' \/ (ep_n p' = ep_n p /\ ep_bins p' = ep_bins p)) ->
      EoQ_object_predict argsort distance c new p' o' k' X' preds' = EoQ_predict argsort distance (base_of c new) p' q k' X' preds'.
Proof. exact @answers_after_fit. Qed.
Print Assumptions C131_fit_returns.

(** A fit that returns on a new object returns on every object. *)
Theorem C131_returns : forall S Q (B : settable S) ppf (c : base_class Q) new p k X y preds given g o q g',
  EoQ_fit B ppf (base_of c new) p k X y preds given g = Some (Val q, g') ->
  exists o', EoQ_object_fit B ppf c new p k X y (Val preds) given g o = Some (Val tt, o', g').
Proof. exact @returns_again. Qed.
Print Assumptions C131_returns.

(** After any calls of fit, if predict answers then all the voting members come from one call; the later calls raised.  The members are
    copies of the base quantifier fitted with examples of that call; only the last of them may be a copy whose training did not end. *)
Theorem C131_one_fit : forall S Q (B : settable S) ppf argsort distance (c : base_class Q) calls o new p k X preds r, usable c ->
  EoQ_calls B ppf c calls o -> (0 < ep_n p)%nat -> EoQ_object_predict argsort distance c new p o k X preds = Val r ->
  exists later (f : fit_call S Q) end_of_f earlier, calls = later ++ (f, end_of_f) :: earlier /\ Forall (fun x => raises (snd x)) later /\
    forall i, (i < ep_n p)%nat -> exists q, votes o i q /\
      (fitted_copy c f q (Val tt) \/ (Datatypes.S i = ep_n p /\ unfinished_copy c f q)).
Proof. exact @one_fit_votes. Qed.
Print Assumptions C131_one_fit.

(** A later fit whose bag generator or estimator raises: the ensemble answers as before if the number of classes is the same, and
    otherwise raises, because the classes are already those of the new labels. *)
Theorem C131_early : forall S Q (B : settable S) ppf argsort distance (c : base_class Q) new0 p0 k0 X0 y0 preds0 given0 g0 o0 o g'
    new p k X y preds given g,
  EoQ_object_fit B ppf c new0 p0 k0 X0 y0 (Val preds0) given0 g0 o0 = Some (Val tt, o, g') ->
  raises_early B c p X y preds given g ->
  exists r o1 g1, EoQ_object_fit B ppf c new p k X y preds given g o = Some (r, o1, g1) /\ raises r /\
    (length (np_unique y) = length (np_unique y0) -> forall new' p' k' X' preds',
       EoQ_object_predict argsort distance c new' p' o1 k' X' preds' = EoQ_object_predict argsort distance c new' p' o k' X' preds') /\
    (length (np_unique y) <> length (np_unique y0) -> length (np_unique y0) <> 1%nat -> exists q,
       EoQ_fit B ppf (base_of c new0) p0 k0 X0 y0 preds0 given0 g0 = Some (Val q, g') /\
       forall new' p' k' X' preds' answers, members_answer (base_of c new0) q X' preds' answers ->
         Forall (fun a => length a = length (np_unique y0)) answers -> (0 < ep_n p' <= ep_n p0)%nat ->
         EoQ_object_predict argsort distance c new' p' o1 k' X' preds' = Err ValueError).
Proof. exact @early_answers. Qed.
Print Assumptions C131_early.

(** If the training of member i raises then fit raises, and predict raises for every ensemble with more than i + 1 members. *)
Theorem C131_unfinished_using : forall S Q (B : settable S) ppf argsort distance fit predict (new : Q) p k X y preds bags g o r o' g' i b,
  EoQ_object_fit B ppf (ClassUsing fit predict) new p k X y (Val preds) (Some bags) g o = Some (r, o', g') ->
  n_predictions preds = length y -> (i < ep_n p)%nat -> nth_error bags i = Some b ->
  (forall pi, chosen_predictions (snd b) i preds pi -> raises (snd (fit new (bag_labels y (snd b)) pi))) ->
  raises r /\ forall new' p' k' X' preds', (Datatypes.S i < ep_n p')%nat ->
    raises (EoQ_object_predict argsort distance (ClassUsing fit predict) new' p' o' k' X' preds').
Proof. exact @unfinished_using. Qed.
Print Assumptions C131_unfinished_using.

Theorem C131_unfinished_without : forall S Q (B : settable S) ppf argsort distance fit predict (new : Q) p k X y preds bags g o r o' g' i b,
  EoQ_object_fit B ppf (ClassWithout fit predict) new p k X y preds (Some bags) g o = Some (r, o', g') ->
  ep_bins p = 100%nat -> X <> [] -> (i < ep_n p)%nat -> nth_error bags i = Some b ->
  raises (snd (fit new (examples X (snd b)) (bag_labels y (snd b)))) ->
  raises r /\ forall new' p' k' X' preds', (Datatypes.S i < ep_n p')%nat ->
    raises (EoQ_object_predict argsort distance (ClassWithout fit predict) new' p' o' k' X' preds').
Proof. exact @unfinished_without. Qed.
Print Assumptions C131_unfinished_without.

(** A fit that raised does not stop predict: the second bag has an index that does not exist, so fit raises IndexError.  The second member
    is then the base quantifier itself, here one that the user had fitted with other data, and predict averages it with the first. *)
Theorem C131_last_member_refuted : forall ppf argsort distance, exists o,
  EoQ_object_fit no_generator ppf (prior_class 2) [1/2; 1/2] (ep2 CMean 1) 0 [] [0; 1]%Z (Val (Crisp [0; 1]%Z)) (Some wrong_bags) tt EoQ_new =
    Some (Err IndexError, o, tt) /\
  EoQ_object_predict argsort distance (prior_class 2) [1/2; 1/2] (ep2 CMean 1) o 0 [] (Crisp [0]%Z) = Val (Vector [3/4; 1/4]).
Proof. exact last_votes. Qed.
Print Assumptions C131_last_member_refuted.

(** With cumulative distributions fit always raises, yet predict then answers exactly as it does after the fit with densities, for the
    strategies that do not compare distributions. *)
Theorem C131_cdf : forall S Q (B : settable S) ppf argsort distance (c : base_class Q) new p k X y preds given g o o1 g',
  (0 < ep_n p)%nat -> (0 < k)%nat -> y <> [] ->
  EoQ_object_fit B ppf c new (with_function PDF p) k X y (Val preds) given g o = Some (Val tt, o1, g') ->
  exists o2, EoQ_object_fit B ppf c new (with_function CDF p) k X y (Val preds) given g o = Some (Err AxisError, o2, g') /\
    forall new' p' k' X' preds', only_prevalences p' ->
      EoQ_object_predict argsort distance c new' p' o2 k' X' preds' = EoQ_object_predict argsort distance c new' p' o1 k' X' preds'.
Proof. exact @cdf_still_answers. Qed.
Print Assumptions C131_cdf.

(** n_quantifiers changed after fit: predict raises when it grew, and with the mean it averages the first members when it shrank. *)
Theorem C131_more_members : forall S Q (B : settable S) ppf argsort distance (c : base_class Q) new p k X y preds given g o o' g' new' p' k' X' preds',
  EoQ_object_fit B ppf c new p k X y (Val preds) given g o = Some (Val tt, o', g') -> (ep_n p < ep_n p')%nat ->
  raises (EoQ_object_predict argsort distance c new' p' o' k' X' preds').
Proof. exact @more_members. Qed.
Print Assumptions C131_more_members.

Theorem C131_fewer_members : forall S Q (B : settable S) ppf argsort distance (c : base_class Q) new p k X y preds given g o o' g',
  sorts argsort -> EoQ_object_fit B ppf c new p k X y (Val preds) given g o = Some (Val tt, o', g') ->
  exists q, EoQ_fit B ppf (base_of c new) p k X y preds given g = Some (Val q, g') /\
    forall p' k' X' preds' answers, ep_combination p' = CMean -> (0 < ep_n p' <= ep_n p)%nat ->
      members_answer (base_of c new) q X' preds' answers -> distributions (length (np_unique y)) answers ->
      exists r, EoQ_object_predict argsort distance c new p' o' k' X' preds' = Val (Vector r) /\
        average_answer (length (np_unique y)) answers (seq 0 (ep_n p')) r.
Proof. exact @fewer_members. Qed.
Print Assumptions C131_fewer_members.

(** The hypotheses are met: the ensemble of two members of C58 with Soft predictions, a fit with an estimator that raises, a base
    quantifier that raises on bags of one class, and cumulative distributions. *)
Definition strict_class : base_class (list R) :=
  ClassUsing (fun p y _ => match np_unique y with [_] => (p, Err ValueError) | _ => (tabulate 2 (fun c => fraction (Z.of_nat c) y), Val tt) end)
             (fun p _ => Val p).

Example C131_hypotheses : forall ppf,
  EoQ_object_fit no_generator ppf (prior_class 2) [1/2; 1/2] (ep2 CMean 1) 0 [] [0; 1]%Z (Val (Soft pure_rows)) (Some two_bags) tt EoQ_new =
    Some (Val tt, object_of pair_q, tt) /\
  members_answer (base_of (prior_class 2) [1/2; 1/2]) pair_q [] (Soft [[0; 1]]) [[1; 0]; [0; 1]] /\ distributions 2 [[1; 0]; [0; 1]] /\
  raises_early no_generator (prior_class 2) (ep2 CMean 1) [] [0; 1; 2]%Z (Err ValueError) (Some two_bags) tt /\
  (exists r o, EoQ_object_fit no_generator ppf strict_class [] (ep2 CMean 1) 0 [] [0; 1]%Z (Val (Soft pure_rows)) (Some two_bags) tt EoQ_new =
     Some (r, o, tt)) /\
  (forall pi, chosen_predictions [0; 0]%nat 0 (Soft pure_rows) pi ->
     raises (snd ((fun (p : list R) y (_ : predictions) =>
       match np_unique y with [_] => (p, Err ValueError) | _ => (tabulate 2 (fun c => fraction (Z.of_nat c) y), Val tt) end) [] (bag_labels [0; 1]%Z [0; 0]%nat) pi))).
Proof.
  intros ppf. split; [|split; [|split; [|split; [|split]]]].
  - apply object_fit_returns. exists pair_q. split; [|reflexivity]. exact (pair_fit CMean 1 ppf).
  - exact (pair_answers [] [[0; 1]]).
  - exact pair_distributions.
  - right. split; [unfold prior_class; eauto|]. split; [eauto|]. discriminate.
  - unfold EoQ_object_fit, strict_class. cbn [eoq_bags]. destruct (object_fit_using _ _ _ _ _ _ _ _) as [r o]. eauto.
  - intros pi _. cbn. discriminate.
Qed.
