(** * Specification of EoQ objects with failing fits and changed parameters (C131). *)

From Coq Require Import Reals List ZArith.
From Verif Require Import Num Spec M_Baselines M_Bags Spec_Bags M_Match M_Reg Spec_Reg M_Eoq Spec_Eoq M_Eoq2 Spec_Fit.
Import ListNotations.
Open Scope R_scope.

(** One call of fit: the base quantifier and the parameters that the ensemble has at the time, the arguments (predictions_train may be
    an exception of the estimators) and the state of the bag generator. *)
Record fit_call (S Q : Type) := {
  fc_new : Q; fc_params : eoq_params; fc_attributes : nat; fc_X : list (list R); fc_y : list Z; fc_preds : out predictions;
  fc_given : option (list bag); fc_generator : S
}.
Arguments fc_new {S Q}. Arguments fc_params {S Q}. Arguments fc_attributes {S Q}. Arguments fc_X {S Q}. Arguments fc_y {S Q}.
Arguments fc_preds {S Q}. Arguments fc_given {S Q}. Arguments fc_generator {S Q}.

Definition run_fit {S Q : Type} (B : settable S) (ppf : R -> R) (c : base_class Q) (f : fit_call S Q) (o : eoq_object Q) :=
  EoQ_object_fit B ppf c (fc_new f) (fc_params f) (fc_attributes f) (fc_X f) (fc_y f) (fc_preds f) (fc_given f) (fc_generator f) o.

(** The states of a new EoQ after any calls of fit, each returning or raising, the last one first in the list. *)
Inductive EoQ_calls {S Q : Type} (B : settable S) (ppf : R -> R) (c : base_class Q) : list (fit_call S Q * out unit) -> eoq_object Q -> Prop :=
| EoQ_no_calls : EoQ_calls B ppf c [] EoQ_new
| EoQ_one_more : forall calls o f r o' g', EoQ_calls B ppf c calls o -> run_fit B ppf c f o = Some (r, o', g') ->
    EoQ_calls B ppf c ((f, r) :: calls) o'.

(** The predictions of a training set for the examples [idx]; those of classifier [i] if there are several. *)
Definition chosen_predictions (idx : list nat) (i : nat) (preds pi : predictions) : Prop :=
  match preds with
  | Crisp l => Forall (fun j => (j < length l)%nat) idx /\ pi = Crisp (map (fun j => nth j l 0%Z) idx)
  | Soft l => Forall (fun j => (j < length l)%nat) idx /\ pi = Soft (map (fun j => nth j l []) idx)
  | PerModel l => Forall (fun j => (j < length l)%nat /\ (i < length (nth j l []))%nat) idx /\
      pi = Soft (map (fun j => nth i (nth j l []) []) idx)
  end.

(** The object [q] is a copy of the base quantifier of the call on which fit was called with examples of that call, ending with [r]. *)
Definition fitted_copy {S Q : Type} (c : base_class Q) (f : fit_call S Q) (q : Q) (r : out unit) : Prop :=
  match c with
  | ClassWithout fit _ => exists idx,
      Forall (fun j => (j < length (fc_X f))%nat /\ (j < length (fc_y f))%nat) idx /\
      fit (fc_new f) (examples (fc_X f) idx) (bag_labels (fc_y f) idx) = (q, r)
  | ClassUsing fit _ => exists idx i preds pi, fc_preds f = Val preds /\
      let ye := y_ext (fc_y f) (n_predictions preds) in
      Forall (fun j => (j < length ye)%nat) idx /\ chosen_predictions idx i preds pi /\
      fit (fc_new f) (bag_labels ye idx) pi = (q, r)
  | _ => False
  end.

(** A copy that was not fitted, or whose fit raised. *)
Definition unfinished_copy {S Q : Type} (c : base_class Q) (f : fit_call S Q) (q : Q) : Prop :=
  q = fc_new f \/ exists r, fitted_copy c f q r /\ raises r.

(** Member [i] votes, in its state [q]. *)
Definition votes {Q : Type} (o : eoq_object Q) (i : nat) (q : Q) : Prop :=
  exists ms, eo_members o = Some ms /\ nth_error ms i = Some (Some q).

(** Some quantifier class, with or without classifiers. *)
Definition usable {Q : Type} (c : base_class Q) : Prop :=
  match c with ClassWithout _ _ => True | ClassUsing _ _ => True | _ => False end.

(** fit raises before it trains a quantifier: generate_bags raises, or an estimator does. *)
Definition raises_early {S Q : Type} (B : settable S) (c : base_class Q) (p : eoq_params) (X : list (list R)) (y : list Z)
    (preds : out predictions) (given : option (list bag)) (g : S) : Prop :=
  (usable c /\ given = None /\ exists e g', bs_generate (se_source B) X y (se_set B (ep_n p) g) = Some (Err e, g')) \/
  ((exists fit predict, c = ClassUsing fit predict) /\ (exists e, preds = Err e) /\
   (given = None -> exists bags g', bs_generate (se_source B) X y (se_set B (ep_n p) g) = Some (Val bags, g'))).

(** The same parameters with another distribution function. *)
Definition with_function (kind : representation) (p : eoq_params) : eoq_params :=
  {| ep_n := ep_n p; ep_combination := ep_combination p; ep_function := kind; ep_bins := ep_bins p;
     ep_strategy := ep_strategy p; ep_percentage := ep_percentage p |}.

(** The strategies that do not compare distributions. *)
Definition only_prevalences (p : eoq_params) : Prop :=
  ep_combination p = CMean \/ ep_combination p = CMedian \/ ep_combination p = PrevalenceSimilarity.

(** A class for the examples: an object holds the prevalences of the classes 0, ..., n-1 in its training labels. *)
Definition prior_class (n : nat) : base_class (list R) :=
  ClassUsing (fun _ y _ => (tabulate n (fun c => fraction (Z.of_nat c) y), Val tt)) (fun p _ => Val p).
