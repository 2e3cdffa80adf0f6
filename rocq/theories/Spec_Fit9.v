(** * Specification of QUANTy after failing fits (C137). *)

From Coq Require Import Reals List ZArith.
From Verif Require Import Num M_Baselines M_Base M_Fit M_Fit2 M_Fit8 M_Fit9 Spec_Fit.
Import ListNotations.
Open Scope R_scope.

(** The states of a new QUANTy after any calls of fit and predict, each returning or raising; between the calls the estimators may change
    in any way. *)
Inductive QUANTy_calls {X M : Type} (A : nat -> algorithm X M) argsort q distance tol : quant_object -> Prop :=
| QUANTy_calls_new : forall et es, QUANTy_calls A argsort q distance tol (QUANTy_new et es)
| QUANTy_calls_fit : forall s x y given w r s' w', QUANTy_calls A argsort q distance tol s ->
    QUANTy_object_fit A argsort x y given s w = (r, s', w') -> QUANTy_calls A argsort q distance tol s'
| QUANTy_calls_predict : forall s x given w, QUANTy_calls A argsort q distance tol s ->
    QUANTy_calls A argsort q distance tol (fst (QUANTy_object_predict A argsort q distance tol x given s w)).

(** The same, if every fit raised. *)
Inductive QUANTy_only_failed {X M : Type} (A : nat -> algorithm X M) argsort q distance tol : quant_object -> Prop :=
| QUANTy_failed_new : forall et es, QUANTy_only_failed A argsort q distance tol (QUANTy_new et es)
| QUANTy_failed_fit : forall s x y given w r s' w', QUANTy_only_failed A argsort q distance tol s ->
    QUANTy_object_fit A argsort x y given s w = (r, s', w') -> raises r -> QUANTy_only_failed A argsort q distance tol s'
| QUANTy_failed_predict : forall s x given w, QUANTy_only_failed A argsort q distance tol s ->
    QUANTy_only_failed A argsort q distance tol (fst (QUANTy_object_predict A argsort q distance tol x given s w)).

(** [QUANTy_predictions s s']: from [s] to [s'] by any predictions, answered or not. *)
Inductive QUANTy_predictions {X M : Type} (A : nat -> algorithm X M) argsort q distance tol (s : quant_object) : quant_object -> Prop :=
| QUANTy_none : QUANTy_predictions A argsort q distance tol s s
| QUANTy_one_more : forall s' x given w, QUANTy_predictions A argsort q distance tol s s' ->
    QUANTy_predictions A argsort q distance tol s (fst (QUANTy_object_predict A argsort q distance tol x given s' w)).
