(** * Specification of SORDy after failing fits (C136). *)

From Coq Require Import Reals List ZArith.
From Verif Require Import Num M_Baselines M_Base M_Fit M_Fit2 M_Fit8 Spec_Fit.
Import ListNotations.
Open Scope R_scope.

(** The states of a new SORDy after any calls of fit and predict, each returning or raising; between the calls the estimators may change
    in any way. *)
Inductive SORDy_calls {X M : Type} (A : nat -> algorithm X M) argsort tol : sord_object -> Prop :=
| SORDy_calls_new : forall et es, SORDy_calls A argsort tol (SORDy_new et es)
| SORDy_calls_fit : forall s x y given w r s' w', SORDy_calls A argsort tol s ->
    SORDy_object_fit A argsort x y given s w = (r, s', w') -> SORDy_calls A argsort tol s'
| SORDy_calls_predict : forall s x given w, SORDy_calls A argsort tol s ->
    SORDy_calls A argsort tol (fst (SORDy_object_predict A argsort tol x given s w)).

(** The same, if every fit raised. *)
Inductive SORDy_only_failed {X M : Type} (A : nat -> algorithm X M) argsort tol : sord_object -> Prop :=
| SORDy_failed_new : forall et es, SORDy_only_failed A argsort tol (SORDy_new et es)
| SORDy_failed_fit : forall s x y given w r s' w', SORDy_only_failed A argsort tol s ->
    SORDy_object_fit A argsort x y given s w = (r, s', w') -> raises r -> SORDy_only_failed A argsort tol s'
| SORDy_failed_predict : forall s x given w, SORDy_only_failed A argsort tol s ->
    SORDy_only_failed A argsort tol (fst (SORDy_object_predict A argsort tol x given s w)).

(** The states after a fit with labels [y0] that returned and then any predictions, answered or not. *)
Inductive SORDy_after_fit {X M : Type} (A : nat -> algorithm X M) argsort tol (y0 : list Z) : sord_object -> Prop :=
| SORDy_after_now : forall s0 x given w s w', SORDy_calls A argsort tol s0 ->
    SORDy_object_fit A argsort x y0 given s0 w = (Val tt, s, w') -> SORDy_after_fit A argsort tol y0 s
| SORDy_after_predict : forall s x given w, SORDy_after_fit A argsort tol y0 s ->
    SORDy_after_fit A argsort tol y0 (fst (SORDy_object_predict A argsort tol x given s w)).

(** The pair that predict makes of a prevalence of the second class. *)
Definition as_pair (o : out R) : out (list R) := omap (fun p => [1 - p; p]) o.
