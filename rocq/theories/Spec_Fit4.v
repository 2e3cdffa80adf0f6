(** * Specification of DFy after failing fits (C132). *)

From Coq Require Import Reals List ZArith.
From Verif Require Import Num M_Baselines M_Base M_Optim M_Match M_Fit M_Fit2 M_Fit3 M_Fit4 Spec_Fit.
Import ListNotations.
Open Scope R_scope.

(** The states of a new DFy after any calls of fit and predict, each returning or raising; between the calls the estimators may change in
    any way. *)
Inductive DFy_calls {X M : Type} (A : nat -> algorithm X M) ppf N cvx fuel kind n_bins strat crit tol : dfy_object -> Prop :=
| DFy_calls_new : forall et es, DFy_calls A ppf N cvx fuel kind n_bins strat crit tol (DFy_new et es)
| DFy_calls_fit : forall s x y given w r s' w', DFy_calls A ppf N cvx fuel kind n_bins strat crit tol s ->
    DFy_object_fit A ppf N fuel kind n_bins strat crit x y given s w = (r, s', w') ->
    DFy_calls A ppf N cvx fuel kind n_bins strat crit tol s'
| DFy_calls_predict : forall s x given w, DFy_calls A ppf N cvx fuel kind n_bins strat crit tol s ->
    DFy_calls A ppf N cvx fuel kind n_bins strat crit tol (fst (DFy_object_predict A N cvx kind crit tol x given s w)).

(** The states after a fit with labels [y0] that returned and then any predictions, answered or not. *)
Inductive DFy_after_fit {X M : Type} (A : nat -> algorithm X M) ppf N cvx fuel kind n_bins strat crit tol (y0 : list Z) : dfy_object -> Prop :=
| DFy_after_now : forall s0 x given w s w', DFy_calls A ppf N cvx fuel kind n_bins strat crit tol s0 ->
    DFy_object_fit A ppf N fuel kind n_bins strat crit x y0 given s0 w = (Val tt, s, w') ->
    DFy_after_fit A ppf N cvx fuel kind n_bins strat crit tol y0 s
| DFy_after_predict : forall s x given w, DFy_after_fit A ppf N cvx fuel kind n_bins strat crit tol y0 s ->
    DFy_after_fit A ppf N cvx fuel kind n_bins strat crit tol y0 (fst (DFy_object_predict A N cvx kind crit tol x given s w)).

(** Predictions with [n] columns. *)
Definition columns (n : nat) (rows : list (list R)) : Prop := Forall (fun r => length r = n) rows.

(** The number of predictions is not that of the labels, nor a multiple of it: the labels repeated do not fit. *)
Definition wrong_number (y : list Z) (rows : list (list R)) : Prop := length (y_ext y (length rows)) <> length rows.
