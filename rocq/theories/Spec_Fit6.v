(** * Specification of PDFOrdinaly after failing fits (C134). *)

From Coq Require Import Reals List ZArith.
From Verif Require Import Num M_Baselines M_Base M_Optim M_Match M_Fit M_Fit2 M_Fit3 M_Fit4 M_Fit6 Spec_Fit Spec_Fit4.
Import ListNotations.
Open Scope R_scope.

(** The states of a new PDFOrdinaly after any calls of fit and predict, each returning or raising; between the calls the estimators may
    change in any way. *)
Inductive PDFO_calls {X M : Type} (A : nat -> algorithm X M) N cvx fuel n_bins d meth : pdfo_object -> Prop :=
| PDFO_calls_new : forall et es, PDFO_calls A N cvx fuel n_bins d meth (PDFO_new et es)
| PDFO_calls_fit : forall s x y given w r s' w', PDFO_calls A N cvx fuel n_bins d meth s ->
    PDFO_object_fit A N fuel n_bins d meth x y given s w = (r, s', w') -> PDFO_calls A N cvx fuel n_bins d meth s'
| PDFO_calls_predict : forall s x given w, PDFO_calls A N cvx fuel n_bins d meth s ->
    PDFO_calls A N cvx fuel n_bins d meth (fst (PDFO_object_predict A N cvx n_bins d meth x given s w)).

(** The states after a fit with labels [y0] that returned and then any predictions, answered or not. *)
Inductive PDFO_after_fit {X M : Type} (A : nat -> algorithm X M) N cvx fuel n_bins d meth (y0 : list Z) : pdfo_object -> Prop :=
| PDFO_after_now : forall s0 x given w s w', PDFO_calls A N cvx fuel n_bins d meth s0 ->
    PDFO_object_fit A N fuel n_bins d meth x y0 given s0 w = (Val tt, s, w') -> PDFO_after_fit A N cvx fuel n_bins d meth y0 s
| PDFO_after_predict : forall s x given w, PDFO_after_fit A N cvx fuel n_bins d meth y0 s ->
    PDFO_after_fit A N cvx fuel n_bins d meth y0 (fst (PDFO_object_predict A N cvx n_bins d meth x given s w)).
