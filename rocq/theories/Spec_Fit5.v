(** * Specification of FriedmanME after failing fits (C133). *)

From Coq Require Import Reals List ZArith.
From Verif Require Import Num M_Baselines M_Base M_Optim M_Match M_Fit M_Fit2 M_Fit3 M_Fit4 M_Fit5 Spec_Fit Spec_Fit4.
Import ListNotations.
Open Scope R_scope.

(** The states of a new FriedmanME after any calls of fit and predict, each returning or raising; between the calls the estimators may
    change in any way. *)
Inductive Friedman_calls {X M : Type} (A : nat -> algorithm X M) N cvx fuel crit tol : fr_object -> Prop :=
| Friedman_calls_new : forall et es, Friedman_calls A N cvx fuel crit tol (Friedman_new et es)
| Friedman_calls_fit : forall s x y given w r s' w', Friedman_calls A N cvx fuel crit tol s ->
    Friedman_object_fit A N fuel crit x y given s w = (r, s', w') -> Friedman_calls A N cvx fuel crit tol s'
| Friedman_calls_predict : forall s x given w, Friedman_calls A N cvx fuel crit tol s ->
    Friedman_calls A N cvx fuel crit tol (fst (Friedman_object_predict A N cvx crit tol x given s w)).

(** The states after a fit with labels [y0] that returned and then any predictions, answered or not. *)
Inductive Friedman_after_fit {X M : Type} (A : nat -> algorithm X M) N cvx fuel crit tol (y0 : list Z) : fr_object -> Prop :=
| Friedman_after_now : forall s0 x given w s w', Friedman_calls A N cvx fuel crit tol s0 ->
    Friedman_object_fit A N fuel crit x y0 given s0 w = (Val tt, s, w') -> Friedman_after_fit A N cvx fuel crit tol y0 s
| Friedman_after_predict : forall s x given w, Friedman_after_fit A N cvx fuel crit tol y0 s ->
    Friedman_after_fit A N cvx fuel crit tol y0 (fst (Friedman_object_predict A N cvx crit tol x given s w)).

(** How often each class occurs among the labels. *)
Definition class_shares (y : list Z) : list R := map (fun c => INR (count_occ Z.eq_dec y c) / INR (length y)) (np_unique y).

(** Friedman's features of a bag: the fraction of the examples whose probability of each class is at least the [thresholds]. *)
Definition above (thresholds : list R) (rows : list (list R)) : list R :=
  map (fun c => rsum (map (fun r => if Rle_dec (nth c thresholds 0) (nth c r 0) then 1 else 0) rows) / INR (length rows))
      (seq 0 (length thresholds)).
