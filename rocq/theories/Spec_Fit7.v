(** * Specification of ACOrdinal after failing fits (C135). *)

From Coq Require Import Reals List ZArith.
From Verif Require Import Num M_Baselines M_Base M_Optim M_Match M_Fit M_Fit2 M_Fit7 Spec_Fit.
Import ListNotations.
Open Scope R_scope.

(** The states of a new ACOrdinal after any calls of fit and predict, each returning or raising; between the calls the estimators may
    change in any way. *)
Inductive ACOrdinal_calls {X M : Type} (A : nat -> algorithm X M) N cvx : aco_object -> Prop :=
| ACOrdinal_calls_new : forall et es, ACOrdinal_calls A N cvx (ACOrdinal_new et es)
| ACOrdinal_calls_fit : forall s x y given w r s' w', ACOrdinal_calls A N cvx s ->
    ACOrdinal_object_fit A x y given s w = (r, s', w') -> ACOrdinal_calls A N cvx s'
| ACOrdinal_calls_predict : forall s x given w, ACOrdinal_calls A N cvx s ->
    ACOrdinal_calls A N cvx (fst (ACOrdinal_object_predict A N cvx x given s w)).

(** The same, if every fit raised. *)
Inductive ACOrdinal_only_failed {X M : Type} (A : nat -> algorithm X M) N cvx : aco_object -> Prop :=
| ACOrdinal_failed_new : forall et es, ACOrdinal_only_failed A N cvx (ACOrdinal_new et es)
| ACOrdinal_failed_fit : forall s x y given w r s' w', ACOrdinal_only_failed A N cvx s ->
    ACOrdinal_object_fit A x y given s w = (r, s', w') -> raises r -> ACOrdinal_only_failed A N cvx s'
| ACOrdinal_failed_predict : forall s x given w, ACOrdinal_only_failed A N cvx s ->
    ACOrdinal_only_failed A N cvx (fst (ACOrdinal_object_predict A N cvx x given s w)).

(** The states after a fit with labels [y0] that returned and then any predictions, answered or not. *)
Inductive ACOrdinal_after_fit {X M : Type} (A : nat -> algorithm X M) N cvx (y0 : list Z) : aco_object -> Prop :=
| ACOrdinal_after_now : forall s0 x given w s w', ACOrdinal_calls A N cvx s0 ->
    ACOrdinal_object_fit A x y0 given s0 w = (Val tt, s, w') -> ACOrdinal_after_fit A N cvx y0 s
| ACOrdinal_after_predict : forall s x given w, ACOrdinal_after_fit A N cvx y0 s ->
    ACOrdinal_after_fit A N cvx y0 (fst (ACOrdinal_object_predict A N cvx x given s w)).

(** [renamed a b bag bag']: where [bag] has the i-th label of [a], [bag'] has the i-th label of [b]. *)
Definition renamed (a b bag bag' : list Z) : Prop :=
  Forall2 (fun z z' => exists i, nth_error a i = Some z /\ nth_error b i = Some z') bag bag'.
