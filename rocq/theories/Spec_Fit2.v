(** * Specification of quantifiers after failing fits (C125). *)

From Coq Require Import Reals List ZArith.
From Verif Require Import Num M_Base M_Fit M_Fit2 Spec_Fit.
Import ListNotations.
Open Scope R_scope.

(** [CC_calls s last]: a CC is in state [s] after any calls of fit and predict, each returning or raising; [last]: the labels
    passed to the last call of fit, if there was one.  Between the calls the estimators may change in any way. *)
Inductive CC_calls {X M : Type} (A : nat -> algorithm X M) : quantifier_object -> option (list Z) -> Prop :=
| CC_calls_new : forall est, CC_calls A (CC_new est) None
| CC_calls_fit : forall s last x y w r s' w', CC_calls A s last -> CC_object_fit A x y s w = (r, s', w') -> CC_calls A s' (Some y)
| CC_calls_predict : forall s last x given w, CC_calls A s last -> CC_calls A (fst (CC_object_predict A x given s w)) last.

(** The same for PCC. *)
Inductive PCC_calls {X M : Type} (A : nat -> algorithm X M) : quantifier_object -> Prop :=
| PCC_calls_new : forall est, PCC_calls A (PCC_new est)
| PCC_calls_fit : forall s x y w r s' w', PCC_calls A s -> CC_object_fit A x y s w = (r, s', w') -> PCC_calls A s'
| PCC_calls_predict : forall s x given w, PCC_calls A s -> PCC_calls A (fst (PCC_object_predict A x given s w)).

(** The states of a new PAC without estimators after any calls of fit and predict. *)
Inductive PAC_calls {X M : Type} (A : nat -> algorithm X M) inv N cvx fuel dist : ac_object -> Prop :=
| PAC_calls_new : PAC_calls A inv N cvx fuel dist (PAC_new None None)
| PAC_calls_fit : forall s x y given w r s' w', PAC_calls A inv N cvx fuel dist s ->
    PAC_object_fit A N fuel dist x y given s w = (r, s', w') -> PAC_calls A inv N cvx fuel dist s'
| PAC_calls_predict : forall s x given w, PAC_calls A inv N cvx fuel dist s ->
    PAC_calls A inv N cvx fuel dist (fst (PAC_object_predict A inv N cvx dist x given s w)).

(** The states of a new DeBias, and of a new EM, on which fit always raised. *)
Inductive DeBias_only_failed {X M : Type} (A : nat -> algorithm X M) : debias_object -> Prop :=
| DeBias_failed_new : forall et es, DeBias_only_failed A (DeBias_new et es)
| DeBias_failed_again : forall s x y given w r s' w', DeBias_only_failed A s ->
    DeBias_object_fit A x y given s w = (r, s', w') -> raises r -> DeBias_only_failed A s'
| DeBias_failed_predict : forall s x given w, DeBias_only_failed A s -> DeBias_only_failed A (fst (DeBias_object_predict A x given s w)).

Inductive EM_only_failed {X M : Type} (A : nat -> algorithm X M) (eps : R) (max_iter : nat) : em_object -> Prop :=
| EM_failed_new : forall et es, EM_only_failed A eps max_iter (EM_new et es)
| EM_failed_again : forall s x y given w r s' w', EM_only_failed A eps max_iter s ->
    EM_object_fit A x y given s w = (r, s', w') -> raises r -> EM_only_failed A eps max_iter s'
| EM_failed_predict : forall s x given w, EM_only_failed A eps max_iter s ->
    EM_only_failed A eps max_iter (fst (EM_object_predict A eps max_iter x given s w)).

(** The share of a label in a list. *)
Definition share (c : Z) (l : list Z) : R := INR (count_occ Z.eq_dec l c) / INR (length l).

(** The states of a new DeBias, and of a new EM, after any calls of fit and predict. *)
Inductive DeBias_calls {X M : Type} (A : nat -> algorithm X M) : debias_object -> Prop :=
| DeBias_calls_new : forall et es, DeBias_calls A (DeBias_new et es)
| DeBias_calls_fit : forall s x y given w r s' w', DeBias_calls A s ->
    DeBias_object_fit A x y given s w = (r, s', w') -> DeBias_calls A s'
| DeBias_calls_predict : forall s x given w, DeBias_calls A s -> DeBias_calls A (fst (DeBias_object_predict A x given s w)).

Inductive EM_calls {X M : Type} (A : nat -> algorithm X M) (eps : R) (max_iter : nat) : em_object -> Prop :=
| EM_calls_new : forall et es, EM_calls A eps max_iter (EM_new et es)
| EM_calls_fit : forall s x y given w r s' w', EM_calls A eps max_iter s ->
    EM_object_fit A x y given s w = (r, s', w') -> EM_calls A eps max_iter s'
| EM_calls_predict : forall s x given w, EM_calls A eps max_iter s ->
    EM_calls A eps max_iter (fst (EM_object_predict A eps max_iter x given s w)).
