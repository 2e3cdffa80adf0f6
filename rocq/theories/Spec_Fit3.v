(** * Specification of DFX after failing fits (C129). *)

From Coq Require Import Reals List ZArith.
From Verif Require Import Num M_Optim M_Match M_Fit3 Spec_Fit.
Import ListNotations.
Open Scope R_scope.

(** The states of a new DFX after any calls of fit and predict, each returning or raising. *)
Inductive DFX_calls ppf N cvx fuel kind n_bins strat crit tol k : dfx_object -> Prop :=
| DFX_calls_new : DFX_calls ppf N cvx fuel kind n_bins strat crit tol k DFX_new
| DFX_calls_fit : forall s y X, DFX_calls ppf N cvx fuel kind n_bins strat crit tol k s ->
    DFX_calls ppf N cvx fuel kind n_bins strat crit tol k (snd (DFX_object_fit ppf N fuel kind n_bins strat crit k y X s))
| DFX_calls_predict : forall s bag, DFX_calls ppf N cvx fuel kind n_bins strat crit tol k s ->
    DFX_calls ppf N cvx fuel kind n_bins strat crit tol k (fst (DFX_object_predict N cvx kind n_bins crit tol k bag s)).

(** The states of a new DFX on which fit always raised. *)
Inductive DFX_only_failed ppf N cvx fuel kind n_bins strat crit tol k : dfx_object -> Prop :=
| DFX_failed_new : DFX_only_failed ppf N cvx fuel kind n_bins strat crit tol k DFX_new
| DFX_failed_again : forall s y X r s', DFX_only_failed ppf N cvx fuel kind n_bins strat crit tol k s ->
    DFX_object_fit ppf N fuel kind n_bins strat crit k y X s = (r, s') -> raises r ->
    DFX_only_failed ppf N cvx fuel kind n_bins strat crit tol k s'
| DFX_failed_predict : forall s bag, DFX_only_failed ppf N cvx fuel kind n_bins strat crit tol k s ->
    DFX_only_failed ppf N cvx fuel kind n_bins strat crit tol k (fst (DFX_object_predict N cvx kind n_bins crit tol k bag s)).

(** The data that check_X_y accepts. *)
Definition accepted_data (k : nat) (y : list Z) (X : list (list R)) : Prop := length y = length X /\ X <> [] /\ (0 < k)%nat.

(** norm.ppf increases. *)
Definition increasing_ppf (ppf : R -> R) : Prop := forall u v, 0 < u -> u <= v -> v < 1 -> ppf u <= ppf v.

(** A bag of examples with [k] attributes, none of them exactly 0. *)
Definition without_zeros (k : nat) (bag : list (list R)) : Prop :=
  bag <> [] /\ Forall (fun row => length row = k /\ ~ In 0 row) bag.
