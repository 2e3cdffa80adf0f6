(** * Specification: changing n_bins, bin_strategy and distribution_function between calls (C130). *)

From Coq Require Import Reals List ZArith Bool.
From Verif Require Import Num M_Baselines M_Search M_Optim M_Match M_History M_Rebin.
Import ListNotations.
Open Scope R_scope.

(** [used_after q N cvx crit tol o o']: [o'] is what [o] becomes by predictions and changes of the three parameters, in any order. *)
Inductive used_after (q : histogram_class) (N : numerics) (cvx : cvx_solver) (crit : criterion) (tol : R)
  : histogram_object -> histogram_object -> Prop :=
| used_not : forall o, used_after q N cvx crit tol o o
| used_predict : forall o o' bag, used_after q N cvx crit tol o o' -> used_after q N cvx crit tol o (fst (ho_predict q N cvx crit tol bag o'))
| used_kind : forall o o' kind, used_after q N cvx crit tol o o' -> used_after q N cvx crit tol o (set_kind kind o')
| used_bins : forall o o' n, used_after q N cvx crit tol o o' -> used_after q N cvx crit tol o (set_bins n o')
| used_strat : forall o o' strat, used_after q N cvx crit tol o o' -> used_after q N cvx crit tol o (set_strat strat o').

(** There is something to count: a label for DFy, an attribute for DFX. *)
Definition has_descriptors (q : histogram_class) (y : list Z) : Prop :=
  match q with DFy_class_of => y <> [] | DFX_class_of k => (0 < k)%nat end.
