(** * Specification: changing the distance of a quantifier between calls (C127). *)

From Coq Require Import Reals List Bool.
From Verif Require Import Num M_Baselines M_Search M_Optim M_Match M_History M_Retune.
Import ListNotations.
Open Scope R_scope.

Inductive event (A B : Type) :=
| Fit (a : A)
| Predict (bag : B)
| SetDistance (crit : criterion)
| SetTol (tol : R).
Arguments Fit {A B}. Arguments Predict {A B}. Arguments SetDistance {A B}. Arguments SetTol {A B}.

(** [after fit N cvx o es o']: the events [es] can take the object from [o] to [o'].  A fit that fails keeps the two parameters and may
    leave everything else in any state. *)
Inductive after {A B : Type} (fit : criterion -> A -> out (matcher B)) (N : numerics) (cvx : cvx_solver)
  : tunable B -> list (event A B) -> tunable B -> Prop :=
| after_nothing : forall o, after fit N cvx o [] o
| after_fit : forall o a o1 es o', tunable_fit fit a o = Val o1 -> after fit N cvx o1 es o' -> after fit N cvx o (Fit a :: es) o'
| after_failed_fit : forall o a m es o', (forall v, tunable_fit fit a o <> Val v) ->
    after fit N cvx (Build_tunable (tn_distance o) (tn_tol o) m) es o' -> after fit N cvx o (Fit a :: es) o'
| after_predict : forall o bag es o', after fit N cvx (fst (tunable_predict N cvx bag o)) es o' -> after fit N cvx o (Predict bag :: es) o'
| after_distance : forall o crit es o', after fit N cvx (set_distance crit o) es o' -> after fit N cvx o (SetDistance crit :: es) o'
| after_tol : forall o tol es o', after fit N cvx (set_tol tol o) es o' -> after fit N cvx o (SetTol tol :: es) o'.

(** No fit among the events. *)
Definition no_fit {A B : Type} (es : list (event A B)) : Prop := forall a, ~ In (Fit a) es.

(** The distances that the object had at the predictions among the events, if it has [crit] at first. *)
Fixpoint predicted_with {A B : Type} (crit : criterion) (es : list (event A B)) : list criterion :=
  match es with
  | [] => []
  | Predict _ :: es => crit :: predicted_with crit es
  | SetDistance crit :: es => predicted_with crit es
  | _ :: es => predicted_with crit es
  end.

(** The distance and the tolerance that the object was given last, if it has [crit] and [tol] at first. *)
Fixpoint last_distance {A B : Type} (crit : criterion) (es : list (event A B)) : criterion :=
  match es with [] => crit | SetDistance c :: es => last_distance c es | _ :: es => last_distance crit es end.
Fixpoint last_tol {A B : Type} (tol : R) (es : list (event A B)) : R :=
  match es with [] => tol | SetTol t :: es => last_tol t es | _ :: es => last_tol tol es end.

(** The objects of the three classes. *)
Inductive tunable_class : forall {A B : Type}, numerics -> (criterion -> A -> out (matcher B)) -> Prop :=
| class_DFy : forall ppf N fuel kind n_bins strat, tunable_class N (DFy_fits ppf N fuel kind n_bins strat)
| class_DFX : forall ppf N fuel kind n_bins strat, tunable_class N (DFX_fits ppf N fuel kind n_bins strat)
| class_FriedmanME : forall N fuel, tunable_class N (FriedmanME_fits N fuel).
