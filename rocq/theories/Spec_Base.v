(** * Specification vocabulary for base.py. *)

From Coq Require Import Reals List ZArith.
From Verif Require Import Num Spec M_Base.
Import ListNotations.
Open Scope R_scope.

(** A history of fit calls of any quantifiers, which may share estimators. *)
Record fit_call (X : Type) := {
  caller : quantifier_object; call_x : list X; call_y : list Z; call_given : option predictions
}.
Arguments caller {X}. Arguments call_x {X}. Arguments call_y {X}. Arguments call_given {X}.

Definition after_fits {X M : Type} (A : nat -> algorithm X M) (w : world X M) (calls : list (fit_call X)) : world X M :=
  fold_left (fun w c => snd (UC_fit A (caller c) w (call_x c) (call_y c) (call_given c))) calls w.

(** The call uses estimator [e]. *)
Definition meets {X : Type} (e : nat) (c : fit_call X) : Prop :=
  estimator_train (caller c) = Some e \/ estimator_test (caller c) = Some e.

(** Predictions for training are available. *)
Definition has_source (q : quantifier_object) (given : option predictions) : Prop :=
  needs_predictions_train q = true -> estimator_train q <> None \/ given <> None.

(** How many times estimator [e] has been fitted. *)
Definition times_fitted {X M : Type} (e : nat) (w : world X M) : nat :=
  length (filter (fun f => Nat.eqb (fst (fst f)) e) (fits w)).

(** What a crisp quantifier stores: the label of the first maximal column of each row. *)
Definition first_best_label (labels : list Z) (row : list R) (c : Z) : Prop :=
  exists j, (j < length row)%nat /\ c = nth j labels 0%Z /\
    (forall m, (m < length row)%nat -> nth m row 0 <= nth j row 0) /\ (forall m, (m < j)%nat -> nth m row 0 < nth j row 0).
