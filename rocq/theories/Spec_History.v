(** * Specification of histories of calls (C62). *)

From Coq Require Import Reals List ZArith Bool.
From Verif Require Import Num M_History.
Import ListNotations.
Open Scope R_scope.

(** The calls that an object receives. *)
Inductive call (A T : Type) :=
| Fit (a : A)
| Predict (t : T).
Arguments Fit {A T}. Arguments Predict {A T}.

(** [reaches C h s]: an object of the class, on which the calls of [h] were made in order, can be in the state [s].  A fit
    that fails may leave the object in any state whatsoever. *)
Inductive reaches {A T St Rt : Type} (C : quantifier_class A T St Rt) : list (call A T) -> St -> Prop :=
| reaches_new : reaches C [] (qc_new C)
| reaches_fit : forall h s a s', reaches C h s -> qc_fit C a s = Val s' -> reaches C (h ++ [Fit a]) s'
| reaches_failed_fit : forall h s a s', reaches C h s -> (forall v, qc_fit C a s <> Val v) -> reaches C (h ++ [Fit a]) s'
| reaches_predict : forall h s t, reaches C h s -> reaches C (h ++ [Predict t]) (fst (qc_predict C t s)).

(** The history consists of anything, then a fit with [a], then any number of predictions. *)
Definition last_fit {A T : Type} (a : A) (h : list (call A T)) : Prop :=
  exists before bags, h = before ++ Fit a :: map Predict bags.

(** Whether a fit succeeds does not depend on the history. *)
Definition fit_independent {A T St Rt : Type} (C : quantifier_class A T St Rt) : Prop :=
  forall h s a, reaches C h s -> (exists s', qc_fit C a s = Val s') <-> (exists s0, qc_fit C a (qc_new C) = Val s0).

(** Every answer is the answer of a new object right after its first fit, which is with the same arguments as the last
    fit of the history; for all fits with arguments that satisfy [ok]. *)
Definition history_independent {A T St Rt : Type} (C : quantifier_class A T St Rt) (ok : A -> Prop) : Prop :=
  fit_independent C /\
  forall h a s s0 t, ok a -> last_fit a h -> reaches C h s -> qc_fit C a (qc_new C) = Val s0 ->
    snd (qc_predict C t s) = snd (qc_predict C t s0).
