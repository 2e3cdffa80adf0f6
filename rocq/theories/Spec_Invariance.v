(** * Specification vocabulary: what a quantifier may see of a sample. *)

From Coq Require Import Reals List ZArith Permutation.
From Verif Require Import Num Spec.
Import ListNotations.
Open Scope R_scope.

(** Two samples with the same proportions of every element: after repeating every element of the
    first one [j] times and every element of the second one [k] times they differ only in the order.
    A sample has the same proportions as any reordering of it and as any replication of it. *)
Definition same_proportions {A : Type} (a b : list A) : Prop :=
  exists j k, (0 < j)%nat /\ (0 < k)%nat /\ Permutation (repeated j a) (repeated k b).
