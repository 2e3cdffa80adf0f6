(** * Specification vocabulary for comparing losses and for the loss of an average. *)

From Coq Require Import Reals List.
From Verif Require Import Num Spec.
Import ListNotations.
Open Scope R_scope.

(** On every pair of vectors in [D] the two losses have values, and these are related by [rel]. *)
Definition related_on (D : list R -> Prop) (d e : list R -> list R -> out R) (rel : R -> R -> Prop) : Prop :=
  forall p q, D p -> D q -> exists x y, d p q = Val x /\ e p q = Val y /\ rel x y.

(** The same on the distributions over [n] classes. *)
Definition related (n : nat) := related_on (distribution_over n).

(** The mean position of the mass of [p] on the ordered classes 0, 1, ..., n - 1. *)
Definition mean_class (n : nat) (p : list R) : R := sumn n (fun i => INR i * nth i p 0).

(** [r] is the average of the vectors [answers], class by class. *)
Definition average_of (n : nat) (answers : list (list R)) (r : list R) : Prop :=
  length r = n /\ forall c, (c < n)%nat -> nth c r 0 = rmean (map (fun a => nth c a 0) answers).

(** Averaging does not hurt: the value [h] of the loss between the truth [p] and the average of the
    answers is at most the mean of the values of the answers one by one. *)
Definition averaging_helps (n : nat) (T D : list R -> Prop) (h : R -> R) (d : list R -> list R -> out R) : Prop :=
  forall p answers r, T p -> answers <> [] -> Forall D answers -> average_of n answers r ->
    exists v vs, d p r = Val v /\ Forall2 (fun a w => d p a = Val w) answers vs /\
      h v <= rmean (map h vs).
