(** * Specification vocabulary, independent of the models. *)

From Coq Require Import Reals List ZArith Permutation.
From Verif Require Import Num.
Import ListNotations.
Open Scope R_scope.

(** A probability distribution over the classes: non-negative entries that sum to 1. *)
Definition distribution (p : list R) : Prop :=
  Forall (fun x => 0 <= x) p /\ rsum p = 1.

(** Distribution over exactly [n] classes. *)
Definition distribution_over (n : nat) (p : list R) : Prop :=
  length p = n /\ distribution p.

(** Every row is a distribution over [n] classes. *)
Definition distributions (n : nat) (m : list (list R)) : Prop :=
  Forall (distribution_over n) m.

(** The fraction of the elements of [l] equal to [c]. *)
Definition fraction (c : Z) (l : list Z) : R := INR (zcount c l) / INR (length l).

(** Ascending (not strictly): every entry is at most the next one. *)
Definition ascending (l : list R) : Prop :=
  forall i, (S i < length l)%nat -> nth i l 0 <= nth (S i) l 0.

(** [r] is the bag [b] with every example repeated [k] times. *)
Definition repeated {A : Type} (k : nat) (b : list A) : list A :=
  concat (map (fun x => repeat x k) b).

(** Among the examples of true class [c], the fraction predicted as [d]. *)
Definition rate (c d : Z) (y p : list Z) : R := fraction d (select c y p).

(** Training data with [r] predictions per example: example [e] has label [fst e] and predictions
    [snd e 0, ..., snd e (r-1)].  The library receives the labels once and the predictions as
    [r] consecutive blocks, one per repetition. *)
Definition labels_of {A : Type} (tr : list (Z * (nat -> A))) : list Z := map fst tr.
Definition predictions_of {A : Type} (r : nat) (tr : list (Z * (nat -> A))) : list A :=
  concat (map (fun j => map (fun e => snd e j) tr) (seq 0 r)).
(** The label of each of those predictions. *)
Definition repeated_labels {A : Type} (r : nat) (tr : list (Z * (nat -> A))) : list Z :=
  concat (repeat (labels_of tr) r).

(** [M] is the inverse of the [n] x [n] matrix [A]. *)
Definition delta (i j : nat) : R := if Nat.eqb i j then 1 else 0.
Definition inverse_of (n : nat) (A M : nat -> nat -> R) : Prop :=
  forall i j, (i < n)%nat -> (j < n)%nat ->
    sumn n (fun k => A i k * M k j) = delta i j /\
    sumn n (fun k => M i k * A k j) = delta i j.
