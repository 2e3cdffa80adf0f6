(** * Specification vocabulary for the searches, the quantiles and SORD. *)

From Coq Require Import Reals List ZArith Permutation Sorted.
From Verif Require Import Num Spec.
Import ListNotations.
Open Scope R_scope.

(** [m] minimises [f] over the interval [a, b]. *)
Definition minimises (f : R -> R) (a b m : R) : Prop := a <= m <= b /\ forall x, a <= x <= b -> f m <= f x.

(** [f] decreases strictly until [m] and then increases strictly. *)
Definition strictly_unimodal (f : R -> R) (a b m : R) : Prop :=
  a <= m <= b /\ (forall x y, a <= x -> x < y -> y <= m -> f y < f x) /\ (forall x y, m <= x -> x < y -> y <= b -> f x < f y).

Definition convex_on (f : R -> R) (a b : R) : Prop :=
  forall x y t, a <= x <= b -> a <= y <= b -> 0 <= t <= 1 -> f (t * x + (1 - t) * y) <= t * f x + (1 - t) * f y.

(** ** Quantiles: the examples, in order, occupy consecutive stretches of the line, as long as their weights. *)

(** Where the stretch of example [i] begins. *)
Definition begins (weights : list R) (i : nat) : R := sumn i (fun k => nth k weights 0).

(** Length of the part of [lo, hi] inside [lo', hi']. *)
Definition overlap (lo hi lo' hi' : R) : R := Rmax 0 (Rmin hi hi' - Rmax lo lo').

(** Mean of the scores over the part of the line from [lo] to [hi]. *)
Definition mean_between (scores weights : list R) (lo hi : R) : R :=
  sumn (length scores) (fun i => nth i scores 0 * overlap (begins weights i) (begins weights (S i)) lo hi) / (hi - lo).

(** No stretch ends after one of the [q] equal parts of the line by 0.0001 or less. *)
Definition clean_cuts (q : nat) (weights : list R) (total : R) : Prop :=
  forall i j, (i <= length weights)%nat -> (j < q)%nat ->
    begins weights i <= INR (j + 1) / INR q * total \/ INR (j + 1) / INR q * total + 1/10000 < begins weights i.

(** Weights that make two classes occur with prevalences [1 - prevalence] and [prevalence]. *)
Definition class_weights (prevalence : R) (y : list Z) (c0 c1 : Z) : list R :=
  map (fun c => INR (length y) * (if Z.eq_dec c c1 then prevalence / INR (zcount c1 y) else (1 - prevalence) / INR (zcount c0 y))) y.

(** [y] has examples of [c0] and of [c1] and of no other class. *)
Definition binary_labels (y : list Z) (c0 c1 : Z) : Prop :=
  c0 <> c1 /\ In c0 y /\ In c1 y /\ forall c, In c y -> c = c0 \/ c = c1.

(** ** SORD *)

(** np.argsort: a permutation of the positions that puts the values in ascending order; ties in any order. *)
Definition sorts (argsort : list R -> list nat) (pick : list R -> list nat -> list R) : Prop :=
  forall l, Permutation (argsort l) (seq 0 (length l)) /\ ascending (pick l (argsort l)).

(** Cumulative distribution: the fraction of the values that are at most [x]. *)
Definition fraction_upto (l : list R) (x : R) : R := rsum (map (fun s => if Rle_dec s x then 1 else 0) l) / INR (length l).

(** The cumulative distribution of the training scores when the classes have prevalences [1 - p] and [p]. *)
Definition mixed_fraction_upto (p : R) (y : list Z) (scores : list R) (c0 c1 : Z) (x : R) : R :=
  (1 - p) * fraction_upto (select c0 y scores) x + p * fraction_upto (select c1 y scores) x.
