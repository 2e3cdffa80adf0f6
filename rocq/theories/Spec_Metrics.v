(** * Specification vocabulary for losses between prevalence vectors. *)

From Coq Require Import Reals List ZArith Permutation.
From Verif Require Import Num Spec.
Import ListNotations.
Open Scope R_scope.

(** [d] is a metric on the vectors in [D]: it always has a value there, which is symmetric,
    non-negative, zero exactly on equal vectors, and satisfies the triangle inequality. *)
Definition metric_on (D : list R -> Prop) (d : list R -> list R -> out R) : Prop :=
  (forall p q, D p -> D q ->
     exists v, d p q = Val v /\ d q p = Val v /\ 0 <= v /\ (v = 0 <-> p = q)) /\
  (forall p q r a b c, D p -> D q -> D r ->
     d p q = Val a -> d q r = Val b -> d p r = Val c -> c <= a + b).

(** [d] always has a value between [lo] and [hi] on distributions over [n] classes. *)
Definition ranges_on_distributions (n : nat) (lo hi : R) (d : list R -> list R -> out R) : Prop :=
  forall p q, distribution_over n p -> distribution_over n q ->
    exists v, d p q = Val v /\ lo <= v <= hi.

(** ... and reaches the upper end. *)
Definition attained (n : nat) (hi : R) (d : list R -> list R -> out R) : Prop :=
  exists p q, distribution_over n p /\ distribution_over n q /\ d p q = Val hi.

(** A plan that turns the mass [p] into the mass [q]: [T i j] is the mass moved from class [i] to
    class [j]. *)
Definition transport_plan (n : nat) (p q : list R) (T : nat -> nat -> R) : Prop :=
  (forall i j, (i < n)%nat -> (j < n)%nat -> 0 <= T i j) /\
  (forall i, (i < n)%nat -> sumn n (fun j => T i j) = nth i p 0) /\
  (forall j, (j < n)%nat -> sumn n (fun i => T i j) = nth j q 0).

(** Moving one unit of mass by one class costs 1. *)
Definition transport_cost (n : nat) (T : nat -> nat -> R) : R :=
  sumn n (fun i => sumn n (fun j => T i j * Rabs (INR i - INR j))).

(** All mass in class [k]. *)
Definition concentrated (n k : nat) : list R := tabulate n (fun i => if Nat.eqb i k then 1 else 0).

(** [d] does not depend on the order of the classes: [l] lists, class by class, the pair of the two
    prevalences, and [l'] lists the same pairs in another order. *)
Definition order_free (d : list R -> list R -> out R) : Prop :=
  forall l l' : list (R * R), Permutation l l' ->
    d (map fst l) (map snd l) = d (map fst l') (map snd l').
