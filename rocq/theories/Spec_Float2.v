(** * Specification vocabulary for searching with doubles. *)

From Coq Require Import Reals ZArith List.
From Flocq Require Import Core BinarySingleNaN.
From Verif Require Import M_Float Spec_Float.
Open Scope R_scope.

(** A double in [a, b]. *)
Definition between (a b x : float) : Prop := finite x /\ val a <= val x <= val b.

(** The ratio of golden section search. *)
Definition golden_ratio : R := (sqrt 5 - 1) / 2.

(** The loss [f] ([None]: it raises) decreases up to [m] and increases from there on, as far as doubles in [a, b] at least
    [delta] apart can tell. *)
Definition unimodal_doubles (delta : R) (f : float -> option float) (a b : float) (m : R) : Prop :=
  val a <= m <= val b /\
  (forall x, between a b x -> exists u, f x = Some u /\ finite u) /\
  (forall x y u v, between a b x -> between a b y -> val x + delta <= val y -> f x = Some u -> f y = Some v ->
     (val y <= m -> val v < val u) /\ (m <= val x -> val u < val v)).

(** The number of steps chosen for an interval [a, b] leaves one of length at least 2^-40 (about 1e-12). *)
Definition not_too_many (steps : float -> float -> nat) : Prop :=
  forall a b, in_unit a -> in_unit b -> 1/64 <= val b - val a -> bpow radix2 (-40) <= golden_ratio ^ steps a b * (val b - val a).
