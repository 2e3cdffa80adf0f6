(** * Specification vocabulary for the ordinal classifiers in double precision. *)

From Coq Require Import Reals List ZArith.
From Flocq Require Import Core BinarySingleNaN.
From Verif Require Import Num M_Ordinal Spec_Ordinal M_Float Spec_Float.
Import ListNotations.
Open Scope R_scope.

(** The real numbers that a row of two doubles stands for. *)
Definition vals (p : float * float) : R * R := (val (fst p), val (snd p)).

(** Both columns of the row are in [0, 1]. *)
Definition unit_pair (p : float * float) : Prop := in_unit (fst p) /\ in_unit (snd p).

(** Both columns of the row are in [0, 1] and the machine's sum of them is exactly 1. *)
Definition complementary_pair (p : float * float) : Prop := Spec_Float.complementary (fst p) (snd p).

(** A row with one winner: the second column is above one half when the first one is below it, and only then. *)
Definition decided (p : float * float) : Prop := unit_pair p /\ (val (fst p) < 1/2 <-> 1/2 < val (snd p)).

(** The number of estimators between the root and class [c]. *)
Fixpoint path_length (t : qtree) (c : nat) : nat :=
  match t with
  | QLeaf => O
  | QNode pos l r => S (if Nat.leb c pos then path_length l c else path_length r c)
  end.

(** The outputs of the pairwise estimators in scikit-learn's one-vs-one order, as in Spec_Ordinal.v. *)
Definition ovo_rows (n : nat) (pair : nat -> nat -> float * float) : list (float * float) :=
  concat (map (fun i => map (fun j => pair i j) (seq (S i) (n - S i))) (seq 0 n)).
