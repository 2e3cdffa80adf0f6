(** * Specification vocabulary for the energy distance with the distances of the library. *)

From Coq Require Import Reals List ZArith.
From Verif Require Import Num Spec Spec_Optim.
Import ListNotations.
Open Scope R_scope.

(** The Manhattan distance of two rows with [k] columns: sklearn's manhattan_distances, the default
    of EDy and of CvMy (multiclass/energy.py:122, 334). *)
Definition manhattan (k : nat) (u v : list R) : R :=
  sumn k (fun j => Rabs (nth j u 0 - nth j v 0)).

(** The Euclidean distance: sklearn's euclidean_distances, the default of EDX
    (multiclass/energy.py:490). *)
Definition euclidean (k : nat) (u v : list R) : R :=
  sqrt (sumn k (fun j => (nth j u 0 - nth j v 0) ^ 2)).

(** The total weight of a weighted sample. *)
Definition total_weight {A} (P : weighted A) : R := rsum (map fst P).

(** The first [k] columns of all the examples are between [a] and [b]. *)
Definition within (k : nat) (a b : R) (P : weighted (list R)) : Prop :=
  forall p j, In p P -> (j < k)%nat -> a <= nth j (snd p) 0 <= b.

(** All the examples have [k] columns. *)
Definition rows_of (k : nat) (S : weighted (list R)) : Prop := forall p, In p S -> length (snd p) = k.

(** The weight of the examples whose column [j] is at most [t]: the marginal cumulative distribution
    of column [j]. *)
Definition weight_upto (P : weighted (list R)) (j : nat) (t : R) : R :=
  rsum (map (fun p => if Rle_dec (nth j (snd p) 0) t then fst p else 0) P).

Definition same_row (u v : list R) : {u = v} + {u <> v} := list_eq_dec Req_EM_T u v.

(** The weight of the examples equal to [x]. *)
Definition weight_at (P : weighted (list R)) (x : list R) : R :=
  rsum (map (fun p => if same_row (snd p) x then fst p else 0) P).

(** The fraction of the rows that are equal to [x]. *)
Definition row_fraction (x : list R) (rows : list (list R)) : R :=
  INR (length (filter (fun r => if same_row r x then true else false) rows)) / INR (length rows).

(** The fraction of the rows whose column [j] is at most [t]. *)
Definition row_fraction_upto (j : nat) (t : R) (rows : list (list R)) : R :=
  INR (length (filter (fun r => if Rle_dec (nth j r 0) t then true else false) rows))
  / INR (length rows).

(** Different prevalences of the [n] classes never give mixtures with the same frequencies of the
    rows. *)
Definition identifiable_rows (n : nat) (samples : list (list (list R))) : Prop :=
  forall p q, distribution_over n p -> distribution_over n q ->
    (forall x, sumn n (fun i => nth i p 0 * row_fraction x (nth i samples [])) =
               sumn n (fun i => nth i q 0 * row_fraction x (nth i samples []))) ->
    p = q.

(** Different prevalences never give mixtures whose [k] columns all have the same marginal cumulative
    distributions. *)
Definition identifiable_columns (n k : nat) (samples : list (list (list R))) : Prop :=
  forall p q, distribution_over n p -> distribution_over n q ->
    (forall j t, (j < k)%nat ->
       sumn n (fun i => nth i p 0 * row_fraction_upto j t (nth i samples [])) =
       sumn n (fun i => nth i q 0 * row_fraction_upto j t (nth i samples []))) ->
    p = q.

(** Every class has an example that no other class has. *)
Definition own_examples (n : nat) (samples : list (list (list R))) : Prop :=
  forall i, (i < n)%nat -> exists x, In x (nth i samples []) /\
    forall j, (j < n)%nat -> j <> i -> ~ In x (nth j samples []).
