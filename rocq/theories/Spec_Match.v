(** * Specification vocabulary for the quantifiers that match distributions. *)

From Coq Require Import Reals List ZArith Bool Permutation.
From Verif Require Import Num Spec M_Baselines M_Metrics M_Optim Spec_Optim M_Match.
Import ListNotations.
Open Scope R_scope.

(** The average of [f] over a sample. *)
Definition mean_of {A : Type} (f : A -> R) (sample : list A) : R :=
  rsum (map f sample) / INR (length sample).

(** Order of bin edges, infinite ones included. *)
Definition edge_before (e f : edge) : Prop :=
  match e, f with
  | NegInf, _ => True
  | _, PosInf => True
  | Fin a, Fin b => a <= b
  | _, _ => False
  end.
Definition ascending_edges (edges : list edge) : Prop :=
  forall i, (S i < length edges)%nat -> edge_before (nth i edges PosInf) (nth (S i) edges PosInf).

(** [n] bins that cover the real line. *)
Definition covering_cuts (n : nat) (cuts : list edge) : Prop :=
  length cuts = S n /\ nth 0 cuts PosInf = NegInf /\ nth n cuts NegInf = PosInf /\
  ascending_edges cuts.

(** Strictly above / at most / strictly below an edge. *)
Definition value_below (x : R) (e : edge) : Prop :=
  match e with NegInf => False | Fin a => x < a | PosInf => True end.
Definition value_at_most (x : R) (e : edge) : Prop :=
  match e with NegInf => False | Fin a => x <= a | PosInf => True end.

(** Bin [i] is the interval from edge [i], included, to edge [i + 1], excluded unless it is the last
    edge. *)
Definition in_bin (edges : list edge) (i : nat) (x : R) : Prop :=
  ~ value_below x (nth i edges PosInf) /\
  if Nat.eqb (S (S i)) (length edges) then value_at_most x (nth (S i) edges PosInf)
  else value_below x (nth (S i) edges PosInf).

(** [k] of the elements of [l] satisfy [P]. *)
Inductive how_many {A : Type} (P : A -> Prop) : list A -> nat -> Prop :=
| hm_nil : how_many P [] 0
| hm_yes : forall x l k, P x -> how_many P l k -> how_many P (x :: l) (S k)
| hm_no : forall x l k, ~ P x -> how_many P l k -> how_many P (x :: l) k.

(** The fraction of the elements of [l] that satisfy [P] is [v]. *)
Definition fraction_in {A : Type} (P : A -> Prop) (l : list A) (v : R) : Prop :=
  exists k, how_many P l k /\ v = INR k / INR (length l).

(** The object after predictions for the bags [bags]. *)
Definition after_predictions {B : Type} (N : numerics) (cvx : cvx_solver) (crit : criterion) (tol : R)
    (m : matcher B) (bags : list B) : matcher B :=
  fold_left (fun m bag => fst (matching_predict N cvx crit tol m bag)) bags m.

(** The answer of the convex solver does not depend on the starting point. *)
Definition ignores_warm_start (cvx : cvx_solver) : Prop :=
  forall w w' n f, cvx w n f = cvx w' n f.

(** A bag made of [k_c] copies of each example of the sample of class [c], in any order, and its
    prevalences. *)
Definition copies_of {A : Type} (ks : list nat) (samples : list (list A)) (bag : list A) : Prop :=
  length ks = length samples /\
  Permutation bag (concat (map (fun kc => repeated (fst kc) (snd kc)) (combine ks samples))).
Definition copies_prevalences {A : Type} (ks : list nat) (samples : list (list A)) (bag : list A)
  : list R :=
  map (fun kc => INR (fst kc * length (snd kc)) / INR (length bag)) (combine ks samples).

(** Different prevalences give different mixtures of the columns of the [d] x [n] matrix [T]. *)
Definition identifiable (d n : nat) (T : nat -> nat -> R) : Prop :=
  forall p q, distribution_over n p -> distribution_over n q ->
    (forall r, (r < d)%nat -> mixture_at n T p r = mixture_at n T q r) -> p = q.

(** The probabilities of a row are concentrated on the classes [k] and [k + 1] (counted from 0). *)
Definition on_two_neighbours (k : nat) (r : list R) : Prop :=
  0 < nth k r 0 /\ forall i, i <> k -> i <> S k -> nth i r 0 = 0.

(** The external solvers give an answer whenever the problem has one. *)
Definition answering_cvx (cvx : cvx_solver) : Prop :=
  forall w n f x, best_distribution n f x -> exists y, cvx w n f = Some y.
Definition answering_qp
    (solver : nat -> nat -> (nat -> nat -> R) -> (nat -> R) -> (nat -> nat -> R) -> (nat -> R) ->
              nat -> option (list R)) : Prop :=
  forall n m G a C b meq,
    (exists x, qp_feasible n m C b meq x /\
       forall y, qp_feasible n m C b meq y -> qp_objective n G a x <= qp_objective n G a y) ->
    exists x, solver n m G a C b meq = Some x.

(** The result of a prediction is [p]: no other prevalences are returned, and [p] is returned when
    the solvers answer. *)
Definition only_result (N : numerics) (cvx : cvx_solver) (result : out (list R)) (p : list R) : Prop :=
  (forall q, result = Val q -> q = p) /\
  (answering_cvx cvx -> answering_qp (solve_qp N) -> result = Val p).

(** [p] minimises the library's earth mover's distance between the mixture [mix p] and [t]. *)
Definition emd_best (n : nat) (mix : list R -> list R) (t p : list R) : Prop :=
  exists loss,
    (forall q, distribution_over n q -> emd (vec (mix q)) (vec t) = Val (loss q)) /\
    best_distribution n loss p.

(** The mixture, with weights [p], of the [n] columns of the [d] x [n] matrix [F]. *)
Definition mixture (d n : nat) (F : nat -> nat -> R) (p : list R) : list R :=
  tabulate d (mixture_at n F p).

(** [n_bins] bins for each step between consecutive positions 1, ..., n. *)
Definition score_edges (n_bins n : nat) : list edge :=
  tabulate (S (n_bins * (n - 1))) (fun i => Fin (1 + INR i / INR n_bins)).

(** [T] is made of one block of [nb] entries per descriptor; each block is a distribution and its
    entry [k] is the fraction of the values of the descriptor in bin [k]. *)
Definition histograms (nb : nat) (cuts : list (list edge)) (sample : list (list R)) (T : nat -> R) : Prop :=
  forall b, (b < length cuts)%nat ->
    distribution (tabulate nb (fun k => T (b * nb + k)%nat)) /\
    forall k, (k < nb)%nat ->
      fraction_in (in_bin (nth b cuts []) k) (col b sample) (T (b * nb + k)%nat).

(** The same with cumulative fractions, to which the number [shift b] is added. *)
Definition cumulative_histograms (nb : nat) (cuts : list (list edge)) (sample : list (list R))
    (shift : nat -> R) (T : nat -> R) : Prop :=
  forall b, (b < length cuts)%nat ->
    (forall k, (k < nb)%nat ->
       fraction_in (fun x => value_below x (nth (S k) (nth b cuts []) PosInf)) (col b sample)
         (T (b * nb + k)%nat - shift b) /\
       0 <= T (b * nb + k)%nat - shift b <= 1) /\
    T (b * nb + (nb - 1))%nat - shift b = 1.

(** [p] is optimal for a distance between the mixture of the columns of [T] and [t]. *)
Definition best_for (dist : distance) (d n : nat) (T : nat -> nat -> R) (t p : list R) : Prop :=
  match dist with
  | HD => best_distribution n (squared_hellinger d n T t) p
  | L1 => best_distribution n (l1_distance d n T t) p
  | L2 => best_distribution n (squared_l2 d n T t) p
  | OtherDistance => False
  end.

(** The sum of the absolute differences, a Python function that a user may give as distance. *)
Definition sum_of_differences (a b : list R) : R := rsum (map Rabs (vmap2 Rminus a b)).

(** The loss of the prevalences [1 - p] and [p] of two classes for the distance [f]. *)
Definition two_class_loss {B : Type} (f : list R -> list R -> R) (m : matcher B) (t : list R) (p : R) : R :=
  f (mixture (mt_bins m) 2 (mt_T m) [1 - p; p]) t.

(** ** Averages in which every class weighs the same *)

Definition average (l : list R) : R := rsum l / INR (length l).
Definition class_average (g : R -> R) (classes y : list Z) (x : list R) : R :=
  average (map (fun c => average (map g (select c y x))) classes).
