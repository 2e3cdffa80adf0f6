(** * Specification vocabulary for the optimisation problems. *)

From Coq Require Import Reals List ZArith.
From Verif Require Import Num Spec.
Import ListNotations.
Open Scope R_scope.

(** The quadratic form [x^T A x]. *)
Definition quad (n : nat) (A : nat -> nat -> R) (x : nat -> R) : R :=
  sumn n (fun i => sumn n (fun j => x i * A i j * x j)).

(** The same entries in the first [n] rows and columns. *)
Definition agree (n : nat) (A B : nat -> nat -> R) : Prop :=
  forall i j, (i < n)%nat -> (j < n)%nat -> A i j = B i j.

Definition symmetric (n : nat) (A : nat -> nat -> R) : Prop :=
  forall i j, (i < n)%nat -> (j < n)%nat -> A i j = A j i.

Definition positive_definite (n : nat) (A : nat -> nat -> R) : Prop :=
  forall x, (exists i, (i < n)%nat /\ x i <> 0) -> 0 < quad n A x.

Definition positive_semidefinite (n : nat) (A : nat -> nat -> R) : Prop :=
  forall x, 0 <= quad n A x.

(** The symmetric matrix with the same upper triangle as [A]. *)
Definition from_upper_triangle (A : nat -> nat -> R) : nat -> nat -> R :=
  fun i j => A (Nat.min i j) (Nat.max i j).

(** [A] with the entries below the diagonal replaced by 0. *)
Definition upper_part (A : nat -> nat -> R) : nat -> nat -> R :=
  fun i j => if Nat.leb i j then A i j else 0.

(** [x] satisfies [C^T x >= b], the first [meq] rows with equality; quadprog's constraints. *)
Definition qp_feasible (n m : nat) (C : nat -> nat -> R) (b : nat -> R) (meq : nat)
    (x : list R) : Prop :=
  length x = n /\
  forall j, (j < m)%nat ->
    b j <= sumn n (fun i => C i j * nth i x 0) /\
    ((j < meq)%nat -> sumn n (fun i => C i j * nth i x 0) = b j).

(** quadprog's objective [1/2 x^T G x - a^T x]. *)
Definition qp_objective (n : nat) (G : nat -> nat -> R) (a : nat -> R) (x : list R) : R :=
  / 2 * quad n G (fun i => nth i x 0) - sumn n (fun i => a i * nth i x 0).

(** What quadprog's documentation promises: for a symmetric positive-definite [G], an answer is
    feasible and no feasible point has a smaller objective. *)
Definition exact_qp
    (solver : nat -> nat -> (nat -> nat -> R) -> (nat -> R) -> (nat -> nat -> R) -> (nat -> R) ->
              nat -> option (list R)) : Prop :=
  forall n m G a C b meq x,
    symmetric n G -> positive_definite n G ->
    solver n m G a C b meq = Some x ->
    qp_feasible n m C b meq x /\
    forall y, qp_feasible n m C b meq y -> qp_objective n G a x <= qp_objective n G a y.

(** [p] is a distribution over [n] classes and no other one has a smaller loss. *)
Definition best_distribution (n : nat) (loss : list R -> R) (p : list R) : Prop :=
  distribution_over n p /\ forall q, distribution_over n q -> loss p <= loss q.

(** The same up to [eps]. *)
Definition nearly_best_distribution (n : nat) (eps : R) (loss : list R -> R) (p : list R) : Prop :=
  distribution_over n p /\ forall q, distribution_over n q -> loss p <= loss q + eps.

(** The mixture of the columns of the [d] x [n] matrix [T] with weights [p], at bin [r]. *)
Definition mixture_at (n : nat) (T : nat -> nat -> R) (p : list R) (r : nat) : R :=
  sumn n (fun j => T r j * nth j p 0).

(** Distances between the mixture and the test distribution [t]. *)
Definition squared_l2 (d n : nat) (T : nat -> nat -> R) (t p : list R) : R :=
  sumn d (fun r => (mixture_at n T p r - nth r t 0) ^ 2).
Definition l1_distance (d n : nat) (T : nat -> nat -> R) (t p : list R) : R :=
  sumn d (fun r => Rabs (mixture_at n T p r - nth r t 0)).
Definition squared_hellinger (d n : nat) (T : nat -> nat -> R) (t p : list R) : R :=
  sumn d (fun r => (sqrt (mixture_at n T p r) - sqrt (nth r t 0)) ^ 2).

(** What cvxpy promises when it is given an exact solver: the answer is a distribution over the
    [n] variables and no other one has a smaller objective. *)
Definition exact_cvx
    (solver : option (list R) -> nat -> (list R -> R) -> option (list R)) : Prop :=
  forall warm n f x, solver warm n f = Some x -> best_distribution n f x.

(** What a conic solver promises for a feasibility tolerance [tol]: the constraints hold up to
    [tol]. *)
Definition feasible_within (tol : R)
    (solver : option (list R) -> nat -> (list R -> R) -> option (list R)) : Prop :=
  forall warm n f x, solver warm n f = Some x ->
    length x = n /\ Forall (fun v => - tol <= v) x /\ Rabs (rsum x - 1) <= tol.

(** A singular value decomposition [B = U diag(s) V]: [U] and [V] are orthogonal, the singular
    values non-negative. *)
Definition orthogonal (n : nat) (V : nat -> nat -> R) : Prop :=
  forall i j, (i < n)%nat -> (j < n)%nat ->
    sumn n (fun l => V i l * V j l) = delta i j /\ sumn n (fun l => V l i * V l j) = delta i j.
Definition singular_values (n : nat) (B : nat -> nat -> R) (s : nat -> R)
    (V : nat -> nat -> R) : Prop :=
  (forall l, (l < n)%nat -> 0 <= s l) /\ orthogonal n V /\
  exists U, orthogonal n U /\
    forall i j, (i < n)%nat -> (j < n)%nat -> B i j = sumn n (fun l => U i l * (s l * V l j)).

(** [m] is a lower bound of the quadratic form on the unit sphere; the smallest eigenvalue of a
    symmetric matrix is the largest such number. *)
Definition eigenvalue_bound (n : nat) (A : nat -> nat -> R) (m : R) : Prop :=
  forall x, m * sumn n (fun i => x i * x i) <= quad n A x.
Definition smallest_eigenvalue (n : nat) (A : nat -> nat -> R) (m : R) : Prop :=
  eigenvalue_bound n A m /\
  exists x, (exists i, (i < n)%nat /\ x i <> 0) /\
    forall i, (i < n)%nat -> sumn n (fun j => A i j * x j) = m * x i.

(** ** Energy distance of weighted samples (finitely supported measures). *)

Definition weighted (A : Type) := list (R * A).

(** Expected distance of two independent draws. *)
Definition expected {A} (dist : A -> A -> R) (P Q : weighted A) : R :=
  rsum (map (fun p => rsum (map (fun q => fst p * fst q * dist (snd p) (snd q)) Q)) P).

(** [2 E d(X, Y) - E d(X, X') - E d(Y, Y')]. *)
Definition energy {A} (dist : A -> A -> R) (P Q : weighted A) : R :=
  2 * expected dist P Q - expected dist P P - expected dist Q Q.

(** Every example of a sample has the same weight, [w] in total. *)
Definition spread_over {A} (w : R) (sample : list A) : weighted A :=
  map (fun x => (w / INR (length sample), x)) sample.

(** The mixture of the samples of the classes with prevalences [p]. *)
Definition class_mixture {A} (p : list R) (classes : list (list A)) : weighted A :=
  concat (map (fun wc => spread_over (fst wc) (snd wc)) (combine p classes)).

(** A strictly increasing function. *)
Definition strictly_increasing (g : R -> R) : Prop := forall x y, x < y -> g x < g y.

(** The examples of each class. *)
Definition class_samples {A} (classes y : list Z) (rows : list A) : list (list A) :=
  map (fun c => select c y rows) classes.

(** Each entry of a row of scores transformed by the function of its column. *)
Definition transform_row (g : nat -> R -> R) (r : list R) : list R :=
  tabulate (length r) (fun j => g j (nth j r 0)).

(** No non-trivial combination of the [n] columns of the [d] x [n] matrix [T] vanishes. *)
Definition independent_columns (d n : nat) (T : nat -> nat -> R) : Prop :=
  forall x, (exists i, (i < n)%nat /\ x i <> 0) ->
    exists r, (r < d)%nat /\ sumn n (fun j => T r j * x j) <> 0.

(** The average rank of [x] in the sample [l]: one for each smaller value, a half for each equal
    one, and a half (so that the ranks of distinct values are 1, 2, ...). *)
Definition average_rank (x : R) (l : list R) : R :=
  / 2 + rsum (map (fun y => if Rlt_dec y x then 1 else if Req_EM_T y x then / 2 else 0) l).

(** Rows of [k] scores replaced by their ranks, column by column, in the sample [all]. *)
Definition rank_rows (k : nat) (all rows : list (list R)) : list (list R) :=
  map (fun r => tabulate k (fun j => average_rank (nth j r 0) (col j all))) rows.
