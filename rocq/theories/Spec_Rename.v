(** * Specification vocabulary: renaming the labels. *)

From Coq Require Import Reals List ZArith.
From Verif Require Import Num Spec M_Optim M_Reg M_Eoq.
Import ListNotations.
Open Scope R_scope.

(** A renaming of the labels that keeps their order. *)
Definition order_preserving (f : Z -> Z) : Prop := forall a b, (a < b)%Z -> (f a < f b)%Z.

(** The external routines read only the rows and columns of the matrices they are given. *)
Record reads_dimensions (N : numerics) : Prop := {
  reads_svd : forall n A B, (forall i j, (i < n)%nat -> (j < n)%nat -> A i j = B i j) ->
    (forall i, (i < n)%nat -> fst (svd N n A) i = fst (svd N n B) i) /\
    (forall i j, (i < n)%nat -> (j < n)%nat -> snd (svd N n A) i j = snd (svd N n B) i j);
  reads_eigenvalue : forall n A B, (forall i j, (i < n)%nat -> (j < n)%nat -> A i j = B i j) ->
    min_eigenvalue N n A = min_eigenvalue N n B;
  reads_qp : forall n m G H a c C b meq, (forall i j, (i < n)%nat -> (j < n)%nat -> G i j = H i j) ->
    (forall i, (i < n)%nat -> a i = c i) -> solve_qp N n m G a C b meq = solve_qp N n m H c C b meq
}.

(** The labels given by a classifier are renamed; probabilities are not labels. *)
Definition renamed (f : Z -> Z) (p : predictions) : predictions :=
  match p with Crisp l => Crisp (map f l) | Soft l => Soft l | PerModel l => PerModel l end.

(** A bag generator that gives the same bags, and leaves the same state, after the renaming. *)
Definition label_free {S : Type} (f : Z -> Z) (B : bag_source S) : Prop :=
  forall X y g, bs_generate B X (map f y) g = bs_generate B X y g.

(** Two outcomes: both values, related by [same], or the same exception, or both NaN. *)
Definition same_outcome {A : Type} (same : A -> A -> Prop) (o' o : out A) : Prop :=
  match o', o with
  | Val a', Val a => same a' a
  | Err e', Err e => e' = e
  | NotANumber, NotANumber => True
  | _, _ => False
  end.

(** A base quantifier whose answers do not change when its training labels, and the labels given by the
    classifier, are renamed.  (The fitted objects may differ: they contain labels.) *)
Definition label_free_base {Q : Type} (f : Z -> Z) (b : base Q) : Prop :=
  exists same : Q -> Q -> Prop,
  match b with
  | Without fit predict =>
      (forall X y, same_outcome same (fit X (map f y)) (fit X y)) /\
      (forall q' q X, same q' q -> predict q' X = predict q X)
  | Using fit predict =>
      (forall y p, same_outcome same (fit (map f y) (renamed f p)) (fit y p)) /\
      (forall q' q p, same q' q -> predict q' (renamed f p) = predict q p)
  | OtherBase => True
  end.

(** External routines for the examples: the quadratic program is solved when it has one variable between
    0 and 1. *)
Definition one_variable : numerics := {|
  svd := fun _ _ => (fun _ => 0, fun _ _ => 0);
  min_eigenvalue := fun _ _ => -1;
  spacing := fun _ => / 1000;
  solve_qp := fun n _ G a _ _ _ => if Nat.eqb n 1 then Some [clip01 (a O / G O O)] else None
|}.
