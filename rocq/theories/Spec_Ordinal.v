(** * Specification vocabulary for the ordinal methods, independent of how the code computes. *)

From Coq Require Import Reals List ZArith.
From Verif Require Import Num Spec M_Ordinal.
Import ListNotations.
Open Scope R_scope.

(** [m] is the largest (smallest) element of [l]. *)
Definition is_maximum (m : R) (l : list R) : Prop := In m l /\ Forall (fun x => x <= m) l.
Definition is_minimum (m : R) (l : list R) : Prop := In m l /\ Forall (fun x => m <= x) l.

(** [v] is halfway between the largest entry of [l] up to position [i] and the smallest one from there on. *)
Definition halfway (l : list R) (i : nat) (v : R) : Prop :=
  exists M m, is_maximum M (firstn (S i) l) /\ is_minimum m (skipn i l) /\ v = (M + m) / 2.

Definition unit_interval (l : list R) : Prop := Forall (fun x => 0 <= x <= 1) l.

(** The two columns of an estimator's output row are complementary probabilities. *)
Definition complementary (p : R * R) : Prop := 0 <= fst p /\ 0 <= snd p /\ fst p + snd p = 1.

(** The first [i+1] classes, as a label predicate. *)
Definition among_first (classes : list Z) (i : nat) (v : Z) : Prop :=
  exists j, (j <= i)%nat /\ nth_error classes j = Some v.

(** Estimators of a tree, read from left to right. *)
Fixpoint in_order (t : qtree) : list nat :=
  match t with
  | QLeaf => []
  | QNode pos l r => in_order l ++ pos :: in_order r
  end.

(** Every node has a score that is minimal in its own subtree. *)
Fixpoint best_first (scores : list R) (t : qtree) : Prop :=
  match t with
  | QLeaf => True
  | QNode pos l r =>
      Forall (fun k => nth pos scores 0 <= nth k scores 0) (in_order l ++ in_order r) /\
      best_first scores l /\ best_first scores r
  end.

(** Probability of reaching class [c] from the root: at estimator [pos] (which separates the classes
    0..pos from the rest) go left with probability [snd], right with probability [fst]. *)
Fixpoint path_probability (ests : list (R * R)) (t : qtree) (c : nat) : R :=
  match t with
  | QLeaf => 1
  | QNode pos l r =>
      if Nat.leb c pos then snd (nth pos ests (0, 0)) * path_probability ests l c
      else fst (nth pos ests (0, 0)) * path_probability ests r c
  end.

(** Decision DAG over the classes left, ..., left+d: the node compares the two extreme classes with
    the pairwise probabilities [decide left (left+d)] = (for left, for right) and drops the loser. *)
Fixpoint dag_probability (decide : nat -> nat -> R * R) (d left c : nat) : R :=
  match d with
  | O => if Nat.eqb c left then 1 else 0
  | S d' => fst (decide left (left + d)%nat) * dag_probability decide d' left c +
            snd (decide left (left + d)%nat) * dag_probability decide d' (S left) c
  end.

(** Winner takes all: the more probable of the two classes gets 1, the smaller class on a tie. *)
Definition winner (p : R * R) : R * R := if Rlt_dec (fst p) (snd p) then (0, 1) else (1, 0).

(** The outputs of the pairwise estimators, in scikit-learn's one-vs-one order, when the estimator
    for the classes i < j outputs [pair i j]. *)
Definition ovo_outputs (n : nat) (pair : nat -> nat -> R * R) : list (R * R) :=
  concat (map (fun i => map (fun j => pair i j) (seq (S i) (n - S i))) (seq 0 n)).

(** Share of the examples whose label is one of the first [i+1] classes. *)
Definition left_share (classes : list Z) (i : nat) (y : list Z) : R :=
  rsum (map (fun c => fraction c y) (firstn (S i) classes)).

(** The decision of a node: the pairwise probabilities, or the winner for 'winner_node' unless
    the two classes are neighbours. *)
Definition ddag_decision (method : ddag_method) (pair : nat -> nat -> R * R) (l r : nat) : R * R :=
  match method with
  | FullProbabilistic => pair l r
  | WinnerNode => if Nat.eqb (r - l) 1 then pair l r else winner (pair l r)
  end.

(** 0/1 labels that mark the examples satisfying [P]. *)
Definition marks (P : Z -> Prop) (y yb : list Z) : Prop :=
  length yb = length y /\
  forall k v, nth_error y k = Some v ->
    (P v -> nth_error yb k = Some 1%Z) /\ (~ P v -> nth_error yb k = Some 0%Z).

(** The probabilities of the left groups of an example with class probabilities [r]. *)
Definition left_groups (n : nat) (r : list R) : list R := map (fun i => rsum (firstn (S i) r)) (seq 0 (n - 1)).
