(** * Specification vocabulary for the estimators. *)

From Coq Require Import Reals List ZArith Permutation.
From Verif Require Import Num Spec M_Estimators.
Import ListNotations.
Open Scope R_scope.

(** One k-fold partition of [n] examples: the test parts split the examples, none is empty, and no example is in the
    training and the test part of the same fold. *)
Definition kfold (n : nat) (g : list fold_t) : Prop :=
  g <> [] /\ Permutation (concat (map snd g)) (seq 0 n) /\
  Forall (fun f => snd f <> [] /\ forall i, In i (fst f) -> (i < n)%nat /\ ~ In i (snd f)) g.

(** What an estimator trained on the training part of fold [f] says about example [v]. *)
Definition fold_answer {X M : Type} (A : learner X M) (x : list X) (y : list Z) (f : fold_t) (v : X) : list R :=
  p_row A (p_learn A (pick x (fst f)) (pick y (fst f))) v.

(** [j] is the position of the first maximum of [row]. *)
Definition first_max (row : list R) (j : nat) : Prop :=
  (j < length row)%nat /\ (forall i, (i < length row)%nat -> nth i row 0 <= nth j row 0) /\
  (forall i, (i < j)%nat -> nth i row 0 < nth j row 0).

(** The rows that [rows], with [n] rows per repetition, has for example [e]. *)
Definition rows_of (n reps : nat) (rows : list (list R)) (e : nat) : list (list R) :=
  map (fun r => nth (r * n + e) rows []) (seq 0 reps).

(** [j] is the first of the classes 0 .. k-1 with the most votes, each row voting for its first maximum. *)
Definition most_voted (k : nat) (rows : list (list R)) (j : nat) : Prop :=
  exists votes, Forall2 first_max rows votes /\ (j < k)%nat /\
    (forall i, (i < k)%nat -> (count_occ Nat.eq_dec votes i <= count_occ Nat.eq_dec votes j)%nat) /\
    (forall i, (i < j)%nat -> (count_occ Nat.eq_dec votes i < count_occ Nat.eq_dec votes j)%nat).

(** An ensemble before its first fit. *)
Definition fresh_ensemble {M : Type} : ensemble M := {| e_heap := fun _ => None; e_refs := None; e_classes := None |}.

(** What a model trained on a bag answers. *)
Definition bag_answer {X M : Type} (A : learner X M) (x : list X) (y : list Z) (bag : list nat) (t : list X) : list (list R) :=
  map (p_row A (p_learn A (pick x bag) (pick y bag))) t.
