(** * Double precision: the probabilities of the ordinal classifiers (estimators/frank_and_hall.py,
    estimators/ordinal_ddag.py) and the ordinal quantification tree (ordinal/trees.py).

    The same functions as in M_Ordinal.v, with every multiplication, addition and subtraction rounded.  The classes, the
    trees and the positions of the estimators involve no arithmetic in double precision and are those of M_Ordinal.v. *)

From Coq Require Import ZArith List Bool.
From Flocq Require Import Core BinarySingleNaN.
From Verif Require Import Num M_Baselines M_Ordinal M_Float.
Import ListNotations.

(** The literal 0.5. *)
Definition f_half : float := fdiv f1 f2.

(** frank_and_hall.py:246-257 FrankAndHallClassifier.predict_proba, one example: [left] are the left-group
    probabilities of the estimators.  Simplification: at least one estimator (otherwise IndexError, see M_Ordinal.v). *)
Definition FH_row_float (left : list float) : list float :=
  let n := S (length left) in
  nth 0 left f0
  :: map (fun c => fsub f1 (fmul (nth (c - 1) left f0) (nth c left f0))) (seq 1 (n - 2))
  ++ [fsub f1 (nth (n - 2) left f0)].

(** frank_and_hall.py:881-887 [probs[pos] *= v] *)
Fixpoint scale_at_float (pos : nat) (v : float) (l : list float) : list float :=
  match l, pos with
  | [], _ => []
  | x :: t, O => fmul x v :: t
  | x :: t, S p => x :: scale_at_float p v t
  end.
Definition scale_classes_float (classes : list Z) (cls : list Z) (v : float) (probs : list float) : list float :=
  fold_left (fun acc c => scale_at_float (index_of c classes) v acc) cls probs.

(** frank_and_hall.py:858-887 __compute_probabilities for one example. *)
Fixpoint tree_probabilities_float (classes : list Z) (ests : list (float * float)) (t : qtree) (subtree : list Z)
    (probs : list float) : list float :=
  match t with
  | QLeaf => probs
  | QNode pos l r =>
      let classes_left := firstn (S pos) classes in
      let classes_right := skipn (S pos) classes in
      let p_left := snd (nth pos ests (f0, f0)) in
      let p_right := fst (nth pos ests (f0, f0)) in
      let sub_left := match subtree with [] => classes_left | _ => setdiff1d subtree classes_right end in
      let sub_right := match subtree with [] => classes_right | _ => setdiff1d subtree classes_left end in
      let probs := scale_classes_float classes sub_left p_left probs in
      let probs := scale_classes_float classes sub_right p_right probs in
      let probs := tree_probabilities_float classes ests l sub_left probs in
      tree_probabilities_float classes ests r sub_right probs
  end.

(** frank_and_hall.py:752-763 FrankAndHallTreeClassifier.predict_proba, one example. *)
Definition FHT_float (classes : list Z) (t : qtree) (ests : list (float * float)) : list float :=
  tree_probabilities_float classes ests t [] (repeat f1 (length classes)).

(** ordinal/trees.py:37-39 OrdinalQuantificationTree: PCC (cc.py:261) over the tree classifier. *)
Definition OQT_float (np_sum : list float -> float) (classes : list Z) (t : qtree)
    (examples : list (list (float * float))) : list float :=
  PCC_float np_sum (length classes) (map (FHT_float classes t) examples).

(** ordinal_ddag.py:316-322.  Line 319 reads what line 318 left, so an entry below 0.5 is 0 by then.
    Simplification: no NaN (the code would keep it). *)
Definition node_probs_float (method : ddag_method) (left right : nat) (p : float * float) : float * float :=
  match method with
  | WinnerNode =>
      if Nat.eqb (right - left) 1 then p
      else ((if flt (fst p) f_half then f0 else f1), (if fle (snd p) f_half then f0 else f1))
  | FullProbabilistic => p
  end.

(** ordinal_ddag.py:301-337 __compute_probabilities for one example; [d] = right - left. *)
Fixpoint ddag_float (method : ddag_method) (n : nat) (ests : list (float * float)) (d left : nat)
    (accum probs : list float) : list float :=
  match d with
  | O => map (fun c => fadd (nth c probs f0) (nth c accum f0)) (seq 0 n)
  | S d' =>
      let right := (left + d)%nat in
      let p := node_probs_float method left right (nth (pos_estim n left right) ests (f0, f0)) in
      let left_accum := map (fun c => if Nat.leb left c && Nat.ltb c right
                                      then fmul (nth c accum f0) (fst p) else f0) (seq 0 n) in
      let right_accum := map (fun c => if Nat.leb (S left) c && Nat.ltb c (S right)
                                       then fmul (nth c accum f0) (snd p) else f0) (seq 0 n) in
      let probs := ddag_float method n ests d' left left_accum probs in
      ddag_float method n ests d' (S left) right_accum probs
  end.

(** ordinal_ddag.py:264-272 DDAGClassifier.predict_proba, one example. *)
Definition DDAG_float (method : ddag_method) (n : nat) (ests : list (float * float)) : list float :=
  ddag_float method n ests (n - 1) 0 (repeat f1 n) (repeat f0 n).
