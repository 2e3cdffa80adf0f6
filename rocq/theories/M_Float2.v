(** * Double precision, continued: numpy's own summation, and Frank and Hall's decomposition. *)

From Coq Require Import ZArith List Bool.
From Flocq Require Import Core BinarySingleNaN.
From Verif Require Import Num M_Float.
Import ListNotations.

Fixpoint fmap2 (f : float -> float -> float) (a b : list float) : list float :=
  match a, b with
  | x :: a', y :: b' => f x y :: fmap2 f a' b'
  | _, _ => []
  end.

(** ** numpy's pairwise summation (not in /repo: numpy's loops_utils.h, [@TYPE@_pairwise_sum]).  The models take
    np.sum as an argument; this is the instance that numpy itself uses on a contiguous array. *)

(** Eight accumulators, one block of eight numbers at a time; the number of blocks is [n]. *)
Fixpoint sum_blocks (n : nat) (acc : list float) (l : list float) : list float * list float :=
  match n with
  | O => (acc, l)
  | S m => sum_blocks m (fmap2 fadd acc (firstn 8 l)) (skipn 8 l)
  end.
Definition sum_eight (r : list float) : float :=
  match r with
  | [a; b; c; d; e; f; g; h] => fadd (fadd (fadd a b) (fadd c d)) (fadd (fadd e f) (fadd g h))
  | _ => left_to_right r
  end.
(** At most 128 numbers. *)
Definition sum_small (l : list float) : float :=
  if Nat.ltb (length l) 8 then left_to_right l
  else let '(acc, rest) := sum_blocks (Nat.div (length l) 8 - 1) (firstn 8 l) (skipn 8 l) in
       fold_left fadd rest (sum_eight acc).
(** Longer arrays are cut in two at a multiple of eight; [fuel] bounds the depth. *)
Fixpoint pairwise_sum (fuel : nat) (l : list float) : float :=
  match fuel with
  | O => sum_small l
  | S f =>
      if Nat.leb (length l) 128 then sum_small l
      else let n2 := Nat.div (length l) 2 in
           let n2 := n2 - Nat.modulo n2 8 in
           fadd (pairwise_sum f (firstn n2 l)) (pairwise_sum f (skipn n2 l))
  end.
Definition numpy_sum (l : list float) : float := pairwise_sum (length l) l.

(** ** Frank and Hall *)

(** decomposition/ordinal.py:308 [np.all(prevalences[1:] >= prevalences[:-1])] *)
Fixpoint fascending (l : list float) : bool :=
  match l with
  | a :: t =>
      match t with
      | b :: _ => if fle a b then fascending t else false
      | [] => true
      end
  | [] => true
  end.
(** decomposition/ordinal.py:313-316 *)
Fixpoint fraise_from (prev : float) (l : list float) : list float :=
  match l with
  | [] => []
  | x :: t => let x' := if flt x prev then prev else x in x' :: fraise_from x' t
  end.
Definition fraise (l : list float) : list float :=
  match l with
  | [] => []
  | x :: t => x :: fraise_from x t
  end.
(** decomposition/ordinal.py:318-321 *)
Fixpoint flower (l : list float) : list float :=
  match l with
  | [] => []
  | x :: t =>
      match flower t with
      | [] => [x]
      | y :: r => (if flt y x then y else x) :: y :: r
      end
  end.
(** decomposition/ordinal.py:308-323 check_and_correct_prevalences_asc *)
Definition fcorrect_asc (l : list float) : list float :=
  if fascending l then l else fmap2 (fun a b => fdiv (fadd a b) f2) (fraise l) (flower l).

(** decomposition/ordinal.py:256-261, frank_and_hall.py:483-488: the loop over the middle classes; [front] are the
    prevalences assigned so far *)
Fixpoint fincrements (np_sum : list float -> float) (front l : list float) : list float :=
  match l with
  | [] => front
  | p :: t => fincrements np_sum (front ++ [fclip (fsub p (np_sum front))]) t
  end.
(** decomposition/ordinal.py:252-264, frank_and_hall.py:479-491 *)
Definition from_left_groups_float (np_sum : list float -> float) (left : list float) : out (list float) :=
  match left with
  | [] => Err IndexError
  | p :: t => let front := fincrements np_sum [p] t in Val (front ++ [fsub f1 (np_sum front)])
  end.
(** decomposition/ordinal.py:248-264 *)
Definition FHQ_float (np_sum : list float -> float) (left : list float) : out (list float) :=
  from_left_groups_float np_sum (fcorrect_asc left).
