(** * Double precision: the earth mover's distances (metrics/ordinal.py).

    np.sum is an argument, as in M_Float.v.  The checks of check_prevalences and check_pairwise_arrays come before any
    arithmetic and are modelled in M_Metrics.v; here the two vectors are given as lists of the same length. *)

From Coq Require Import ZArith List Bool.
From Flocq Require Import Core BinarySingleNaN.
From Verif Require Import M_Float M_Float2.
Import ListNotations.

(** np.cumsum of one row: the first entry is copied, each other one is added to the total so far. *)
Fixpoint fcumsum_from (acc : float) (l : list float) : list float :=
  match l with
  | [] => []
  | x :: t => fadd acc x :: fcumsum_from (fadd acc x) t
  end.
Definition fcumsum (l : list float) : list float :=
  match l with
  | [] => []
  | x :: t => x :: fcumsum_from x t
  end.

(** ordinal.py:33-34 emd *)
Definition emd_float (np_sum : list float -> float) (p q : list float) : float :=
  np_sum (map fabs (fcumsum (fmap2 fsub p q))).

(** ordinal.py:60-63: mass concentrated in the first/last class. *)
Definition left_mass_float (n : nat) : list float := map (fun i => if Nat.eqb i 0 then f1 else f0) (seq 0 n).
Definition right_mass_float (n : nat) : list float := map (fun i => if Nat.eqb (S i) n then f1 else f0) (seq 0 n).

(** ordinal.py:59-66 emd_score; Python's [max(x, y)] is [y] only if [y > x]. *)
Definition emd_score_float (np_sum : list float -> float) (p q : list float) : float :=
  let el := emd_float np_sum p (left_mass_float (length p)) in
  let er := emd_float np_sum p (right_mass_float (length p)) in
  let m := if flt el er then er else el in
  fdiv (fsub m (emd_float np_sum p q)) m.

(** ordinal.py:97-103 emd_distances: entry for one row of A and one row of B. *)
Definition emd_pair_float (a b : list float) : float :=
  let ca := fcumsum a in let cb := fcumsum b in
  fold_left (fun d i => fadd d (fabs (fsub (nth i ca f0) (nth i cb f0)))) (seq 1 (length a - 2))
    (fabs (fsub (nth 0 ca f0) (nth 0 cb f0))).
Definition emd_distances_float (A B : list (list float)) : list (list float) :=
  map (fun a => map (emd_pair_float a) B) A.
