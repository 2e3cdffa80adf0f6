(** * What equidistant cut points are, for C93. *)

From Coq Require Import Reals List ZArith.
From Verif Require Import Num M_Match.
Import ListNotations.
Open Scope R_scope.

Definition smallest (l : list R) (v : R) : Prop := In v l /\ forall x, In x l -> v <= x.
Definition largest (l : list R) (v : R) : Prop := In v l /\ forall x, In x l -> x <= v.

(** [n] parts of the same width between [lo] and [hi], the first and the last one extended to infinity. *)
Definition equally_spaced (n : nat) (lo hi : R) (cuts : list edge) : Prop :=
  length cuts = S n /\ nth 0 cuts PosInf = NegInf /\ nth n cuts NegInf = PosInf /\
  forall i, (0 < i < n)%nat -> nth i cuts NegInf = Fin (lo + INR i * ((hi - lo) / INR n)).

(** The range of the values; half a unit on each side of the value when there is only one. *)
Definition spaced_over (n : nat) (values : list R) (cuts : list edge) : Prop :=
  exists lo hi, smallest values lo /\ largest values hi /\
    (lo < hi -> equally_spaced n lo hi cuts) /\
    (lo = hi -> equally_spaced n (lo - 1/2) (lo + 1/2) cuts).

(** The values of column [c] of a table. *)
Definition column (c : nat) (rows : list (list R)) : list R := map (fun r => nth c r 0) rows.

(** [cuts] has one list of cut points for each of the first [k] columns, found from the column by [rule]. *)
Definition cuts_of_columns (rule : list R -> out (list edge)) (k : nat) (rows : list (list R))
    (cuts : list (list edge)) : Prop :=
  length cuts = k /\ forall d, (d < k)%nat -> rule (column d rows) = Val (nth d cuts []).
