(** * What a drawing of prevalences and a sorted table are, for C67. *)

From Coq Require Import Reals List ZArith Sorting.Permutation.
From Verif Require Import Num Spec M_Plot.
Import ListNotations.
Open Scope R_scope.

(** One segment for each prevalence, at height [y]: the first starts at 0, the others where the one before ends,
    and the lengths are 100 times the prevalences. *)
Definition line_of (y : R) (prevs : list R) (segs : list segment) : Prop :=
  length segs = length prevs /\
  forall c s, nth_error segs c = Some s ->
    s_y s = y /\ s_x1 s - s_x0 s = 100 * nth c prevs 0 /\
    match c with
    | O => s_x0 s = 0
    | S b => exists before, nth_error segs b = Some before /\ s_x0 s = s_x1 before
    end.

(** The lines of a drawing: the rows from the bottom to the top, at heights 1, 2, ... *)
Definition draws (m : list (list R)) (lines : list (list segment)) : Prop :=
  length lines = length m /\
  forall i, (i < length m)%nat -> line_of (INR (i + 1)) (nth i m []) (nth i lines []).

(** Row [a] does not go after row [b] when the rows are sorted by the columns [cols], the first one first. *)
Fixpoint not_after (cols : list nat) (a b : list R) : Prop :=
  match cols with
  | [] => True
  | c :: t => nth c a 0 < nth c b 0 \/ (nth c a 0 = nth c b 0 /\ not_after t a b)
  end.

Fixpoint equal_on (cols : list nat) (a b : list R) : Prop :=
  match cols with
  | [] => True
  | c :: t => nth c a 0 = nth c b 0 /\ equal_on t a b
  end.

(** [m'] has the rows of [m], sorted by the columns [cols]; [idx] is where they were.  Rows with the same values
    keep their order. *)
Definition sorted_by (cols : list nat) (m m' : list (list R)) (idx : list nat) : Prop :=
  Permutation idx (seq 0 (length m)) /\ m' = map (fun i => nth i m []) idx /\
  forall a b, (a < b < length m')%nat ->
    not_after cols (nth a m' []) (nth b m' []) /\
    (equal_on cols (nth a m' []) (nth b m' []) -> (nth a idx 0 < nth b idx 0)%nat).

(** A history of plots: the default list of columns afterwards. *)
Record plot_call := { pc_k : nat; pc_matrix : list (list R); pc_order : option order; pc_colors : option (list Z) }.
Definition default_after (calls : list plot_call) (default : list nat) : list nat :=
  fold_left (fun d c => snd (plot_line_prevalences (pc_k c) (pc_matrix c) (pc_order c) (pc_colors c) d)) calls default.
