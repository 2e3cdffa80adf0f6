(** * Model of quantificationlib/plot/qlplot.py.

    Coordinates are exact numbers, colours are numbers ([Z]); what matplotlib makes of the segments and of the
    colours is not modelled.  A matrix is a number of columns and a list of rows of that length. *)

From Coq Require Import Reals List ZArith Bool Arith.
From Verif Require Import Num M_Match.
Import ListNotations.
Open Scope R_scope.

Inductive order := Ascending | Descending | OtherOrder.

(** Stable sorting of positions by a key. *)
Fixpoint insert_by (key : nat -> R) (x : nat) (l : list nat) : list nat :=
  match l with
  | [] => [x]
  | h :: t => if Rle_dec (key x) (key h) then x :: h :: t else h :: insert_by key x t
  end.
Definition stable_sort (key : nat -> R) (l : list nat) : list nat := fold_right (insert_by key) [] l.

(** [np.lexsort(keys)] for keys of length [n]: a stable sort by each key, the last key last; TypeError without keys. *)
Definition lexsort (keys : list (nat -> R)) (n : nat) : out (list nat) :=
  match keys with
  | [] => Err TypeError
  | _ => Val (fold_left (fun idx key => stable_sort key idx) keys (seq 0 n))
  end.

(** qlplot.py:16-26 _sort_rows_bycolumns: the sorted matrix and the list [columns] afterwards, which is reversed in
    place before anything can fail.  Simplification: column numbers are not negative. *)
Definition sort_rows (k : nat) (m : list (list R)) (columns : list nat) (o : order) : out (list (list R)) * list nat :=
  let columns' := rev columns in
  (if forallb (fun c => Nat.ltb c k) columns'
   then omap (fun idx => map (fun i => nth i m []) (match o with Descending => rev idx | _ => idx end))
             (lexsort (map (fun c i => nth c (nth i m []) 0) columns') (length m))
   else Err IndexError,
   columns').

(** A segment: from ([x0], [y]) to ([x1], [y]). *)
Record segment := { s_x0 : R; s_x1 : R; s_y : R }.

(** qlplot.py:79-86, one row: the loop over the prevalences. *)
Fixpoint row_segments (x0 y : R) (prevs : list R) : list segment :=
  match prevs with
  | [] => []
  | p :: t => let x1 := x0 + 100 * p in {| s_x0 := x0; s_x1 := x1; s_y := y |} :: row_segments x1 y t
  end.

(** What is drawn: the limits of both axes and one collection of segments for each row, with the colours, which
    matplotlib uses in turn and starts again after the last one. *)
Record drawing := {
  d_xlim : R * R;
  d_ylim : R * R;
  d_lines : list (list segment);
  d_colors : list Z
}.

(** list(mcolors.TABLEAU_COLORS): ten colours. *)
Definition tableau : list Z := map Z.of_nat (seq 0 10).

(** qlplot.py:65-89 plot_line_prevalences: the drawing, and the default value of [columns] in
    _sort_rows_bycolumns, which is one object for all the calls. *)
Definition plot_line_prevalences (k : nat) (m : list (list R)) (o : option order) (colors : option (list Z))
    (default : list nat) : out drawing * list nat :=
  let colors' := match colors with Some c => c | None => tableau end in
  let (sorted, default') := match o with Some o' => sort_rows k m default o' | None => (Val m, default) end in
  (omap (fun m' =>
     {| d_xlim := (0, 100); d_ylim := (0, INR (length m' + 1));
        d_lines := map (fun i => row_segments 0 (INR (i + 1)) (nth i m' [])) (seq 0 (length m'));
        d_colors := colors' |}) sorted, default').

(** The colour of segment [c] of a collection; None when there are no colours. *)
Definition color_of (d : drawing) (c : nat) : option Z := nth_error (d_colors d) (c mod length (d_colors d)).

(** qlplot.py:123-137 plot_boxes for [n] systems: the colour of each box and whether the medians are made black.
    [None]: the colour of matplotlib. *)
Definition plot_boxes (n : nat) (colors : option (list Z)) : list (option Z) * bool :=
  match colors with
  | None => (repeat None n, false)
  | Some c => (map (fun i => nth_error c i) (seq 0 n), true)
  end.
