(** * Model of PDFOrdinaly as an object on which any call may raise (C134). *)

From Coq Require Import Reals List ZArith Bool.
From Verif Require Import Num M_Baselines M_Eoq M_Base M_Search M_Optim M_Match M_History M_Fit M_Fit2 M_Fit3 M_Fit4.
Import ListNotations.
Open Scope R_scope.

(** ordinal/pdf.py:135-151: the attributes of the base class, train_distrib_ (its number of rows and its columns), (G_, C_, b_) with
    their size, and problem_.  test_distrib_ is written by predict before it is read. *)
Record pdfo_object := {
  po_base : quantifier_object;
  po_train : option (nat * list (list R));
  po_l2 : option (nat * (matrix * matrix * (nat -> R)));
  po_problem : option cvx_problem
}.

(** ordinal/pdf.py:135-151 __init__ *)
Definition PDFO_new (est_train est_test : option nat) : pdfo_object :=
  {| po_base := new_base est_train est_test true true; po_train := None; po_l2 := None; po_problem := None |}.

Definition po_with_base (q : quantifier_object) (s : pdfo_object) : pdfo_object :=
  {| po_base := q; po_train := po_train s; po_l2 := po_l2 s; po_problem := po_problem s |}.

(** ordinal/pdf.py:290-297: the column that __leafprobs2scores reads in a row. *)
Definition winner_column (n : nat) (r : list R) : nat :=
  let i := match first_positive r with Some i => i | None => O end in
  ((if Nat.eqb i (n - 1) then n - 2 else i) + 1)%nat.

(** ordinal/pdf.py:185-190 and 253-258: whether the scores can be computed.  dot raises ValueError unless there are [n] columns,
    __leafprobs2scores IndexError if a row has no such column.  Simplification: an array of one dimension raises ValueError. *)
Definition po_scores (m : scoring) (n : nat) (p : predictions) : out unit :=
  match m, p with
  | OtherMethod, _ => Err ValueError
  | FullProbabilistic, Matrix rows => if forallb (fun r => Nat.eqb (length r) n) rows then Val tt else Err ValueError
  | WinnerNode, Matrix rows => if forallb (fun r => Nat.ltb (winner_column n r) (length r)) rows then Val tt else Err IndexError
  | _, _ => Err ValueError
  end.

(** ordinal/pdf.py:195-198, the column of one class: a mask of the wrong length raises IndexError, no bins ValueError.
    (A class without predictions, 0/0, is NotANumber here; no theorem is about it.) *)
Definition PDFO_fill_column (n_bins n : nat) (m : scoring) (ye : list Z) (rows : list (list R)) (c : Z) : list R * out unit :=
  let blank := repeat 0 (n_bins * (n - 1))%nat in
  if negb (Nat.eqb (length ye) (length rows)) then (blank, Err IndexError)
  else
    match pdfo_represent n_bins n m false (select c ye rows) with
    | Val v => (v, Val tt)
    | Err e => (blank, Err e)
    | NotANumber => (blank, NotANumber)
    end.

(** ordinal/pdf.py:153-211 fit: at most two classes raise TypeError after the base class has replaced classes_. *)
Definition PDFO_object_fit {X M : Type} (A : nat -> algorithm X M) (N : numerics) (fuel n_bins : nat) (d : ordinal_distance) (m : scoring)
    (x : list X) (y : list Z) (given : option predictions) (s : pdfo_object) (w : world X M) : out unit * pdfo_object * world X M :=
  match UC_fit A (po_base s) w x y given with
  | (Val tt, q, w) =>
      let n := length (np_unique y) in
      let bins := (n_bins * (n - 1))%nat in
      if Nat.leb n 2 then (Err TypeError, po_with_base q s, w)
      else
        match predictions_train_ q with
        | Some p =>
            match po_scores m n p with
            | Val tt =>
                let rows := as_rows p in
                match DFX_fill_train (repeat 0 bins) (PDFO_fill_column n_bins n m (y_ext y (length rows)) rows) (np_unique y) with
                | (cols, Val tt) =>
                    (Val tt, {| po_base := q; po_train := Some (bins, if is_emd d then map cumsum cols else cols);
                                po_l2 := match d with
                                         | OL2 => option_map (pair (length cols))
                                             (compute_l2_param_train N fuel bins (length cols) (matrix_of_columns cols))
                                         | _ => po_l2 s
                                         end;
                                po_problem := None |}, w)
                | (cols, r) => (r, {| po_base := q; po_train := Some (bins, cols); po_l2 := po_l2 s; po_problem := po_problem s |}, w)
                end
            | Err e => (Err e, po_with_base q s, w)
            | NotANumber => (NotANumber, po_with_base q s, w)
            end
        | None => (Err TypeError, po_with_base q s, w)
        end
  | (Err e, q, w) => (Err e, po_with_base q s, w)
  | (NotANumber, q, w) => (NotANumber, po_with_base q s, w)
  end.

(** What the solvers get, with [n] the length of classes_: with EMD the first rows of train_distrib_ (pdf.py:273; a slice may be shorter
    than asked for).  quadprog raises ValueError if G_ does not have a row for each column of train_distrib_. *)
Definition po_matcher (n_bins : nat) (d : ordinal_distance) (n bins : nat) (cols : list (list R)) (s : pdfo_object) : matcher unit :=
  let k := (n_bins * (n - 1) - 1)%nat in
  {| mt_classes := length cols; mt_bins := if is_emd d then Nat.min k bins else bins;
     mt_T := matrix_of_columns (if is_emd d then map (firstn k) cols else cols);
     mt_l2 := match po_l2 s with
              | Some (j, p) => if Nat.eqb j (length cols) then Some p else None
              | None => None
              end;
     mt_represent := fun _ => NotANumber; mt_problem := po_problem s; mt_mixtures := None |}.

(** ordinal/pdf.py:213-287 predict; [Val None]: an unknown distance gives None.  What raises without train_distrib_, or with another
    number of classes, is as for DFy (M_Fit4). *)
Definition PDFO_object_predict {X M : Type} (A : nat -> algorithm X M) (N : numerics) (cvx : cvx_solver) (n_bins : nat)
    (d : ordinal_distance) (m : scoring) (x : list X) (given : option predictions) (s : pdfo_object) (w : world X M)
  : pdfo_object * out (option (list R)) :=
  match UC_predict A (po_base s) w x given with
  | (Val tt, q) =>
      match classes_ q, predictions_test_ q with
      | Some classes, Some p =>
          let n := length classes in
          match obind (po_scores m n p) (fun _ => pdfo_represent n_bins n m (is_emd d) (as_rows p)) with
          | Val t =>
              match d with
              | OtherOrdinalDistance => (po_with_base q s, Val None)
              | _ =>
                  match po_train s with
                  | None => (po_with_base q s, Err (match d with OL2 => AttributeError | _ => TypeError end))
                  | Some (bins, cols) =>
                      let crit := pdfo_criterion d in
                      let mt := po_matcher n_bins d n bins cols s in
                      let cached := needs_cvx crit && match po_problem s with None => false | Some _ => true end in
                      if negb cached && (negb (Nat.eqb (length t) (mt_bins mt)) || (needs_cvx crit && negb (Nat.eqb n (length cols))))
                      then (po_with_base q s, Err ValueError)
                      else
                        let '(mt, r) := estimate N cvx crit 0 mt t in
                        ({| po_base := q; po_train := po_train s; po_l2 := po_l2 s; po_problem := mt_problem mt |},
                         omap (fun v => Some (if is_emd d then clip_normalise v else v)) r)
                  end
              end
          | Err e => (po_with_base q s, Err e)
          | NotANumber => (po_with_base q s, NotANumber)
          end
      | _, _ => (po_with_base q s, Err TypeError)
      end
  | (Err e, q) => (po_with_base q s, Err e)
  | (NotANumber, q) => (po_with_base q s, NotANumber)
  end.
