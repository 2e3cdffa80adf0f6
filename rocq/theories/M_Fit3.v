(** * Model of DFX as an object on which any call may raise (C129). *)

From Coq Require Import Reals List ZArith Bool.
From Verif Require Import Num M_Baselines M_Bags M_Search M_Optim M_Match.
Import ListNotations.
Open Scope R_scope.

(** df.py:507-516 and base.py:50: classes_, bincuts_, train_distrib_ (as its columns), (G_, C_, b_) with their size, problem_ and
    mixtures_.  test_distrib_ is written by predict before it is read. *)
Record dfx_object := {
  dx_classes : option (list Z);
  dx_cuts : option (list (list edge));
  dx_train : option (list (list R));
  dx_l2 : option (nat * (matrix * matrix * (nat -> R)));
  dx_problem : option cvx_problem;
  dx_mixtures : option (list (list R))
}.

(** df.py:497-516 __init__ *)
Definition DFX_new : dfx_object :=
  {| dx_classes := None; dx_cuts := None; dx_train := None; dx_l2 := None; dx_problem := None; dx_mixtures := None |}.

(** A loop that fills the rows of an array that was [blank] everywhere, until one row raises (df.py:538-541, 544-549). *)
Fixpoint fill_rows {A : Type} (blank : A) (f : nat -> out A) (l : list nat) : list A * out unit :=
  match l with
  | [] => ([], Val tt)
  | a :: t => match f a with
              | Val v => let (vs, r) := fill_rows blank f t in (v :: vs, r)
              | Err e => (repeat blank (length l), Err e)
              | NotANumber => (repeat blank (length l), NotANumber)
              end
  end.

(** df.py:538-541 bincuts_.  (NotANumber, i.e. a class without examples, does not occur: the classes are those of y.) *)
Definition DFX_fill_cuts (ppf : R -> R) (n_bins : nat) (strat : strategy) (y : list Z) (k : nat) (X : list (list R))
  : list (list edge) * out unit :=
  fill_rows (repeat (Fin 0) (S n_bins)) (fun att => compute_bincuts ppf (col att X) y (np_unique y) n_bins strat None) (seq 0 k).

(** df.py:545-555, one column of train_distrib_: the counts of each attribute, then the division by the number of examples and
    the cumulative sums. *)
Definition DFX_fill_column (kind : representation) (n_bins k : nat) (cuts : list (list edge)) (rows : list (list R))
  : list R * out unit :=
  match fill_rows (repeat O n_bins) (fun att => histogram (col att rows) (nth att cuts [])) (seq 0 k) with
  | (counts, Val tt) =>
      let blocks := map (fun h => vdiv (map INR h) (INR (length rows))) counts in
      (match kind with PDF => concat blocks | CDF => concat (map cumsum blocks) end, Val tt)
  | (counts, r) => (concat (map (map INR) counts), r)
  end.

(** df.py:544-555 train_distrib_: the columns after one that raises stay zero. *)
Fixpoint DFX_fill_train (blank : list R) (column : Z -> list R * out unit) (classes : list Z) : list (list R) * out unit :=
  match classes with
  | [] => ([], Val tt)
  | c :: t => match column c with
              | (v, Val tt) => let (vs, r) := DFX_fill_train blank column t in (v :: vs, r)
              | (v, r) => (v :: repeat blank (length t), r)
              end
  end.

(** df.py:518-566 fit for examples with [k] attributes; check_X_y (base.py:63) refuses lists of different lengths and arrays without
    rows or columns.  Simplification: the number of attributes is the same in all the calls on an object. *)
Definition DFX_object_fit (ppf : R -> R) (N : numerics) (fuel : nat) (kind : representation) (n_bins : nat) (strat : strategy)
    (crit : criterion) (k : nat) (y : list Z) (X : list (list R)) (s : dfx_object) : out unit * dfx_object :=
  if negb (Nat.eqb (length y) (length X)) || Nat.eqb (length X) 0 || Nat.eqb k 0 then (Err ValueError, s)
  else
    let classes := np_unique y in
    match DFX_fill_cuts ppf n_bins strat y k X with
    | (cuts, Val tt) =>
        match DFX_fill_train (repeat 0 (n_bins * k)) (fun c => DFX_fill_column kind n_bins k cuts (select c y X)) classes with
        | (cols, Val tt) =>
            (Val tt, {| dx_classes := Some classes; dx_cuts := Some cuts; dx_train := Some cols;
                        dx_l2 := match crit with
                                 | Named L2 => option_map (pair (length cols))
                                     (compute_l2_param_train N fuel (n_bins * k) (length cols) (matrix_of_columns cols))
                                 | _ => dx_l2 s
                                 end;
                        dx_problem := None; dx_mixtures := None |})
        | (cols, r) =>
            (r, {| dx_classes := Some classes; dx_cuts := Some cuts; dx_train := Some cols; dx_l2 := dx_l2 s;
                   dx_problem := dx_problem s; dx_mixtures := dx_mixtures s |})
        end
    | (cuts, r) =>
        (r, {| dx_classes := Some classes; dx_cuts := Some cuts; dx_train := dx_train s; dx_l2 := dx_l2 s;
               dx_problem := dx_problem s; dx_mixtures := dx_mixtures s |})
    end.

(** df.py:605-619: what the solvers get.  quadprog raises ValueError if G_ does not have a row for each column of train_distrib_
    (as when there is no G_, see M_Match). *)
Definition dx_matcher (kind : representation) (n_bins k : nat) (cuts : list (list edge)) (cols : list (list R)) (s : dfx_object)
  : matcher (list (list R)) :=
  {| mt_classes := length cols; mt_bins := (n_bins * k)%nat; mt_T := matrix_of_columns cols;
     mt_l2 := match dx_l2 s with
              | Some (n, p) => if Nat.eqb n (length cols) then Some p else None
              | None => None
              end;
     mt_represent := dfx_represent kind cuts; mt_problem := dx_problem s; mt_mixtures := dx_mixtures s |}.

Definition needs_cvx (crit : criterion) : bool := match crit with Named HD => true | Named L1 => true | _ => false end.

(** df.py:568-623 predict.  check_array refuses a bag without rows; len(None), None[..] and None @ p raise TypeError, None.T raises
    AttributeError; a new cvxpy problem has one variable for each entry of classes_ and raises ValueError if train_distrib_ has
    another number of columns. *)
Definition DFX_object_predict (N : numerics) (cvx : cvx_solver) (kind : representation) (n_bins : nat) (crit : criterion) (tol : R)
    (k : nat) (bag : list (list R)) (s : dfx_object) : dfx_object * out (list R) :=
  match bag with
  | [] => (s, Err ValueError)
  | _ =>
      match dx_classes s, dx_cuts s with
      | Some classes, Some cuts =>
          match dfx_represent kind cuts bag with
          | Val _ =>
              match dx_train s with
              | None => (s, Err (match crit with Named L2 => AttributeError | _ => TypeError end))
              | Some cols =>
                  if needs_cvx crit && negb (Nat.eqb (length classes) (length cols)) &&
                     match dx_problem s with None => true | Some _ => false end
                  then (s, Err ValueError)
                  else
                    let '(m, r) := matching_predict N cvx crit tol (dx_matcher kind n_bins k cuts cols s) bag in
                    ({| dx_classes := dx_classes s; dx_cuts := dx_cuts s; dx_train := dx_train s; dx_l2 := dx_l2 s;
                        dx_problem := mt_problem m; dx_mixtures := mt_mixtures m |}, r)
              end
          | Err e => (s, Err e)
          | NotANumber => (s, NotANumber)
          end
      | _, _ => (s, Err TypeError)
      end
  end.
