(** * Model of DFy as an object on which any call may raise (C132). *)

From Coq Require Import Reals List ZArith Bool.
From Verif Require Import Num M_Baselines M_Eoq M_Base M_Search M_Optim M_Match M_History M_Fit M_Fit2 M_Fit3.
Import ListNotations.
Open Scope R_scope.

(** df.py:193-214: the attributes of the base class, bincuts_, train_distrib_ (its number of rows and its columns), (G_, C_, b_) with
    their size, problem_ and mixtures_.  test_distrib_ is written by predict before it is read. *)
Record dfy_object := {
  dy_base : quantifier_object;
  dy_cuts : option (list (list edge));
  dy_train : option (nat * list (list R));
  dy_l2 : option (nat * (matrix * matrix * (nat -> R)));
  dy_problem : option cvx_problem;
  dy_mixtures : option (list (list R))
}.

(** df.py:193-214 __init__ *)
Definition DFy_new (est_train est_test : option nat) : dfy_object :=
  {| dy_base := new_base est_train est_test true true; dy_cuts := None; dy_train := None; dy_l2 := None; dy_problem := None;
     dy_mixtures := None |}.

Definition with_base (q : quantifier_object) (s : dfy_object) : dfy_object :=
  {| dy_base := q; dy_cuts := dy_cuts s; dy_train := dy_train s; dy_l2 := dy_l2 s; dy_problem := dy_problem s; dy_mixtures := dy_mixtures s |}.

(** predictions[:, j] (df.py:252, 261, 327): IndexError for an array of one dimension or with too few columns. *)
Definition prediction_column (p : predictions) (j : nat) : out (list R) :=
  match p with
  | Matrix rows => if Nat.ltb j (width rows) || Nat.eqb (length rows) 0 then Val (col j rows) else Err IndexError
  | _ => Err IndexError
  end.

(** df.py:249-254 bincuts_: an array of zeros whose rows are filled until one raises. *)
Definition DFy_fill_cuts (ppf : R -> R) (n_bins : nat) (strat : strategy) (y : list Z) (p : predictions) : list (list edge) * out unit :=
  fill_rows (repeat (Fin 0) (S n_bins))
    (fun d => obind (prediction_column p d) (fun x => compute_bincuts ppf x y (np_unique y) n_bins strat (Some (0, 1))))
    (seq 0 (n_descriptors (length (np_unique y)))).

(** df.py:259-262, the column of one class: a mask of the wrong length raises IndexError before anything is written; otherwise the counts
    of each descriptor, then the division.  (A class without predictions, 0/0, is NotANumber here; no theorem is about it.) *)
Definition DFy_fill_column (n_bins nd : nat) (cuts : list (list edge)) (ye : list Z) (rows : list (list R)) (c : Z) : list R * out unit :=
  if negb (Nat.eqb (length ye) (length rows)) then (repeat 0 (n_bins * nd)%nat, Err IndexError)
  else
    match select c ye rows with
    | [] => (repeat 0 (n_bins * nd)%nat, NotANumber)
    | sel =>
        match fill_rows (repeat O n_bins) (fun d => histogram (col d sel) (nth d cuts [])) (seq 0 nd) with
        | (counts, Val tt) => (concat (map (fun h => vdiv (map INR h) (INR (length sel))) counts), Val tt)
        | (counts, r) => (concat (map (map INR) counts), r)
        end
    end.

(** df.py:216-277 fit *)
Definition DFy_object_fit {X M : Type} (A : nat -> algorithm X M) (ppf : R -> R) (N : numerics) (fuel : nat) (kind : representation)
    (n_bins : nat) (strat : strategy) (crit : criterion) (x : list X) (y : list Z) (given : option predictions) (s : dfy_object) (w : world X M)
  : out unit * dfy_object * world X M :=
  match UC_fit A (dy_base s) w x y given with
  | (Val tt, q, w) =>
      let classes := np_unique y in
      let nd := n_descriptors (length classes) in
      match predictions_train_ q with
      | Some p =>
          match DFy_fill_cuts ppf n_bins strat y p with
          | (cuts, Val tt) =>
              let rows := as_rows p in
              match DFX_fill_train (repeat 0 (n_bins * nd)%nat) (DFy_fill_column n_bins nd cuts (y_ext y (length rows)) rows) classes with
              | (cols, Val tt) =>
                  let cols := match kind with PDF => cols | CDF => map cumsum cols end in
                  (Val tt, {| dy_base := q; dy_cuts := Some cuts; dy_train := Some ((n_bins * nd)%nat, cols);
                              dy_l2 := match crit with
                                       | Named L2 => option_map (pair (length cols))
                                           (compute_l2_param_train N fuel (n_bins * nd) (length cols) (matrix_of_columns cols))
                                       | _ => dy_l2 s
                                       end;
                              dy_problem := None; dy_mixtures := None |}, w)
              | (cols, r) =>
                  (r, {| dy_base := q; dy_cuts := Some cuts; dy_train := Some ((n_bins * nd)%nat, cols); dy_l2 := dy_l2 s;
                         dy_problem := dy_problem s; dy_mixtures := dy_mixtures s |}, w)
              end
          | (cuts, r) =>
              (r, {| dy_base := q; dy_cuts := Some cuts; dy_train := dy_train s; dy_l2 := dy_l2 s; dy_problem := dy_problem s;
                     dy_mixtures := dy_mixtures s |}, w)
          end
      | None => (Err TypeError, with_base q s, w)
      end
  | (Err e, q, w) => (Err e, with_base q s, w)
  | (NotANumber, q, w) => (NotANumber, with_base q s, w)
  end.

(** df.py:317-333 test_distrib_: None[..] raises TypeError, a row of bincuts_ that does not exist IndexError. *)
Definition DFy_test_distribution (kind : representation) (nd : nat) (cuts : option (list (list edge))) (p : predictions) : out (list R) :=
  match cuts with
  | None => Err TypeError
  | Some cuts =>
      obind (collect (map (fun d => obind (prediction_column p d) (fun x => obind (item cuts d) (histogram x))) (seq 0 nd))) (fun counts =>
        match length (as_rows p) with
        | O => NotANumber
        | n => let blocks := map (fun h => vdiv (map INR h) (INR n)) counts in
               Val (match kind with PDF => concat blocks | CDF => cumsum (concat blocks) end)
        end)
  end.

(** What the solvers get; quadprog raises ValueError if G_ does not have a row for each column of train_distrib_. *)
Definition dy_matcher (d : nat) (cols : list (list R)) (s : dfy_object) : matcher unit :=
  {| mt_classes := length cols; mt_bins := d; mt_T := matrix_of_columns cols;
     mt_l2 := match dy_l2 s with
              | Some (n, p) => if Nat.eqb n (length cols) then Some p else None
              | None => None
              end;
     mt_represent := fun _ => NotANumber; mt_problem := dy_problem s; mt_mixtures := dy_mixtures s |}.

(** df.py:279-357 predict.  len(None) raises TypeError; without train_distrib_ the solvers raise TypeError (AttributeError with L2).
    A new cvxpy problem has one variable for each entry of classes_ and raises ValueError if train_distrib_ has another number of columns;
    test_distrib_ with another number of rows than train_distrib_ raises ValueError (with a cached problem: than its parameter).
    Simplification: the latter also if the distance is a Python function. *)
Definition DFy_object_predict {X M : Type} (A : nat -> algorithm X M) (N : numerics) (cvx : cvx_solver) (kind : representation)
    (crit : criterion) (tol : R) (x : list X) (given : option predictions) (s : dfy_object) (w : world X M) : dfy_object * out (list R) :=
  match UC_predict A (dy_base s) w x given with
  | (Val tt, q) =>
      match classes_ q, predictions_test_ q with
      | Some classes, Some p =>
          match DFy_test_distribution kind (n_descriptors (length classes)) (dy_cuts s) p with
          | Val t =>
              match dy_train s with
              | None => (with_base q s, Err (match crit with Named L2 => AttributeError | _ => TypeError end))
              | Some (d, cols) =>
                  let cached := needs_cvx crit && match dy_problem s with None => false | Some _ => true end in
                  if negb cached && (negb (Nat.eqb (length t) d) || (needs_cvx crit && negb (Nat.eqb (length classes) (length cols))))
                  then (with_base q s, Err ValueError)
                  else
                    let '(m, r) := estimate N cvx crit tol (dy_matcher d cols s) t in
                    ({| dy_base := q; dy_cuts := dy_cuts s; dy_train := dy_train s; dy_l2 := dy_l2 s; dy_problem := mt_problem m;
                        dy_mixtures := mt_mixtures m |}, r)
              end
          | Err e => (with_base q s, Err e)
          | NotANumber => (with_base q s, NotANumber)
          end
      | _, _ => (with_base q s, Err TypeError)
      end
  | (Err e, q) => (with_base q s, Err e)
  | (NotANumber, q) => (with_base q s, NotANumber)
  end.
