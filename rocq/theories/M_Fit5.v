(** * Model of FriedmanME as an object on which any call may raise (C133). *)

From Coq Require Import Reals List ZArith Bool.
From Verif Require Import Num M_Baselines M_Eoq M_Base M_Search M_Optim M_Match M_History M_Fit M_Fit2 M_Fit3 M_Fit4.
Import ListNotations.
Open Scope R_scope.

(** friedman.py:132-147: the attributes of the base class, train_prevs_, train_distrib_ (as its columns), (G_, C_, b_) with their size,
    problem_ and mixtures_.  test_distrib_ is written by predict before it is read. *)
Record fr_object := {
  fr_base : quantifier_object;
  fr_prevs : option (list R);
  fr_train : option (list (list R));
  fr_l2 : option (nat * (matrix * matrix * (nat -> R)));
  fr_problem : option cvx_problem;
  fr_mixtures : option (list (list R))
}.

(** friedman.py:132-147 __init__ *)
Definition Friedman_new (est_train est_test : option nat) : fr_object :=
  {| fr_base := new_base est_train est_test true true; fr_prevs := None; fr_train := None; fr_l2 := None; fr_problem := None;
     fr_mixtures := None |}.

Definition fr_with_base (q : quantifier_object) (s : fr_object) : fr_object :=
  {| fr_base := q; fr_prevs := fr_prevs s; fr_train := fr_train s; fr_l2 := fr_l2 s; fr_problem := fr_problem s; fr_mixtures := fr_mixtures s |}.

(** friedman.py:183 train_prevs_ *)
Definition train_prevs (y : list Z) : list R := map (fun c => INR (zcount c y) / INR (length y)) (np_unique y).

(** friedman.py:193, the column of one class of train_distrib_: a mask of the wrong length raises IndexError.
    (The mean of no rows, NaN, is NotANumber here; no theorem is about it.) *)
Definition Friedman_fill_column (n : nat) (prevs : list R) (ye : list Z) (rows : list (list R)) (c : Z) : list R * out unit :=
  if negb (Nat.eqb (length ye) (length rows)) then (repeat 0 n, Err IndexError)
  else
    match friedman_represent prevs (select c ye rows) with
    | Val v => (v, Val tt)
    | Err e => (repeat 0 n, Err e)
    | NotANumber => (repeat 0 n, NotANumber)
    end.

(** friedman.py:149-204 fit: train_prevs_ is assigned first; Vp (187-189) is a local array, whose columns need those of the predictions. *)
Definition Friedman_object_fit {X M : Type} (A : nat -> algorithm X M) (N : numerics) (fuel : nat) (crit : criterion)
    (x : list X) (y : list Z) (given : option predictions) (s : fr_object) (w : world X M) : out unit * fr_object * world X M :=
  match UC_fit A (fr_base s) w x y given with
  | (Val tt, q, w) =>
      let n := length (np_unique y) in
      let prevs := train_prevs y in
      let torn := {| fr_base := q; fr_prevs := Some prevs; fr_train := fr_train s; fr_l2 := fr_l2 s; fr_problem := fr_problem s;
                     fr_mixtures := fr_mixtures s |} in
      match predictions_train_ q with
      | Some p =>
          match collect (map (prediction_column p) (seq 0 n)) with
          | Val _ =>
              let rows := as_rows p in
              match DFX_fill_train (repeat 0 n) (Friedman_fill_column n prevs (y_ext y (length rows)) rows) (np_unique y) with
              | (cols, Val tt) =>
                  (Val tt, {| fr_base := q; fr_prevs := Some prevs; fr_train := Some cols;
                              fr_l2 := match crit with
                                       | Named L2 => option_map (pair (length cols))
                                           (compute_l2_param_train N fuel n (length cols) (matrix_of_columns cols))
                                       | _ => fr_l2 s
                                       end;
                              fr_problem := None; fr_mixtures := None |}, w)
              | (cols, r) =>
                  (r, {| fr_base := q; fr_prevs := Some prevs; fr_train := Some cols; fr_l2 := fr_l2 s; fr_problem := fr_problem s;
                         fr_mixtures := fr_mixtures s |}, w)
              end
          | Err e => (Err e, torn, w)
          | NotANumber => (NotANumber, torn, w)
          end
      | None => (Err TypeError, torn, w)
      end
  | (Err e, q, w) => (Err e, fr_with_base q s, w)
  | (NotANumber, q, w) => (NotANumber, fr_with_base q s, w)
  end.

(** friedman.py:245-251 test_distrib_ for [n] classes: None[..] raises TypeError, an entry of train_prevs_ that does not exist IndexError. *)
Definition Friedman_test_distribution (n : nat) (prevs : option (list R)) (p : predictions) : out (list R) :=
  match prevs with
  | None => Err TypeError
  | Some prevs =>
      obind (collect (map (fun j => obind (prediction_column p j) (fun _ => item prevs j)) (seq 0 n)))
            (fun thresholds => friedman_represent thresholds (as_rows p))
  end.

(** What the solvers get; quadprog raises ValueError if G_ does not have a row for each column of train_distrib_. *)
Definition fr_matcher (cols : list (list R)) (s : fr_object) : matcher unit :=
  {| mt_classes := length cols; mt_bins := length cols; mt_T := matrix_of_columns cols;
     mt_l2 := match fr_l2 s with
              | Some (n, p) => if Nat.eqb n (length cols) then Some p else None
              | None => None
              end;
     mt_represent := fun _ => NotANumber; mt_problem := fr_problem s; mt_mixtures := fr_mixtures s |}.

(** friedman.py:206-271 predict; what raises without train_distrib_ or with another number of classes is as for DFy (M_Fit4). *)
Definition Friedman_object_predict {X M : Type} (A : nat -> algorithm X M) (N : numerics) (cvx : cvx_solver) (crit : criterion) (tol : R)
    (x : list X) (given : option predictions) (s : fr_object) (w : world X M) : fr_object * out (list R) :=
  match UC_predict A (fr_base s) w x given with
  | (Val tt, q) =>
      match classes_ q, predictions_test_ q with
      | Some classes, Some p =>
          match Friedman_test_distribution (length classes) (fr_prevs s) p with
          | Val t =>
              match fr_train s with
              | None => (fr_with_base q s, Err (match crit with Named L2 => AttributeError | _ => TypeError end))
              | Some cols =>
                  let cached := needs_cvx crit && match fr_problem s with None => false | Some _ => true end in
                  if negb cached && negb (Nat.eqb (length t) (length cols)) then (fr_with_base q s, Err ValueError)
                  else
                    let '(m, r) := estimate N cvx crit tol (fr_matcher cols s) t in
                    ({| fr_base := q; fr_prevs := fr_prevs s; fr_train := fr_train s; fr_l2 := fr_l2 s; fr_problem := mt_problem m;
                        fr_mixtures := mt_mixtures m |}, r)
              end
          | Err e => (fr_with_base q s, Err e)
          | NotANumber => (fr_with_base q s, NotANumber)
          end
      | _, _ => (fr_with_base q s, Err TypeError)
      end
  | (Err e, q) => (fr_with_base q s, Err e)
  | (NotANumber, q) => (fr_with_base q s, NotANumber)
  end.
