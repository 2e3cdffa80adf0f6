(** * Model of ACOrdinal as an object on which any call may raise (C135). *)

From Coq Require Import Reals List ZArith Bool.
From Verif Require Import Num M_Baselines M_Eoq M_Base M_Search M_Optim M_Match M_History M_Fit M_Fit2.
Import ListNotations.
Open Scope R_scope.

(** ordinal/ac_ordinal.py:112-119: the attributes of the base class, train_distrib_ (one column for each class; [Some None]: some row of
    the confusion matrix is 0/0) and problem_.  cm_ is only read by fit, test_distrib_ is written by predict before it is read. *)
Record aco_object := {
  ar_base : quantifier_object;
  ar_train : option (option (list (list R)));
  ar_problem : option cvx_problem
}.

(** ordinal/ac_ordinal.py:112-119 __init__ *)
Definition ACOrdinal_new (est_train est_test : option nat) : aco_object :=
  {| ar_base := new_base est_train est_test true false; ar_train := None; ar_problem := None |}.

Definition ar_with_base (q : quantifier_object) (s : aco_object) : aco_object :=
  {| ar_base := q; ar_train := ar_train s; ar_problem := ar_problem s |}.

(** ordinal/ac_ordinal.py:121-166 fit: the base class first (its classes_ stays assigned when something raises), then confusion_matrix,
    which raises before the other attributes are assigned.  Predictions that are not labels (only an empty array) count as ValueError
    of confusion_matrix. *)
Definition ACOrdinal_object_fit {X M : Type} (A : nat -> algorithm X M) (x : list X) (y : list Z) (given : option predictions)
    (s : aco_object) (w : world X M) : out unit * aco_object * world X M :=
  match UC_fit A (ar_base s) w x y given with
  | (Val tt, q, w) =>
      match predictions_train_ q with
      | Some (Labels l) =>
          match AC_fit y l with
          | Val cm => (Val tt, {| ar_base := q; ar_train := Some (option_map (map cumsum) (all_some cm)); ar_problem := None |}, w)
          | Err e => (Err e, ar_with_base q s, w)
          | NotANumber => (NotANumber, ar_with_base q s, w)
          end
      | _ => (Err ValueError, ar_with_base q s, w)
      end
  | (Err e, q, w) => (Err e, ar_with_base q s, w)
  | (NotANumber, q, w) => (NotANumber, ar_with_base q s, w)
  end.

(** What solve_l1 gets: train_distrib_ is square. *)
Definition ar_matcher (cols : list (list R)) (s : aco_object) : matcher unit :=
  {| mt_classes := length cols; mt_bins := length cols; mt_T := matrix_of_columns cols; mt_l2 := None;
     mt_represent := fun _ => NotANumber; mt_problem := ar_problem s; mt_mixtures := None |}.

(** ordinal/ac_ordinal.py:168-225 predict.  len(None) raises TypeError, and so does solve_l1 without train_distrib_.  A new cvxpy problem
    has one variable and one entry of its parameter for each entry of classes_, and raises ValueError unless train_distrib_ has as many
    rows and columns; a cached problem raises ValueError if its parameter has another size. *)
Definition ACOrdinal_object_predict {X M : Type} (A : nat -> algorithm X M) (N : numerics) (cvx : cvx_solver) (x : list X)
    (given : option predictions) (s : aco_object) (w : world X M) : aco_object * out (list R) :=
  match UC_predict A (ar_base s) w x given with
  | (Val tt, q) =>
      match classes_ q with
      | None => (ar_with_base q s, Err TypeError)
      | Some classes =>
          match aco_represent classes (labels_in (predictions_test_ q)) with
          | Val t =>
              match ar_train s with
              | None => (ar_with_base q s, Err TypeError)
              | Some None => (ar_with_base q s, NotANumber)
              | Some (Some cols) =>
                  let '(m, r) := estimate N cvx (Named L1) 0 (ar_matcher cols s) t in
                  ({| ar_base := q; ar_train := ar_train s; ar_problem := mt_problem m |}, r)
              end
          | Err e => (ar_with_base q s, Err e)
          | NotANumber => (ar_with_base q s, NotANumber)
          end
      end
  | (Err e, q) => (ar_with_base q s, Err e)
  | (NotANumber, q) => (ar_with_base q s, NotANumber)
  end.
