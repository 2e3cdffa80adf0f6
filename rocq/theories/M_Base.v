(** * Model of base.py: UsingClassifiers (estimators, given predictions) and WithoutClassifiers. *)

From Coq Require Import Reals List ZArith Bool.
From Verif Require Import Num M_Baselines.
Import ListNotations.
Open Scope R_scope.

(** ** Predictions given to fit or predict, or returned by an estimator.
    Integer matrices and float32 vectors are not modelled. *)
Inductive predictions :=
| Labels (l : list Z)            (* 1-D array of labels *)
| Scores (l : list R)            (* 1-D array of float *)
| Matrix (rows : list (list R)). (* 2-D array of float *)

Definition n_predictions (p : predictions) : nat :=
  match p with Labels l => length l | Scores l => length l | Matrix rows => length rows end.

(** base.py:338-342: thresholding at 0.5. *)
Definition threshold (l : list R) : list Z := map (fun x => if Rle_dec (1/2) x then 1%Z else 0%Z) l.

(** base.py:317-347 __probs2crisps.  [np.float] is the builtin float, as in the numpy versions that have it.  A matrix
    with one column is squeezed, a (1,1) one to a 0-d array, whose [0] raises IndexError (338).  [labels.take] raises
    IndexError beyond the labels, argmax of no columns ValueError.  All the rows of a matrix have the length of the first. *)
Definition probs2crisps (labels : list Z) (p : predictions) : out predictions :=
  match p with
  | Labels l => Val (Labels l)
  | Scores [] => Val p
  | Scores l => Val (Labels (threshold l))
  | Matrix [] => Val p
  | Matrix (r :: t) =>
      match r with
      | [] => Err ValueError
      | [x] => match t with
               | [] => Err IndexError
               | _ => Val (Labels (threshold (map (fun row => nth 0 row 0) (r :: t))))
               end
      | _ => let best := map argmax (r :: t) in
             if forallb (fun k => Nat.ltb k (length labels)) best
             then Val (Labels (map (fun k => nth k labels 0%Z) best))
             else Err IndexError
      end
  end.

(** ** Estimators.  An estimator object is a reference (its number); what it learns, and what its model answers, is
    given by [algorithm]s; a model answers every query (an estimator that fails otherwise is not modelled). *)
Record algorithm (X M : Type) := {
  learn : list X -> list Z -> M;
  crisp : M -> list X -> list Z;
  proba : M -> list X -> list (list R)
}.
Arguments learn {X M}. Arguments crisp {X M}. Arguments proba {X M}.

(** All the estimator objects: the model of each one ([None]: not fitted), and a record of the calls
    estimator.fit(X, y) made so far, in order. *)
Record world (X M : Type) := {
  models : nat -> option M;
  fits : list (nat * list X * list Z)
}.
Arguments models {X M}. Arguments fits {X M}.

Definition set_model {X M : Type} (A : nat -> algorithm X M) (w : world X M) (e : nat) (x : list X) (y : list Z) : world X M :=
  {| models := fun e' => if Nat.eqb e' e then Some (learn (A e) x y) else models w e';
     fits := fits w ++ [(e, x, y)] |}.

(** base.py:206-215 (and 226-235): predict on the first example; only if that raises NotFittedError, check_X_y and
    fit.  check_X_y raises ValueError if the lengths differ; its other checks are not modelled. *)
Definition ensure_fitted {X M : Type} (A : nat -> algorithm X M) (w : world X M) (e : option nat) (x : list X) (y : list Z)
  : out (world X M) :=
  match e with
  | None => Val w
  | Some e =>
      match models w e with
      | Some _ => Val w
      | None => if Nat.eqb (length x) (length y) then Val (set_model A w e x y) else Err ValueError
      end
  end.

(** base.py:147-160: a quantifier object. *)
Record quantifier_object := {
  estimator_train : option nat; estimator_test : option nat; needs_predictions_train : bool;
  probabilistic : bool;
  predictions_train_ : option predictions; predictions_test_ : option predictions;
  classes_ : option (list Z); y_ext_ : option (list Z)
}.

Definition with_classes (q : quantifier_object) (c : list Z) : quantifier_object :=
  {| estimator_train := estimator_train q; estimator_test := estimator_test q;
     needs_predictions_train := needs_predictions_train q; probabilistic := probabilistic q;
     predictions_train_ := predictions_train_ q; predictions_test_ := predictions_test_ q;
     classes_ := Some c; y_ext_ := y_ext_ q |}.
Definition with_train (q : quantifier_object) (p : predictions) (y : option (list Z)) : quantifier_object :=
  {| estimator_train := estimator_train q; estimator_test := estimator_test q;
     needs_predictions_train := needs_predictions_train q; probabilistic := probabilistic q;
     predictions_train_ := Some p; predictions_test_ := predictions_test_ q;
     classes_ := classes_ q; y_ext_ := y |}.
Definition with_test (q : quantifier_object) (p : predictions) : quantifier_object :=
  {| estimator_train := estimator_train q; estimator_test := estimator_test q;
     needs_predictions_train := needs_predictions_train q; probabilistic := probabilistic q;
     predictions_train_ := predictions_train_ q; predictions_test_ := Some p;
     classes_ := classes_ q; y_ext_ := y_ext_ q |}.

(** base.py:251-254 and 307-310: ask an estimator.  An estimator in place has been fitted before. *)
Definition ask {X M : Type} (A : nat -> algorithm X M) (w : world X M) (prob : bool) (e : nat) (x : list X) : out predictions :=
  match models w e with
  | None => Err NotFittedError
  | Some m => Val (if prob then Matrix (proba (A e) m x) else Labels (crisp (A e) m x))
  end.

(** base.py:162-265 UsingClassifiers.fit, for a non-empty 2-D array X: result, object, estimators.
    Lines 257-260 with [len(y) = 0] raise ZeroDivisionError and are not modelled. *)
Definition UC_fit {X M : Type} (A : nat -> algorithm X M) (q : quantifier_object) (w : world X M)
    (x : list X) (y : list Z) (given : option predictions) : out unit * quantifier_object * world X M :=
  let q := with_classes q (np_unique y) in
  let missing := match estimator_train q, given with None, None => true | _, _ => false end in
  if needs_predictions_train q && missing then (Err ValueError, q, w)
  else
    match ensure_fitted A w (estimator_train q) x y with
    | Err e => (Err e, q, w)
    | NotANumber => (NotANumber, q, w)
    | Val w1 =>
        match ensure_fitted A w1 (estimator_test q) x y with
        | Err e => (Err e, q, w1)
        | NotANumber => (NotANumber, q, w1)
        | Val w2 =>
            if needs_predictions_train q then
              let p := match given with
                       | Some p => if probabilistic q then Val p else probs2crisps (np_unique y) p
                       | None => match estimator_train q with
                                 | Some e => ask A w2 (probabilistic q) e x
                                 | None => Err AttributeError
                                 end
                       end in
              match p with
              | Val p => (Val tt, with_train q p (Some (y_ext y (n_predictions p))), w2)
              | Err e => (Err e, q, w2)
              | NotANumber => (NotANumber, q, w2)
              end
            else (Val tt, q, w2)
        end
    end.

(** base.py:267-315 UsingClassifiers.predict.  Before any fit, classes_ is None and __probs2crisps
    fails on a matrix (347; a one-column matrix is not distinguished here).  check_array(X) is not modelled. *)
Definition UC_predict {X M : Type} (A : nat -> algorithm X M) (q : quantifier_object) (w : world X M)
    (x : list X) (given : option predictions) : out unit * quantifier_object :=
  let p := match given, estimator_test q with
           | None, None => Err ValueError
           | Some p, _ => if probabilistic q then Val p
                          else match classes_ q with
                               | Some c => probs2crisps c p
                               | None => match p with Matrix _ => Err AttributeError | _ => probs2crisps [] p end
                               end
           | None, Some e => ask A w (probabilistic q) e x
           end in
  match p with
  | Val p => (Val tt, with_test q p)
  | Err e => (Err e, q)
  | NotANumber => (NotANumber, q)
  end.
