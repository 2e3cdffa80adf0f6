(** * Model of estimators/cross_validation.py, estimators/ensembles.py and estimators/weighted_knn.py. *)

From Coq Require Import Reals List ZArith Bool.
From Verif Require Import Num.
Import ListNotations.
Open Scope R_scope.

(** [l[idx]] for valid indexes. *)
Definition pick {A : Type} (l : list A) (idx : list nat) : list A :=
  flat_map (fun i => match nth_error l i with Some v => [v] | None => [] end) idx.

(** [l[i] = v]. *)
Fixpoint set_nth {A : Type} (i : nat) (v : A) (l : list A) : list A :=
  match l with
  | [] => []
  | h :: t => match i with O => v :: t | S i' => h :: set_nth i' v t end
  end.

(** A probabilistic learning algorithm: [p_learn] is fit, [p_row] what predict_proba answers for one example.
    Simplification: predict_proba treats the examples one by one. *)
Record learner (X M : Type) := { p_learn : list X -> list Z -> M; p_row : M -> X -> list R }.
Arguments p_learn {X M}. Arguments p_row {X M}.

(** ** CV_estimator *)

(** A fold: the training and the test part, as lists of positions. *)
Definition fold_t := (list nat * list nat)%type.

Record cv_fitted (X M : Type) := { cv_X : list X; cv_y : list Z; cv_classes : list Z; cv_estimators : list M }.
Arguments cv_X {X M}. Arguments cv_y {X M}. Arguments cv_classes {X M}. Arguments cv_estimators {X M}.

(** cross_validation.py:148-161 fit: [folds] is what cv.split returns to cross_validate.  check_cv is not modelled. *)
Definition CV_fit {X M : Type} (A : learner X M) (x : list X) (y : list Z) (folds : list fold_t) : cv_fitted X M :=
  {| cv_X := x; cv_y := y; cv_classes := np_unique y;
     cv_estimators := map (fun f => p_learn A (pick x (fst f)) (pick y (fst f))) folds |}.

(** [block[idx, :] = rows]. *)
Fixpoint put_rows (block : list (list R)) (idx : list nat) (rows : list (list R)) : list (list R) :=
  match idx, rows with
  | i :: idx', r :: rows' => put_rows (set_nth i r block) idx' rows'
  | _, _ => block
  end.

(** cross_validation.py:273-281: the loop over the folds.  IndexError when the estimators or the repetitions run out. *)
Fixpoint cv_loop {X M : Type} (A : learner X M) (x : list X) (n : nat) (models : list M) (tests : list (list nat))
    (n_rep n_preds : nat) (preds : list (list (list R))) {struct tests} : out (list (list (list R))) :=
  match tests with
  | [] => Val preds
  | test :: tests' =>
      match models with
      | [] => Err IndexError
      | m :: models' =>
          if Nat.ltb n_rep (length preds) then
            let preds' := set_nth n_rep (put_rows (nth n_rep preds []) test (map (p_row A m) (pick x test))) preds in
            let n_preds' := (n_preds + length test)%nat in
            if Nat.eqb n_preds' n then cv_loop A x n models' tests' (S n_rep) 0 preds'
            else cv_loop A x n models' tests' n_rep n_preds' preds'
          else Err IndexError
      end
  end.

(** cross_validation.py:263-288 _predict_proba.  [eqX] is np.array_equal; [folds1] and [folds2] are what the two calls of
    cv.split (268 and 275) return: the same folds as in fit if cv is deterministic, other ones if it shuffles without
    a fixed seed.  Rows of the wrong length (a fold without some class) and an empty X are not modelled. *)
Definition CV_raw {X M : Type} (A : learner X M) (eqX : list X -> list X -> bool) (s : cv_fitted X M)
    (folds1 folds2 : list fold_t) (x : list X) : out (list (list (list R))) :=
  let n := length x in
  let k := length (cv_classes s) in
  if eqX x (cv_X s) then
    let n_repeats := (list_sum (map (fun f => length (snd f)) folds1) / n)%nat in
    cv_loop A x n (cv_estimators s) (map snd folds2) 0 0 (repeat (repeat (repeat 0 k) n) n_repeats)
  else Val (map (fun m => map (p_row A m) x) (cv_estimators s)).

(** [np.mean(preds, axis=0)]: for each example, the mean of its rows; NaN when there is no repetition. *)
Definition mean_blocks (k n : nat) (preds : list (list (list R))) : out (list (list R)) :=
  match preds with
  | [] => NotANumber
  | _ => Val (map (fun e => col_means k (map (fun block => nth e block []) preds)) (seq 0 n))
  end.

(** cross_validation.py:233-242 predict_proba. *)
Definition CV_predict_proba {X M : Type} (A : learner X M) (eqX : list X -> list X -> bool) (averaged : bool)
    (s : cv_fitted X M) (folds1 folds2 : list fold_t) (x : list X) : out (list (list R)) :=
  match cv_estimators s with
  | [] => Err NotFittedError
  | _ => obind (CV_raw A eqX s folds1 folds2 x) (fun preds =>
         if averaged then mean_blocks (length (cv_classes s)) (length x) preds else Val (concat preds))
  end.

(** [np.bincount(votes, minlength=k)]. *)
Definition bincount (k : nat) (votes : list nat) : list R :=
  map (fun c => INR (count_occ Nat.eq_dec votes c)) (seq 0 k).

(** cross_validation.py:183-210 predict; [soft] is voting == 'soft'. *)
Definition CV_predict {X M : Type} (A : learner X M) (eqX : list X -> list X -> bool) (averaged soft : bool)
    (s : cv_fitted X M) (folds1 folds2 : list fold_t) (x : list X) : out (list Z) :=
  let label := fun i => nth i (cv_classes s) 0%Z in
  let k := length (cv_classes s) in
  match cv_estimators s with
  | [] => Err NotFittedError
  | _ => obind (CV_raw A eqX s folds1 folds2 x) (fun preds =>
         if averaged then
           if soft then omap (map (fun r => label (argmax r))) (mean_blocks k (length x) preds)
           else Val (map (fun e => label (argmax (bincount k (map (fun block => argmax (nth e block [])) preds))))
                         (seq 0 (length x)))
         else Val (map (fun r => label (argmax r)) (concat preds)))
  end.

(** ** EnsembleOfClassifiers *)

(** The objects: [heap r] is the model of the estimator object number r; the base estimator is object 0. *)
Record ensemble (M : Type) := { e_heap : nat -> option M; e_refs : option (list nat); e_classes : option (list Z) }.
Arguments e_heap {M}. Arguments e_refs {M}. Arguments e_classes {M}.

Definition heap_set {M : Type} (h : nat -> option M) (r : nat) (m : M) : nat -> option M :=
  fun r' => if Nat.eqb r' r then Some m else h r'.

(** ensembles.py:98-117 fit with a base estimator.  [in_process]: joblib runs the calls one after the other in the same
    process (n_jobs None or 1), so every base_estimator.fit changes, and returns, the same object.  Otherwise each call runs on
    a copy of it in another process and the fitted copies (objects 1, 2, ...) are returned.  A base_estimator of None
    raises ValueError and is not modelled. *)
Definition EoC_fit {X M : Type} (A : learner X M) (in_process : bool) (s : ensemble M) (x : list X) (y : list Z)
    (bags : list (list nat)) : ensemble M :=
  let trained := fun bag => p_learn A (pick x bag) (pick y bag) in
  match e_classes s, e_refs s with
  | None, None =>
      if in_process then
        {| e_heap := fold_left (fun h bag => heap_set h 0 (trained bag)) bags (e_heap s);
           e_refs := Some (repeat O (length bags)); e_classes := Some (np_unique y) |}
      else
        {| e_heap := fold_left (fun h p => heap_set h (fst p) (trained (snd p))) (combine (seq 1 (length bags)) bags) (e_heap s);
           e_refs := Some (seq 1 (length bags)); e_classes := Some (np_unique y) |}
  | _, _ => {| e_heap := e_heap s; e_refs := e_refs s; e_classes := Some (np_unique y) |}
  end.

(** ensembles.py:166-176 predict_proba: for each estimator, the rows it gives (axes 0 and 1 swapped).  Rows that do
    not have one entry per class of [classes_] do not fit in the array: ValueError (a row with a single entry, which
    numpy would repeat, is not distinguished). *)
Definition EoC_predict_proba {X M : Type} (A : learner X M) (s : ensemble M) (x : list X) : out (list (list (list R))) :=
  match e_classes s with
  | None => Err NotFittedError
  | Some classes =>
      match e_refs s with
      | None => Err TypeError
      | Some [] => Err IndexError
      | Some refs =>
          fold_right (fun r acc => match e_heap s r with
                                   | Some m => if forallb (fun row => Nat.eqb (length row) (length classes)) (map (p_row A m) x)
                                               then omap (cons (map (p_row A m) x)) acc
                                               else Err ValueError
                                   | None => Err NotFittedError
                                   end) (Val []) refs
      end
  end.

(** ** PWK *)

(** weighted_knn.py:105-109: the weight of each training example. *)
Definition PWK_weights (y : list Z) : list R :=
  map (fun c => 1 - INR (zcount c y) / INR (length y)) y.

(** weighted_knn.py:150-152: the total weight of the neighbours of class [c]. *)
Definition class_weight (y : list Z) (w : list R) (neighbours : list nat) (c : Z) : R :=
  rsum (map (fun i => nth i w 0) (filter (fun i => Z.eqb (nth i y 0%Z) c) neighbours)).

(** weighted_knn.py:146-159 predict_proba, one row, given the positions of the nearest neighbours. *)
Definition PWK_row (y : list Z) (neighbours : list nat) : list R :=
  let sums := map (class_weight y (PWK_weights y) neighbours) (np_unique y) in
  let normalizer := if Req_EM_T (rsum sums) 0 then 1 else rsum sums in
  vdiv sums normalizer.

(** sklearn.utils.extmath.weighted_mode, one row; [scores] are the labels that occur among the neighbours of any row. *)
Fixpoint weighted_mode (y : list Z) (w : list R) (neighbours : list nat) (scores : list Z) (best : Z) (best_count : R) : Z :=
  match scores with
  | [] => best
  | c :: t =>
      let count := class_weight y w neighbours c in
      if Rlt_dec best_count count then weighted_mode y w neighbours t c count
      else weighted_mode y w neighbours t best best_count
  end.

(** weighted_knn.py:127-131 predict: [all] are the neighbours of every row. *)
Definition PWK_predict (y : list Z) (all : list (list nat)) : list Z :=
  let scores := np_unique (map (fun i => nth i y 0%Z) (concat all)) in
  map (fun neighbours => weighted_mode y (PWK_weights y) neighbours scores 0 0) all.
