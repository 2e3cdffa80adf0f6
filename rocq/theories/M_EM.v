(** * Model of multiclass/em.py. *)

From Coq Require Import Reals List ZArith Bool.
From Verif Require Import Num M_Metrics.
Import ListNotations.
Open Scope R_scope.

(** em.py:133-143 EM.fit: the training prevalences, from the labels only. *)
Definition EM_fit (y : list Z) : out (list R) :=
  match y with
  | [] => NotANumber
  | _ => Val (map (fun c => INR (zcount c y) / INR (length y)) (np_unique y))
  end.

(** em.py:197 one row of [predictions_test_ * (prevalences / prevalences_train_)]. *)
Definition em_reweight (train prev row : list R) : list R :=
  vmap2 Rmult row (vmap2 Rdiv prev train).

Definition is_zero (x : R) : bool := if Req_EM_T x 0 then true else false.

(** em.py:197-202 one iteration: reweight the posteriors, normalise every row, and
    average the rows.  A training prevalence 0 or a row with sum 0 gives NaN in every column; so does
    an empty bag.  Simplification: predictions have as many columns as there are classes. *)
Definition em_step (train : list R) (preds : list (list R)) (prev : list R) : out (list R) :=
  if existsb is_zero train then NotANumber
  else if existsb (fun row => is_zero (rsum (em_reweight train prev row))) preds then NotANumber
  else match preds with
       | [] => NotANumber
       | _ => Val (col_means (length train)
                (map (fun row => let w := em_reweight train prev row in vdiv w (rsum w)) preds))
       end.

(** em.py:194-204 the loop; [left] = max_iter_ - iterations.  The loop condition calls
    mean_absolute_error, whose check_array raises ValueError on NaN (multiclass.py:42-43).
    The result carries the number of iterations done. *)
Fixpoint em_loop (eps : R) (train : list R) (preds : list (list R))
    (left iterations : nat) (prev prev_prev : list R) : out (list R * nat) :=
  match left with
  | O => Val (prev, iterations)
  | S left' =>
      obind (mean_absolute_error (vec prev) (vec prev_prev)) (fun d =>
        if (if Rlt_dec eps d then true else false) || Nat.ltb iterations 10 then
          match em_step train preds prev with
          | Val next => em_loop eps train preds left' (S iterations) next prev
          | Err e => Err e
          | NotANumber => match left' with O => NotANumber | S _ => Err ValueError end
          end
        else Val (prev, iterations))
  end.

(** em.py:184-212 EM.predict. *)
Definition EM_run (eps : R) (max_iter : nat) (train : list R) (preds : list (list R)) : out (list R * nat) :=
  em_loop eps train preds max_iter 0 train (repeat 1 (length train)).

Definition EM_predict (eps : R) (max_iter : nat) (train : list R) (preds : list (list R)) : out (list R) :=
  omap fst (EM_run eps max_iter train preds).
