(** * Double precision, continued: the methods that divide by a sum, and EM. *)

From Coq Require Import ZArith List Bool.
From Flocq Require Import Core BinarySingleNaN.
From Verif Require Import Num M_Float M_Float2.
Import ListNotations.

(** ac.py:249-254, 501-506 AC and PAC with more than two classes: [v] is [inv_cm.dot(prevalences_0)].  Python's own
    [sum] adds from left to right. *)
Definition AC_inverse_float (v : list float) : list float :=
  let w := map (fun x => if flt x f0 then f0 else x) v in
  let s := left_to_right w in
  map (fun x => fdiv x s) w.

(** decomposition/multiclass.py:200-203 OneVsRestQuantifier.predict, from the estimates of the quantifiers *)
Definition OneVsRest_float (np_sum : list float -> float) (l : list float) : list float := normalise_float np_sum l.

(** ordinal/pdf.py:276-280 PDF.predict with EMD, from the answer of the solver *)
Definition PDF_float (np_sum : list float -> float) (l : list float) : list float := normalise_float np_sum (map fclip l).

(** multiclass/regression.py:235-237 REG.predict, more than two classes, from the answers of the regressors *)
Definition REG_multi_float (np_sum : list float -> float) (l : list float) : list float :=
  let c := map fclip l in map (fun x => fdiv x (np_sum c)) c.

(** eoq.py:505-507 EoQ.predict, strategy 'mean'; [rows] are the estimates of the members.  The sums along the members
    ([axis_sum]) and along the classes ([np_sum]) may be done in different orders. *)
Definition EoQ_mean_float (axis_sum np_sum : list float -> float) (k : nat) (rows : list (list float)) : list float :=
  let m := PCC_float axis_sum k rows in map (fun x => fdiv x (np_sum m)) m.

(** metrics/multiclass.py:86-107 mean_absolute_error (after its checks) *)
Definition mae_float (np_sum : list float -> float) (p q : list float) : float := fmean np_sum (fmap2 (fun a b => fabs (fsub b a)) p q).

(** em.py:137-141 fit: prevalences_train_ *)
Definition EM_train_float (classes y : list Z) : list float :=
  map (fun c => fdiv (of_nat (zcount c y)) (of_nat (length y))) classes.
(** em.py:197-199, for one example *)
Definition EM_posterior_float (np_sum : list float -> float) (train p x : list float) : list float :=
  let w := fmap2 fmul x (fmap2 fdiv p train) in
  map (fun a => fdiv a (np_sum w)) w.
(** em.py:197-202, one round *)
Definition EM_step_float (axis_sum np_sum : list float -> float) (train : list float) (preds : list (list float)) (p : list float) : list float :=
  PCC_float axis_sum (length train) (map (EM_posterior_float np_sum train p) preds).
(** em.py:194-204, the loop; [left] is [max_iter_ - iterations] *)
Fixpoint EM_loop_float (axis_sum np_sum : list float -> float) (epsilon : float) (train : list float) (preds : list (list float))
    (left iterations : nat) (p prev : list float) : list float :=
  match left with
  | O => p
  | S m =>
      if flt epsilon (mae_float np_sum p prev) || Nat.ltb iterations 10
      then EM_loop_float axis_sum np_sum epsilon train preds m (S iterations) (EM_step_float axis_sum np_sum train preds p) p
      else p
  end.
(** em.py:190-211 predict *)
Definition EM_float (axis_sum np_sum : list float -> float) (epsilon : float) (max_iter : nat) (train : list float)
    (preds : list (list float)) : list float :=
  EM_loop_float axis_sum np_sum epsilon train preds max_iter 0 train (map (fun _ => f1) train).
