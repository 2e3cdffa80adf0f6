(** * Double precision: the arithmetic of the library as the machine does it.

    The other models compute with real numbers.  Here a number is an IEEE 754 double (with infinities and NaN), as
    formalised by Flocq, and every operation rounds to nearest, ties to even. *)

From Coq Require Import ZArith List Bool Permutation.
From Flocq Require Import Core BinarySingleNaN.
From Verif Require Import Num M_Baselines.
Import ListNotations.

(** numpy's float64.  NaN payloads are not modelled. *)
Definition float := binary_float 53 1024.
Definition prec_pos : Prec_gt_0 53 := eq_refl.
Definition prec_small : Prec_lt_emax 53 1024 := eq_refl.

Definition fadd (x y : float) : float := @Bplus 53 1024 prec_pos prec_small mode_NE x y.
Definition fsub (x y : float) : float := @Bminus 53 1024 prec_pos prec_small mode_NE x y.
Definition fmul (x y : float) : float := @Bmult 53 1024 prec_pos prec_small mode_NE x y.
Definition fdiv (x y : float) : float := @Bdiv 53 1024 prec_pos prec_small mode_NE x y.
Definition fsqrt (x : float) : float := @Bsqrt 53 1024 prec_pos prec_small mode_NE x.
Definition fabs (x : float) : float := Babs x.
(** Comparisons are false on NaN. *)
Definition flt (x y : float) : bool := Bltb x y.
Definition fle (x y : float) : bool := Bleb x y.

(** An integer converted to float64. *)
Definition of_Z (z : Z) : float := binary_normalize 53 1024 prec_pos prec_small mode_NE z 0 false.
Definition of_nat (n : nat) : float := of_Z (Z.of_nat n).
Definition f0 : float := of_Z 0.
Definition f1 : float := of_Z 1.
Definition f2 : float := of_Z 2.
(** The literal 0.001, which is the double nearest to 1/1000. *)
Definition f_001 : float := fdiv f1 (of_Z 1000).

(** np.maximum, np.minimum (NaN wins) and np.clip(x, 0, 1). *)
Definition fmax (x y : float) : float := if is_nan x then x else if is_nan y then y else if flt x y then y else x.
Definition fmin (x y : float) : float := if is_nan x then x else if is_nan y then y else if flt y x then y else x.
Definition fclip (x : float) : float := fmin (fmax x f0) f1.

(** np.sum is an argument of the models: numpy chooses the order of the additions.  This is the plain one. *)
Definition left_to_right (l : list float) : float := fold_left fadd l f0.

(** np.mean *)
Definition fmean (np_sum : list float -> float) (l : list float) : float := fdiv (np_sum l) (of_nat (length l)).

(** Column j of a matrix; Simplification: a row that is too short counts as 0 there (numpy has no such matrices). *)
Definition fcol (j : nat) (rows : list (list float)) : list float := map (fun r => nth j r f0) rows.

(** cc.py:134-145 CC.predict, and the prevalences_0 of ac.py:225-231 and knn.py:151-157 *)
Definition CC_float (classes : list Z) (preds : list Z) : list float :=
  map (fun c => fdiv (of_nat (zcount c preds)) (of_nat (length preds))) classes.

(** cc.py:261 PCC.predict, and the prevalences_0 of ac.py:482, with k classes *)
Definition PCC_float (np_sum : list float -> float) (k : nat) (rows : list (list float)) : list float :=
  map (fun j => fmean np_sum (fcol j rows)) (seq 0 k).

(** [prevalences / float(np.sum(prevalences))] when the sum is positive: ac.py:243-244, 495-496, debias.py:189-190,
    knn.py:169-170, decomposition/multiclass.py:200-201 *)
Definition normalise_float (np_sum : list float -> float) (l : list float) : list float :=
  let s := np_sum l in if flt f0 s then map (fun x => fdiv x s) l else l.

(** ac.py:233-246 and 484-498, knn.py:159-172: [fpr] and [tpr] are cm_[0, 1] and cm_[1, 1], [p0] is prevalences_0 *)
Definition binary_float_adjust (np_sum : list float -> float) (fpr tpr : float) (p0 : list float) : list float :=
  let prevalences :=
    if flt f_001 (fabs (fsub tpr fpr))
    then let p := fdiv (fsub (nth 1 p0 f0) fpr) (fsub tpr fpr) in [fsub f1 p; p]
    else p0 in
  normalise_float np_sum (map fclip prevalences).

(** ac.py:161-163, knn.py:105-107: cm_[i, j] of a row-normalised confusion matrix.  The row sum is exact: it is an
    integer. *)
Definition cm_float (classes : list Z) (y_true y_pred : list Z) (c d : Z) : float :=
  fdiv (of_nat (pair_count c d y_true y_pred))
       (of_nat (list_sum (map (fun d' => pair_count c d' y_true y_pred) classes))).

(** ac.py:154-174, 220-246 AC fitted with labels [y] (y_ext_) and predictions [preds_train], two classes *)
Definition AC_float (np_sum : list float -> float) (c0 c1 : Z) (y preds_train preds : list Z) : list float :=
  binary_float_adjust np_sum (cm_float [c0; c1] y preds_train c0 c1) (cm_float [c0; c1] y preds_train c1 c1)
    (CC_float [c0; c1] preds).

(** ac.py:407-418, 476-498 PAC, two classes *)
Definition PAC_float (np_sum : list float -> float) (c0 c1 : Z) (y : list Z) (preds_train preds : list (list float)) : list float :=
  binary_float_adjust np_sum (fmean np_sum (fcol 1 (select c0 y preds_train))) (fmean np_sum (fcol 1 (select c1 y preds_train)))
    (PCC_float np_sum 2 preds).

(** debias.py:141-144 fit: train_prevs_ and Vt_ *)
Definition DeBias_fit_float (np_sum : list float -> float) (c0 c1 : Z) (y : list Z) (preds_train : list (list float)) : float * float :=
  let p0 := fdiv (of_nat (zcount c0 y)) (of_nat (length y)) in
  let p1 := fdiv (of_nat (zcount c1 y)) (of_nat (length y)) in
  let At := fmean np_sum (map (fun x => let d := fsub x p1 in fmul d d) (fcol 1 preds_train)) in
  (p1, fdiv At (fmul p1 p0)).
(** debias.py:184-195 predict *)
Definition DeBias_float (np_sum : list float -> float) (fit : float * float) (preds : list (list float)) : list float :=
  let '(p1, Vt) := fit in
  let p := fadd p1 (fdiv (fsub (fmean np_sum (fcol 1 preds)) p1) Vt) in
  normalise_float np_sum (map fclip [fsub f1 p; p]).
