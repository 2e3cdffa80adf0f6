(** * Model of data_utils.py *)

From Coq Require Import Reals List ZArith Bool.
From Verif Require Import Num.
Import ListNotations.
Open Scope R_scope.

(** sklearn StandardScaler.fit: mean_ and scale_ of one column.  The variance is divided by n; a constant column gets the scale 1
    (in exact arithmetic; scikit-learn also treats columns as constant whose variance is at rounding level). *)
Definition column_mean (c : list R) : R := rmean c.
Definition column_var (c : list R) : R := rmean (map (fun v => (v - column_mean c) * (v - column_mean c)) c).
Definition column_scale (c : list R) : R := if Req_EM_T (column_var c) 0 then 1 else sqrt (column_var c).

(** data_utils.py:14-19 normalize: scaler.fit(X_train), then transform both.  scikit-learn's checks: ValueError if there are no
    examples, no attributes, or another number of attributes in X_test. *)
Definition scale_row (means scales : list R) (row : list R) : list R :=
  vmap2 (fun v s => v / s) (vmap2 (fun v m => v - m) row means) scales.
Definition normalize (x_train x_test : list (list R)) : out (list (list R) * list (list R)) :=
  match x_train, x_test with
  | [], _ | _, [] | [] :: _, _ => Err ValueError
  | first :: _, _ =>
      let k := length first in
      let means := map (fun j => column_mean (col j x_train)) (seq 0 k) in
      let scales := map (fun j => column_scale (col j x_train)) (seq 0 k) in
      if forallb (fun row => Nat.eqb (length row) k) x_test
      then Val (map (scale_row means scales) x_train, map (scale_row means scales) x_test)
      else Err ValueError
  end.

(** [astype(int)] of a finite number: towards zero. *)
Definition truncate (r : R) : Z := if Rlt_dec r 0 then (- Int_part (- r))%Z else Int_part r.

(** data_utils.py:22-27 load_data, given the numbers that genfromtxt reads.  A file with one line gives a one-dimensional
    array, on which [:, :-1] raises IndexError; so does an empty file.  Lines have the same length (genfromtxt raises ValueError
    otherwise); missing values (NaN) are not modelled.  With one number per line genfromtxt also returns a
    one-dimensional array. *)
Definition load_data (lines : list (list R)) : out (list (list R) * list Z) :=
  match lines with
  | [] | [_] => Err IndexError
  | first :: _ =>
      if forallb (fun row => Nat.eqb (length row) (length first)) lines then
        if Nat.leb (length first) 1 then Err IndexError
        else Val (map (fun row => removelast row) lines, map (fun row => truncate (last row 0)) lines)
      else Err ValueError
  end.
