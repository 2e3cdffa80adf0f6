(** * Model of base.py (labels side), baselines/cc.py, baselines/ac.py, binary/debias.py
    and the quantification part of multiclass/knn.py. *)

From Coq Require Import Reals List ZArith Bool.
From Verif Require Import Num.
Import ListNotations.
Open Scope R_scope.

(** base.py:257-260, [y_ext_]: the labels repeated as often as the predictions are longer.
    [len(y) = 0] (ZeroDivisionError) is not modelled: [n / 0 = 0] here, and no theorem uses it. *)
Definition y_ext (y : list Z) (n_preds : nat) : list Z :=
  if Nat.eqb (length y) n_preds then y else concat (repeat y (n_preds / length y)).

(** cc.py:136-140 and ac.py:227-231 and knn.py:153-157: frequencies of the classes among the
    predictions.  An empty bag gives 0/0 = NaN.
    Simplification: the (n,1) array is a list; [np.squeeze] of a single class (0-d array) is
    the one-element list. *)
Definition class_frequencies (classes : list Z) (preds : list Z) : out (list R) :=
  match preds with
  | [] => NotANumber
  | _ => Val (map (fun c => INR (zcount c preds) / INR (length preds)) classes)
  end.

(** cc.py:129-145 CC.predict, [preds] = predictions_test_. *)
Definition CC_predict (classes : list Z) (preds : list Z) : out (list R) :=
  class_frequencies classes preds.

(** cc.py:256-266 PCC.predict and ac.py:482: [np.mean(predictions_test_, axis=0)] for a bag of
    [k]-column rows.  The mean of an empty bag is NaN. *)
Definition mean_rows (k : nat) (preds : list (list R)) : out (list R) :=
  match preds with
  | [] => NotANumber
  | _ => Val (col_means k preds)
  end.

Definition PCC_predict (k : nat) (preds : list (list R)) : out (list R) := mean_rows k preds.

(** sklearn.metrics.confusion_matrix restricted to [labels] (called at ac.py:161, knn.py:105):
    how many examples of class [c] are predicted as [d]; predictions outside the
    labels are dropped. *)
Definition pair_count (c d : Z) (y_true y_pred : list Z) : nat :=
  length (filter (fun p => andb (Z.eqb (fst p) c) (Z.eqb (snd p) d)) (combine y_true y_pred)).

Definition confusion (classes : list Z) (y_true y_pred : list Z) : list (list R) :=
  map (fun c => map (fun d => INR (pair_count c d y_true y_pred)) classes) classes.

(** A row of the normalised confusion matrix; [None] is a row of NaN (0/0). *)
Definition norm_row (r : list R) : option (list R) :=
  if Req_EM_T (rsum r) 0 then None else Some (vdiv r (rsum r)).

(** ac.py:161-163 AC.fit (and knn.py:105-107 PWKQuantifier.fit): the confusion matrix,
    row-normalised.  confusion_matrix raises ValueError if the lengths differ.
    Not modelled: with more than two classes and distance L2, fit also computes the
    quadratic-program parameters (see M_Optim); on a NaN row that computation is not modelled. *)
Definition AC_fit (y : list Z) (preds_train : list Z) : out (list (option (list R))) :=
  let ye := y_ext y (length preds_train) in
  if Nat.eqb (length ye) (length preds_train)
  then Val (map norm_row (confusion (np_unique y) ye preds_train))
  else Err ValueError.

(** ac.py:413-418 PAC.fit: class-conditional mean predictions.  A boolean mask of the wrong length
    raises IndexError; the mean of an empty selection is NaN. *)
Definition class_mean (k : nat) (c : Z) (ye : list Z) (preds : list (list R)) : option (list R) :=
  match select c ye preds with
  | [] => None
  | rows => Some (col_means k rows)
  end.

Definition PAC_fit (y : list Z) (preds_train : list (list R)) : out (list (option (list R))) :=
  let ye := y_ext y (length preds_train) in
  let classes := np_unique y in
  if Nat.eqb (length ye) (length preds_train)
  then Val (map (fun c => class_mean (length classes) c ye preds_train) classes)
  else Err IndexError.

(** ac.py:233-246, ac.py:484-498 and knn.py:159-172: the binary correction, clip and
    normalisation.  A NaN in the confusion matrix makes the comparison false, hence the
    uncorrected prevalences are used. *)
Definition binary_adjust (cm : list (option (list R))) (p0 : list R) : list R :=
  let prevalences :=
    match cm with
    | Some r0 :: Some r1 :: _ =>
        let fpr := nth 1 r0 0 in
        let tpr := nth 1 r1 0 in
        if Rlt_dec (1/1000) (Rabs (tpr - fpr))
        then let p := (nth 1 p0 0 - fpr) / (tpr - fpr) in [1 - p; p]
        else p0
    | _ => p0
    end in
  let clipped := map clip01 prevalences in
  if Rlt_dec 0 (rsum clipped) then vdiv clipped (rsum clipped) else clipped.

Fixpoint all_some {A : Type} (l : list (option A)) : option (list A) :=
  match l with
  | [] => Some []
  | None :: _ => None
  | Some a :: t => match all_some t with Some t' => Some (a :: t') | None => None end
  end.

(** Entry (i,j) of a list of rows. *)
Definition entry (rows : list (list R)) (i j : nat) : R := nth j (nth i rows []) 0.

Inductive distance := HD | L2 | L1 | OtherDistance.

(** External solvers used by AC/PAC/PWKQuantifier.  [inv n A = None] is LinAlgError.  [solve d A p]
    stands for solve_hd / solve_l2 / solve_l1 on train distribution [A] and test distribution [p]
    (modelled in M_Optim). *)
Record solvers := {
  inv : nat -> (nat -> nat -> R) -> option (nat -> nat -> R);
  solve : distance -> nat -> (nat -> nat -> R) -> list R -> out (list R)
}.

(** [inv_cm.dot(prevalences_0)]. *)
Definition matvec (n : nat) (M : nat -> nat -> R) (v : list R) : list R :=
  tabulate n (fun i => sumn n (fun j => M i j * nth j v 0)).

(** ac.py:248-268 and ac.py:500-519: the correction by the inverse of [cm_.T]; negative values are
    set to 0, then division by the sum.  scipy.linalg.inv raises ValueError on NaN entries
    (check_finite) and LinAlgError on singular ones; the latter goes to the optimiser of the
    selected distance. *)
Definition multi_adjust (S : solvers) (dist : distance) (n : nat)
    (cm : list (option (list R))) (p0 : list R) : out (list R) :=
  match all_some cm with
  | None => Err ValueError
  | Some rows =>
      let cmT := fun i j => entry rows j i in
      match inv S n cmT with
      | Some M =>
          let v := map (fun x => if Rlt_dec x 0 then 0 else x) (matvec n M p0) in
          if Req_EM_T (rsum v) 0 then NotANumber else Val (vdiv v (rsum v))
      | None =>
          match dist with
          | OtherDistance => Err ValueError
          | d => solve S d n cmT p0
          end
      end
  end.

(** ac.py:220-273 AC.predict.  Simplification: on an empty bag (NaN frequencies) the outcome is
    NotANumber, also when the matrix is singular and a solver would receive the NaN. *)
Definition AC_predict (S : solvers) (dist : distance) (classes : list Z)
    (cm : list (option (list R))) (preds : list Z) : out (list R) :=
  obind (class_frequencies classes preds) (fun p0 =>
    if Nat.eqb (length classes) 2 then Val (binary_adjust cm p0)
    else multi_adjust S dist (length classes) cm p0).

(** ac.py:476-524 PAC.predict. *)
Definition PAC_predict (S : solvers) (dist : distance) (classes : list Z)
    (cm : list (option (list R))) (preds : list (list R)) : out (list R) :=
  obind (mean_rows (length classes) preds) (fun p0 =>
    if Nat.eqb (length classes) 2 then Val (binary_adjust cm p0)
    else multi_adjust S dist (length classes) cm p0).

(** knn.py:146-180 PWKQuantifier.predict on the labels given by the nearest-neighbour
    classifier; with more than two classes it always solves the L1 problem. *)
Definition PWKQ_predict (S : solvers) (classes : list Z)
    (cm : list (option (list R))) (preds : list Z) : out (list R) :=
  obind (class_frequencies classes preds) (fun p0 =>
    if Nat.eqb (length classes) 2 then Val (binary_adjust cm p0)
    else match all_some cm with
         | None => NotANumber
         | Some rows => solve S L1 (length classes) (fun i j => entry rows j i) p0
         end).

(** debias.py:141-144: state of a fitted DeBias: the prevalence of the second class, and Vt. *)
Record debias := { db_prev1 : R; db_Vt : R }.

(** debias.py:133-149 DeBias.fit; column 1 of the training predictions. *)
Definition DeBias_fit (y : list Z) (preds_train : list (list R)) : out debias :=
  match np_unique y with
  | [c0; c1] =>
      let p0 := INR (zcount c0 y) / INR (length y) in
      let p1 := INR (zcount c1 y) / INR (length y) in
      match preds_train with
      | [] => NotANumber
      | _ =>
          let At := rmean (map (fun r => (nth 1 r 0 - p1) ^ 2) preds_train) in
          Val {| db_prev1 := p1; db_Vt := At / (p1 * p0) |}
      end
  | _ => Err AttributeError
  end.

(** debias.py:179-195 DeBias.predict.  With Vt = 0 the division gives NaN (0/0) or an infinity of
    the sign of the numerator, which the clip turns into 0 or 1. *)
Definition DeBias_predict (s : debias) (preds : list (list R)) : out (list R) :=
  match preds with
  | [] => NotANumber
  | _ =>
      let num := rmean (col 1 preds) - db_prev1 s in
      if Req_EM_T (db_Vt s) 0
      then if Req_EM_T num 0 then NotANumber
           else if Rlt_dec 0 num then Val [0; 1] else Val [1; 0]
      else let p := db_prev1 s + num / db_Vt s in
           let clipped := map clip01 [1 - p; p] in
           if Rlt_dec 0 (rsum clipped) then Val (vdiv clipped (rsum clipped)) else Val clipped
  end.
