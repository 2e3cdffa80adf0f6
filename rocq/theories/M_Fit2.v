(** * Model of CC, PCC, PAC, DeBias and EM as objects on which any call may raise (C125). *)

From Coq Require Import Reals List ZArith Bool.
From Verif Require Import Num M_Baselines M_Base M_Optim M_EM M_History M_Fit.
Import ListNotations.
Open Scope R_scope.

(** The attributes of base.py:147-160 when they are new. *)
Definition new_base (est_train est_test : option nat) (needs prob : bool) : quantifier_object :=
  {| estimator_train := est_train; estimator_test := est_test; needs_predictions_train := needs; probabilistic := prob;
     predictions_train_ := None; predictions_test_ := None; classes_ := None; y_ext_ := None |}.

(** Predictions as rows: a 1-D array counts as one column (np.mean(.., axis=0) is then one number). *)
Definition as_rows (p : predictions) : list (list R) :=
  match p with
  | Labels l => map (fun z => [IZR z]) l
  | Scores l => map (fun v => [v]) l
  | Matrix rows => rows
  end.
(** The number of columns.  (All the rows of an array have the same length.) *)
Definition width (rows : list (list R)) : nat := length (hd [] rows).

(** ** CC and PCC *)

(** cc.py:77-79 and 206-208 __init__ *)
Definition CC_new (est_test : option nat) : quantifier_object := new_base None est_test false false.
Definition PCC_new (est_test : option nat) : quantifier_object := new_base None est_test false true.

(** cc.py:81-98 and 210-226 fit: only the base class. *)
Definition CC_object_fit {X M : Type} (A : nat -> algorithm X M) (x : list X) (y : list Z) (q : quantifier_object) (w : world X M)
  : out unit * quantifier_object * world X M := UC_fit A q w x y (Some (Labels [])).

(** cc.py:100-145 predict; len(None) raises TypeError. *)
Definition CC_object_predict {X M : Type} (A : nat -> algorithm X M) (x : list X) (given : option predictions)
    (q : quantifier_object) (w : world X M) : quantifier_object * out (list R) :=
  match UC_predict A q w x given with
  | (Val tt, q) => (q, match classes_ q with
                       | None => Err TypeError
                       | Some classes => CC_predict classes (labels_in (predictions_test_ q))
                       end)
  | (Err e, q) => (q, Err e)
  | (NotANumber, q) => (q, NotANumber)
  end.

(** cc.py:228-266 predict: classes_ is not used. *)
Definition PCC_object_predict {X M : Type} (A : nat -> algorithm X M) (x : list X) (given : option predictions)
    (q : quantifier_object) (w : world X M) : quantifier_object * out (list R) :=
  match UC_predict A q w x given with
  | (Val tt, q) => (q, match predictions_test_ q with
                       | None => Err TypeError
                       | Some p => PCC_predict (width (as_rows p)) (as_rows p)
                       end)
  | (Err e, q) => (q, Err e)
  | (NotANumber, q) => (q, NotANumber)
  end.

(** ** PAC *)

(** ac.py:373-383 __init__ *)
Definition PAC_new (est_train est_test : option nat) : ac_object :=
  {| ao_base := new_base est_train est_test true true; ao_adjuster := unfitted_adjuster |}.

(** ac.py:416: cm_ = zeros, with (G_, C_, b_) and problem_ as they were. *)
Definition zeroed (n : nat) (a : adjuster) : adjuster :=
  {| aj_classes := aj_classes a; aj_cm := repeat (Some (repeat 0 n)) n; aj_l2 := aj_l2 a; aj_problem := aj_problem a |}.

(** numpy's assignment of a row: one number fills a row of any length. *)
Definition broadcast (n : nat) (row : list R) : list R := match row with [v] => repeat v n | _ => row end.

(** ac.py:385-428 fit.  The first pass of the loop at 417 raises if any does: IndexError if the lengths of y_ext_ and of the
    predictions differ, ValueError if the number of columns is neither 1 nor the number of classes; cm_ is then all zeros. *)
Definition PAC_object_fit {X M : Type} (A : nat -> algorithm X M) (N : numerics) (fuel : nat) (dist : distance)
    (x : list X) (y : list Z) (given : option predictions) (s : ac_object) (w : world X M)
  : out unit * ac_object * world X M :=
  match UC_fit A (ao_base s) w x y given with
  | (Val tt, q, w) =>
      let n := length (np_unique y) in
      match predictions_train_ q with
      | Some p =>
          let rows := as_rows p in
          let ye := y_ext y (length rows) in
          if negb (Nat.eqb (length ye) (length rows))
          then (Err IndexError, {| ao_base := q; ao_adjuster := zeroed n (ao_adjuster s) |}, w)
          else if Nat.eqb (width rows) n || Nat.eqb (width rows) 1 || Nat.eqb (length rows) 0
          then (Val tt, {| ao_base := q; ao_adjuster := assign_adjuster N fuel dist y (ao_adjuster s)
                  (map (fun c => option_map (broadcast n) (class_mean (width rows) c ye rows)) (np_unique y)) |}, w)
          else (Err ValueError, {| ao_base := q; ao_adjuster := zeroed n (ao_adjuster s) |}, w)
      | None => (Err TypeError, {| ao_base := q; ao_adjuster := zeroed n (ao_adjuster s) |}, w)
      end
  | (Err e, q, w) => (Err e, {| ao_base := q; ao_adjuster := ao_adjuster s |}, w)
  | (NotANumber, q, w) => (NotANumber, {| ao_base := q; ao_adjuster := ao_adjuster s |}, w)
  end.

(** ac.py:430-524 predict.  Simplification: test predictions without one column per class count as ValueError. *)
Definition PAC_object_predict {X M : Type} (A : nat -> algorithm X M) (inv : nat -> matrix -> option matrix) (N : numerics)
    (cvx : cvx_solver) (dist : distance) (x : list X) (given : option predictions) (s : ac_object) (w : world X M)
  : ac_object * out (list R) :=
  let a := ao_adjuster s in
  match UC_predict A (ao_base s) w x given with
  | (Val tt, q) =>
      match classes_ q, predictions_test_ q with
      | Some classes, Some p =>
          match cm_problem (length classes) (aj_cm a) with
          | Some e => ({| ao_base := q; ao_adjuster := a |}, Err e)
          | None =>
              if Nat.eqb (width (as_rows p)) (length classes) || Nat.eqb (length (as_rows p)) 0 then
                let current := {| aj_classes := classes_ q; aj_cm := aj_cm a; aj_l2 := aj_l2 a; aj_problem := aj_problem a |} in
                let '(a, r) := adjuster_predict inv N cvx dist (fun classes => mean_rows (length classes) (as_rows p)) current in
                ({| ao_base := q; ao_adjuster := a |}, r)
              else ({| ao_base := q; ao_adjuster := a |}, Err ValueError)
          end
      | _, _ => ({| ao_base := q; ao_adjuster := a |}, Err TypeError)
      end
  | (Err e, q) => ({| ao_base := q; ao_adjuster := a |}, Err e)
  | (NotANumber, q) => ({| ao_base := q; ao_adjuster := a |}, NotANumber)
  end.

(** ** DeBias *)

(** debias.py:97-103.  [dbo_prev1]: train_prevs_[1], if train_prevs_ is not None.  [dbo_Vt]: what an expression "../Vt_" meets:
    TypeError (Vt_ is None), NaN, or the number. *)
Record debias_object := { dbo_base : quantifier_object; dbo_prev1 : option R; dbo_Vt : out R }.
Definition DeBias_new (est_train est_test : option nat) : debias_object :=
  {| dbo_base := new_base est_train est_test true true; dbo_prev1 := None; dbo_Vt := Err TypeError |}.

(** Column 1 of an array: IndexError if it is 1-D or has fewer than two columns. *)
Definition has_second_column (p : predictions) : bool :=
  match p with Matrix [] => true | Matrix rows => Nat.leb 2 (width rows) | _ => false end.

(** debias.py:105-149 fit: train_prevs_ is assigned (141) before the column of the predictions is taken (143). *)
Definition DeBias_object_fit {X M : Type} (A : nat -> algorithm X M) (x : list X) (y : list Z) (given : option predictions)
    (s : debias_object) (w : world X M) : out unit * debias_object * world X M :=
  match np_unique y with
  | [c0; c1] =>
      match UC_fit A (dbo_base s) w x y given with
      | (Val tt, q, w) =>
          let p1 := INR (zcount c1 y) / INR (length y) in
          match predictions_train_ q with
          | Some p =>
              if has_second_column p
              then (Val tt, {| dbo_base := q; dbo_prev1 := Some p1; dbo_Vt := omap db_Vt (DeBias_fit y (as_rows p)) |}, w)
              else (Err IndexError, {| dbo_base := q; dbo_prev1 := Some p1; dbo_Vt := dbo_Vt s |}, w)
          | None => (Err TypeError, {| dbo_base := q; dbo_prev1 := Some p1; dbo_Vt := dbo_Vt s |}, w)
          end
      | (Err e, q, w) => (Err e, {| dbo_base := q; dbo_prev1 := dbo_prev1 s; dbo_Vt := dbo_Vt s |}, w)
      | (NotANumber, q, w) => (NotANumber, {| dbo_base := q; dbo_prev1 := dbo_prev1 s; dbo_Vt := dbo_Vt s |}, w)
      end
  | _ => (Err AttributeError, s, w)
  end.

(** debias.py:151-195 predict *)
Definition DeBias_object_predict {X M : Type} (A : nat -> algorithm X M) (x : list X) (given : option predictions)
    (s : debias_object) (w : world X M) : debias_object * out (list R) :=
  let after q := {| dbo_base := q; dbo_prev1 := dbo_prev1 s; dbo_Vt := dbo_Vt s |} in
  match UC_predict A (dbo_base s) w x given with
  | (Val tt, q) =>
      (after q, match dbo_prev1 s, predictions_test_ q with
                | Some p1, Some p =>
                    if has_second_column p
                    then obind (dbo_Vt s) (fun v => DeBias_predict {| db_prev1 := p1; db_Vt := v |} (as_rows p))
                    else Err IndexError
                | _, _ => Err TypeError
                end)
  | (Err e, q) => (after q, Err e)
  | (NotANumber, q) => (after q, NotANumber)
  end.

(** ** EM *)

(** em.py:103-108 *)
Record em_object := { emo_base : quantifier_object; emo_train : option (list R) }.
Definition EM_new (est_train est_test : option nat) : em_object :=
  {| emo_base := new_base est_train est_test true true; emo_train := None |}.

(** em.py:110-143 fit *)
Definition EM_object_fit {X M : Type} (A : nat -> algorithm X M) (x : list X) (y : list Z) (given : option predictions)
    (s : em_object) (w : world X M) : out unit * em_object * world X M :=
  match UC_fit A (emo_base s) w x y given with
  | (Val tt, q, w) =>
      match EM_fit y with
      | Val train => (Val tt, {| emo_base := q; emo_train := Some train |}, w)
      | Err e => (Err e, {| emo_base := q; emo_train := emo_train s |}, w)
      | NotANumber => (NotANumber, {| emo_base := q; emo_train := emo_train s |}, w)
      end
  | (Err e, q, w) => (Err e, {| emo_base := q; emo_train := emo_train s |}, w)
  | (NotANumber, q, w) => (NotANumber, {| emo_base := q; emo_train := emo_train s |}, w)
  end.

(** em.py:145-212 predict.  Simplifications: test predictions without one column per training prevalence count as ValueError;
    prevalences_train_ None counts as TypeError also with max_iter = 0 (where a 0-d array of None is returned). *)
Definition EM_object_predict {X M : Type} (A : nat -> algorithm X M) (eps : R) (max_iter : nat) (x : list X) (given : option predictions)
    (s : em_object) (w : world X M) : em_object * out (list R) :=
  let after q := {| emo_base := q; emo_train := emo_train s |} in
  match UC_predict A (emo_base s) w x given with
  | (Val tt, q) =>
      (after q, match classes_ q, emo_train s, predictions_test_ q with
                | Some classes, Some train, Some p =>
                    if Nat.eqb (width (as_rows p)) (length train) || Nat.eqb (length (as_rows p)) 0
                    then omap fst (em_loop eps train (as_rows p) max_iter 0 train (repeat 1 (length classes)))
                    else Err ValueError
                | _, _, _ => Err TypeError
                end)
  | (Err e, q) => (after q, Err e)
  | (NotANumber, q) => (after q, NotANumber)
  end.
