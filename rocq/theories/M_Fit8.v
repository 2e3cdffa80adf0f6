(** * Model of SORDy as an object on which any call may raise (C136). *)

From Coq Require Import Reals List ZArith Bool.
From Verif Require Import Num M_Baselines M_Base M_Estimators M_Search M_Optim M_Fit M_Fit2.
Import ListNotations.
Open Scope R_scope.

(** binary/emd.py:108-117: the attributes of the base class, train_distrib_ and train_labels_.  union_distrib_ and union_labels_ are
    written by predict before they are read. *)
Record sord_object := {
  so_base : quantifier_object;
  so_scores : option (list R);
  so_labels : option (list Z)
}.

(** binary/emd.py:108-117 __init__ *)
Definition SORDy_new (est_train est_test : option nat) : sord_object :=
  {| so_base := new_base est_train est_test true true; so_scores := None; so_labels := None |}.

Definition so_with_base (q : quantifier_object) (s : sord_object) : sord_object :=
  {| so_base := q; so_scores := so_scores s; so_labels := so_labels s |}.

(** binary/emd.py:119-158 fit: the base class first (its classes_ stays assigned when something raises); more than two classes raise
    TypeError (144); no column 1, IndexError (151); train_distrib_ is assigned (152) before y_ext_[indx] (153), which raises IndexError
    if there are fewer labels than predictions. *)
Definition SORDy_object_fit {X M : Type} (A : nat -> algorithm X M) (argsort : list R -> list nat) (x : list X) (y : list Z)
    (given : option predictions) (s : sord_object) (w : world X M) : out unit * sord_object * world X M :=
  match UC_fit A (so_base s) w x y given with
  | (Val tt, q, w) =>
      if Nat.ltb 2 (length (np_unique y)) then (Err TypeError, so_with_base q s, w)
      else match predictions_train_ q with
      | None => (Err TypeError, so_with_base q s, w)
      | Some p =>
          if has_second_column p then
            let c := col 1 (as_rows p) in
            let scores := pick c (argsort c) in
            match pick_checked (y_ext y (length c)) (argsort c) with
            | Val l => (Val tt, {| so_base := q; so_scores := Some scores; so_labels := Some l |}, w)
            | Err e => (Err e, {| so_base := q; so_scores := Some scores; so_labels := so_labels s |}, w)
            | NotANumber => (NotANumber, {| so_base := q; so_scores := Some scores; so_labels := so_labels s |}, w)
            end
          else (Err IndexError, so_with_base q s, w)
      end
  | (Err e, q, w) => (Err e, so_with_base q s, w)
  | (NotANumber, q, w) => (NotANumber, so_with_base q s, w)
  end.

(** search.py:338-345 compute_sord_weights with any number of (different) classes: the first one gets 1 - prevalence, each of the others
    the prevalence; a class without examples changes nothing; the largest label, whatever it is, is taken for that of the test examples. *)
Definition sord_weights_of (prevalence : R) (labels classes : list Z) : list R :=
  map (fun c => if Z.eqb c (zmax labels) then - 1 / INR (zcount (zmax labels) labels)
                else match classes with
                     | [] => 0
                     | c0 :: others => if Z.eqb c c0 then (1 - prevalence) / INR (zcount c labels)
                                       else if existsb (Z.eqb c) others then prevalence / INR (zcount c labels)
                                       else 0
                     end) labels.

(** binary/emd.py:202-221.  union_labels_[indx] raises IndexError if train_labels_ is too short for train_distrib_; if it is too long,
    the labels are read at shifted positions. *)
Definition SORDy_answer (argsort : list R -> list nat) (tol : R) (classes : list Z) (scores : list R) (labels : list Z) (test : list R)
  : out (list R) :=
  let union := scores ++ test in
  match pick_checked (labels ++ repeat (zmax classes + 1)%Z (length test)) (argsort union) with
  | Val l => omap (fun r => [1 - snd r; snd r])
               (golden_section_search (fun p => sord (sord_weights_of p l classes) (pick union (argsort union))) tol 0 1)
  | Err e => Err e
  | NotANumber => NotANumber
  end.

(** binary/emd.py:160-221 predict.  Without classes_, train_distrib_ or train_labels_ numpy raises, in 203, 205, 208 or (np.max of None
    and numbers) in search.py:344; TypeError stands for what it raises. *)
Definition SORDy_object_predict {X M : Type} (A : nat -> algorithm X M) (argsort : list R -> list nat) (tol : R) (x : list X)
    (given : option predictions) (s : sord_object) (w : world X M) : sord_object * out (list R) :=
  match UC_predict A (so_base s) w x given with
  | (Val tt, q) =>
      (so_with_base q s,
       match predictions_test_ q with
       | None => Err TypeError
       | Some p =>
           if has_second_column p then
             match classes_ q, so_scores s, so_labels s with
             | Some classes, Some scores, Some labels => SORDy_answer argsort tol classes scores labels (col 1 (as_rows p))
             | _, _, _ => Err TypeError
             end
           else Err IndexError
       end)
  | (Err e, q) => (so_with_base q s, Err e)
  | (NotANumber, q) => (so_with_base q s, NotANumber)
  end.
