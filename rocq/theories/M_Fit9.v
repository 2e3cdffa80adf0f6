(** * Model of QUANTy as an object on which any call may raise (C137). *)

From Coq Require Import Reals List ZArith Bool.
From Verif Require Import Num M_Baselines M_Base M_Estimators M_Search M_Fit M_Fit2 M_Fit8.
Import ListNotations.
Open Scope R_scope.

(** binary/quantiles.py:129-140: the attributes of the base class, train_distrib_ and train_labels_ (as in SORDy), and mixtures_.
    test_distrib_ is written by predict before it is read. *)
Record quant_object := { qa_sorted : sord_object; qa_mixtures : option (list (list R)) }.

(** binary/quantiles.py:129-140 __init__ *)
Definition QUANTy_new (est_train est_test : option nat) : quant_object :=
  {| qa_sorted := SORDy_new est_train est_test; qa_mixtures := None |}.

(** binary/quantiles.py:142-183 fit: lines 165-179 are those of SORDy.fit (emd.py:142-156); mixtures_ is dropped (181) only if they do not
    raise. *)
Definition QUANTy_object_fit {X M : Type} (A : nat -> algorithm X M) (argsort : list R -> list nat) (x : list X) (y : list Z)
    (given : option predictions) (s : quant_object) (w : world X M) : out unit * quant_object * world X M :=
  match SORDy_object_fit A argsort x y given (qa_sorted s) w with
  | (Val tt, o, w) => (Val tt, {| qa_sorted := o; qa_mixtures := None |}, w)
  | (r, o, w) => (r, {| qa_sorted := o; qa_mixtures := qa_mixtures s |}, w)
  end.

(** search.py:270-302 compute_quantiles for a training set, from attributes of any fits.  Labels None: "None == classes[0]" is False, no
    weight is assigned, all stay 1.  Labels of another length: the mask raises IndexError.  Fewer than two classes: IndexError. *)
Definition quanty_mixture (q : nat) (classes : list Z) (scores : list R) (labels : option (list Z)) : out (R -> list R) :=
  match classes with
  | c0 :: c1 :: _ =>
      match labels with
      | None => Val (fun _ => quantiles_of q scores (repeat 1 (length scores)))
      | Some l => if Nat.eqb (length l) (length scores) then Val (fun p => compute_quantiles (Some p) scores q l c0 c1) else Err IndexError
      end
  | _ => Err IndexError
  end.

(** binary/quantiles.py:185-240 predict.  len(None) raises TypeError.  An error of compute_quantiles comes before anything is stored; with
    a cached grid the search may raise its own ValueError first (the errors are not told apart here). *)
Definition QUANTy_object_predict {X M : Type} (A : nat -> algorithm X M) (argsort : list R -> list nat) (q : nat)
    (distance : list R -> list R -> R) (tol : R) (x : list X) (given : option predictions) (s : quant_object) (w : world X M)
  : quant_object * out (list R) :=
  let keep b := {| qa_sorted := so_with_base b (qa_sorted s); qa_mixtures := qa_mixtures s |} in
  match UC_predict A (so_base (qa_sorted s)) w x given with
  | (Val tt, b) =>
      match predictions_test_ b with
      | None => (keep b, Err TypeError)
      | Some p =>
          if has_second_column p then
            match classes_ b, so_scores (qa_sorted s) with
            | Some classes, Some scores =>
                let test := col 1 (as_rows p) in
                match quanty_mixture q classes scores (so_labels (qa_sorted s)) with
                | Val mixture =>
                    match global_search distance mixture (compute_quantiles None (pick test (argsort test)) q [] 0 0) tol (qa_mixtures s) true with
                    | Val (ms, v) => ({| qa_sorted := so_with_base b (qa_sorted s); qa_mixtures := ms |}, Val [1 - v; v])
                    | Err e => (keep b, Err e)
                    | NotANumber => (keep b, NotANumber)
                    end
                | Err e => (keep b, Err e)
                | NotANumber => (keep b, NotANumber)
                end
            | _, _ => (keep b, Err TypeError)
            end
          else (keep b, Err IndexError)
      end
  | (Err e, b) => (keep b, Err e)
  | (NotANumber, b) => (keep b, NotANumber)
  end.
