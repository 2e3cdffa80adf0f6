(** * Model of the classifiers that train copies of an estimator, as objects: what fit assigns, in which order, and what is
    left when it raises (estimators/frank_and_hall.py, estimators/ensembles.py; AC.fit on top of base.py).

    Objects live in a store; a reference is a position in it.  A new object is appended, nothing is ever removed. *)

From Coq Require Import Reals List ZArith Bool.
From Verif Require Import Num M_Baselines M_Base M_Ordinal M_Estimators M_Optim M_History.
Import ListNotations.
Open Scope R_scope.

(** The class of the user's estimator (scikit-learn or other): set_params, fit, predict and predict_proba of an object.  A fit
    that raises may still change the object. *)
Record estimator_class (X Pm Ob : Type) := {
  ec_set_params : Pm -> Ob -> out Ob;
  ec_fit : list X -> list Z -> Ob -> Ob * out unit;
  ec_predict : Ob -> list X -> out (list Z);
  ec_proba : Ob -> list X -> out (list (list R))
}.
Arguments ec_set_params {X Pm Ob}. Arguments ec_fit {X Pm Ob}. Arguments ec_predict {X Pm Ob}. Arguments ec_proba {X Pm Ob}.

(** ** FrankAndHallClassifier *)

(** frank_and_hall.py:84-92: the attributes.  estimators_ is None, an array of None and references, or a list of
    references.  label_binarizer_ (only used inside fit) is not represented.  params_fit is a list. *)
Record fh_object (Pm : Type) := {
  fh_estimator : option nat;
  fh_params : option (list Pm);
  fh_classes : option (list Z);
  fh_estimators : option (list (option nat))
}.
Arguments fh_estimator {Pm}. Arguments fh_params {Pm}. Arguments fh_classes {Pm}. Arguments fh_estimators {Pm}.
Arguments Build_fh_object {Pm}.

(** frank_and_hall.py:84-92 __init__ *)
Definition FH_new {Pm : Type} (estimator : option nat) (params_fit : option (list Pm)) : fh_object Pm :=
  Build_fh_object estimator params_fit None None.

(** frank_and_hall.py:94-119 _fit_binary: deepcopy, set_params with the parameters of this problem, fit.  params_fit[pos]
    raises IndexError when it is too short.  (A reference that is not in the store does not occur.) *)
Definition fit_binary {X Pm Ob : Type} (E : estimator_class X Pm Ob) (estimator : nat) (params_fit : option (list Pm))
    (x : list X) (y_bin : list Z) (pos_class : nat) (store : list Ob) : list Ob * out nat :=
  match nth_error store estimator with
  | None => (store, Err AttributeError)
  | Some original =>
      let clf := length store in
      let store := store ++ [original] in
      let set := match params_fit with
                 | None => Val original
                 | Some ps => match nth_error ps pos_class with
                              | None => Err IndexError
                              | Some p => ec_set_params E p original
                              end
                 end in
      match set with
      | Err e => (store, Err e)
      | NotANumber => (store, NotANumber)
      | Val ready =>
          let '(trained, r) := ec_fit E x y_bin ready in
          (set_nth clf trained store, omap (fun _ => clf) r)
      end
  end.

(** joblib.Parallel: the jobs run in some order ([order], a rearrangement of their numbers) and the first exception is
    raised.  A job only writes to objects that it has created, so that jobs which run at the same time are
    equivalent to running them in some order.  The answers, with the numbers of the jobs: *)
Fixpoint run_jobs {Ob A : Type} (job : nat -> list Ob -> list Ob * out A) (order : list nat) (store : list Ob)
  : list Ob * out (list (nat * A)) :=
  match order with
  | [] => (store, Val [])
  | i :: rest =>
      match job i store with
      | (store, Val a) => let '(store, r) := run_jobs job rest store in (store, omap (cons (i, a)) r)
      | (store, Err e) => (store, Err e)
      | (store, NotANumber) => (store, NotANumber)
      end
  end.

(** The answer of job number [i]. *)
Fixpoint answer_of {A : Type} (i : nat) (answers : list (nat * A)) : option A :=
  match answers with
  | [] => None
  | (j, a) :: rest => if Nat.eqb j i then Some a else answer_of i rest
  end.

(** frank_and_hall.py:121-164 fit (also 366-390).  [order]: the order in which joblib runs the problems.  [accepted] is
    whether check_X_y accepts the data.  LabelBinarizer.fit raises ValueError when there is no label.  The assignment of
    classes_ (152) comes before check_X_y (155) and before training (162). *)
Definition FH_fit {X Pm Ob : Type} (E : estimator_class X Pm Ob) (accepted : list X -> list Z -> bool) (order : list nat)
    (x : list X) (y : list Z) (s : fh_object Pm) (store : list Ob) : list Ob * fh_object Pm * out unit :=
  match fh_estimator s with
  | None => (store, s, Err ValueError)
  | Some estimator =>
      match y with
      | [] => (store, s, Err ValueError)
      | _ =>
          match FH_binarize (np_unique y) y with
          | Err e => (store, s, Err e)
          | NotANumber => (store, s, NotANumber)
          | Val y_bin_fh =>
              let s := Build_fh_object (fh_estimator s) (fh_params s) (Some (np_unique y)) (fh_estimators s) in
              if accepted x y then
                let n := (length (np_unique y) - 1)%nat in
                let s := Build_fh_object (fh_estimator s) (fh_params s) (fh_classes s) (Some (repeat None n)) in
                match run_jobs (fun i => fit_binary E estimator (fh_params s) x (column_labels i y_bin_fh) i) order store with
                | (store, Val answers) =>
                    (store, Build_fh_object (fh_estimator s) (fh_params s) (fh_classes s)
                              (Some (map (fun i => answer_of i answers) (seq 0 n))), Val tt)
                | (store, Err e) => (store, s, Err e)
                | (store, NotANumber) => (store, s, NotANumber)
                end
              else (store, s, Err ValueError)
          end
      end
  end.

(** estimators_[i].predict_proba(X)[:, 1], as one entry per example.  estimators_[i] may not exist (IndexError) or
    be None (AttributeError); a row without a second entry raises IndexError. *)
Definition left_column {X Pm Ob : Type} (E : estimator_class X Pm Ob) (store : list Ob) (estimators : list (option nat))
    (x : list X) (i : nat) : out (list R) :=
  match nth_error estimators i with
  | None => Err IndexError
  | Some None => Err AttributeError
  | Some (Some r) =>
      match nth_error store r with
      | None => Err AttributeError
      | Some ob => obind (ec_proba E ob x) (fun rows =>
                     if forallb (fun row => Nat.leb 2 (length row)) rows then Val (map (fun row => nth 1 row 0) rows)
                     else Err IndexError)
      end
  end.

(** frank_and_hall.py:277-289 __compute_binary_proba: one row per example.  With a single class there is no column to
    write to (IndexError).  Columns of another length than the first one raise ValueError (a column with a single entry, which
    numpy would repeat, is not distinguished). *)
Definition FH_binary_proba {X Pm Ob : Type} (E : estimator_class X Pm Ob) (store : list Ob) (s : fh_object Pm) (x : list X)
  : out (list (list R)) :=
  match fh_classes s, fh_estimators s with
  | None, _ => Err NotFittedError
  | Some _, None => Err TypeError
  | Some classes, Some estimators =>
      obind (left_column E store estimators x 0) (fun first =>
      if Nat.eqb (length classes - 1) 0 then Err IndexError
      else obind (collect (map (left_column E store estimators x) (seq 1 (length classes - 2)))) (fun others =>
           if forallb (fun column => Nat.eqb (length column) (length first)) others
           then Val (map (fun e => map (fun column => nth e column 0) (first :: others)) (seq 0 (length first)))
           else Err ValueError))
  end.

(** frank_and_hall.py:237-257 predict_proba *)
Definition FH_object_proba {X Pm Ob : Type} (E : estimator_class X Pm Ob) (store : list Ob) (s : fh_object Pm) (x : list X)
  : out (list (list R)) :=
  omap (map FH_row) (FH_binary_proba E store s x).

(** frank_and_hall.py:186-191 predict *)
Definition FH_object_predict {X Pm Ob : Type} (E : estimator_class X Pm Ob) (store : list Ob) (s : fh_object Pm) (x : list X)
  : out (list Z) :=
  match fh_classes s with
  | None => Err NotFittedError
  | Some classes => omap (map (predict_label classes)) (FH_object_proba E store s x)
  end.

(** ** FrankAndHallTreeClassifier *)

(** frank_and_hall.py:653-658: the attributes of the base class and tree_. *)
Record fht_object (Pm : Type) := { ft_base : fh_object Pm; ft_tree : option qtree }.
Arguments ft_base {Pm}. Arguments ft_tree {Pm}. Arguments Build_fht_object {Pm}.

(** frank_and_hall.py:660-683 fit and 785-808 __generate_tree: tree_ is assigned last, after the training of the
    estimators and their predictions for the training examples. *)
Definition FHT_object_fit {X Pm Ob : Type} (E : estimator_class X Pm Ob) (measure : R -> R -> R)
    (accepted : list X -> list Z -> bool) (order : list nat)
    (x : list X) (y : list Z) (s : fht_object Pm) (store : list Ob) : list Ob * fht_object Pm * out unit :=
  match FH_fit E accepted order x y (ft_base s) store with
  | (store, base, Val tt) =>
      match obind (FH_binary_proba E store base x) (FHT_fit measure (np_unique y) y) with
      | Val tree => (store, Build_fht_object base (Some tree), Val tt)
      | Err e => (store, Build_fht_object base (ft_tree s), Err e)
      | NotANumber => (store, Build_fht_object base (ft_tree s), NotANumber)
      end
  | (store, base, Err e) => (store, Build_fht_object base (ft_tree s), Err e)
  | (store, base, NotANumber) => (store, Build_fht_object base (ft_tree s), NotANumber)
  end.

(** ** EnsembleOfClassifiers *)

(** ensembles.py:70-77 *)
Record eoc_object := {
  eo_base : option nat;
  eo_classes : option (list Z);
  eo_n : nat;
  eo_estimators : option (list (option nat))
}.

(** ensembles.py:70-77 __init__ *)
Definition EoC_new (base : option nat) : eoc_object := Build_eoc_object base None 0 None.

(** [X[indexes[:, i], :]]: IndexError for a position outside. *)
Definition pick_checked {A : Type} (l : list A) (idx : list nat) : out (list A) :=
  if forallb (fun i => Nat.ltb i (length l)) idx then Val (pick l idx) else Err IndexError.

(** ensembles.py:112-113: one call of base_estimator.fit.  [in_process]: it changes the object [target] itself; otherwise a copy
    of it is trained and returned. *)
Definition fit_member {X Pm Ob : Type} (E : estimator_class X Pm Ob) (in_process : bool) (base : nat) (x : list X) (y : list Z)
    (bag : list nat) (store : list Ob) : list Ob * out nat :=
  match nth_error store base with
  | None => (store, Err AttributeError)
  | Some original =>
      match obind (pick_checked x bag) (fun xs => obind (pick_checked y bag) (fun ys => Val (xs, ys))) with
      | Err e => (store, Err e)
      | NotANumber => (store, NotANumber)
      | Val (xs, ys) =>
          let '(trained, r) := ec_fit E xs ys original in
          if in_process then (set_nth base trained store, omap (fun _ => base) r)
          else (store ++ [trained], omap (fun _ => length store) r)
      end
  end.

(** ensembles.py:79-117 fit.  estimators_ is an array of None (108) while the members are trained (112); n_estimators_ is the
    number of bags (106). *)
Definition EoC_object_fit {X Pm Ob : Type} (E : estimator_class X Pm Ob) (accepted : list X -> list Z -> bool) (in_process : bool)
    (order : list nat) (x : list X) (y : list Z) (bags : list (list nat)) (s : eoc_object) (store : list Ob)
  : list Ob * eoc_object * out unit :=
  match eo_classes s, eo_estimators s with
  | None, None =>
      match eo_base s with
      | None => (store, s, Err ValueError)
      | Some base =>
          if accepted x y then
            let n := length bags in
            let s := Build_eoc_object (eo_base s) (eo_classes s) n (Some (repeat None n)) in
            match run_jobs (fun i => fit_member E in_process base x y (nth i bags [])) order store with
            | (store, Val answers) =>
                (store, Build_eoc_object (eo_base s) (Some (np_unique y)) n
                          (Some (map (fun i => answer_of i answers) (seq 0 n))), Val tt)
            | (store, Err e) => (store, s, Err e)
            | (store, NotANumber) => (store, s, NotANumber)
            end
          else (store, s, Err ValueError)
      end
  | _, _ => (store, Build_eoc_object (eo_base s) (Some (np_unique y)) (eo_n s) (eo_estimators s), Val tt)
  end.

(** estimators_[i].predict(X) *)
Definition member_labels {X Pm Ob : Type} (E : estimator_class X Pm Ob) (store : list Ob) (estimators : list (option nat))
    (x : list X) (i : nat) : out (list Z) :=
  match nth_error estimators i with
  | None => Err IndexError
  | Some None => Err AttributeError
  | Some (Some r) =>
      match nth_error store r with
      | None => Err AttributeError
      | Some ob => ec_predict E ob x
      end
  end.

(** ensembles.py:119-146 predict: one row per example, one column per member.  A column of another length than the first
    one raises ValueError (a single entry, which numpy would repeat, is not distinguished). *)
Definition EoC_predict {X Pm Ob : Type} (E : estimator_class X Pm Ob) (store : list Ob) (s : eoc_object) (x : list X)
  : out (list (list Z)) :=
  match eo_classes s, eo_estimators s with
  | None, _ => Err NotFittedError
  | Some _, None => Err TypeError
  | Some _, Some estimators =>
      obind (member_labels E store estimators x 0) (fun p_0 =>
      obind (collect (map (member_labels E store estimators x) (seq 1 (eo_n s - 1)))) (fun others =>
      if forallb (fun column => Nat.eqb (length column) (length p_0)) others
      then Val (map (fun e => map (fun column => nth e column 0%Z) (p_0 :: others)) (seq 0 (length p_0)))
      else Err ValueError))
  end.

(** ** AC *)

(** ac.py:119-129: the attributes of base.py and cm_, (G_, C_, b_), problem_.  (The field aj_classes of [ao_adjuster] is not
    used, classes_ is in the base.) *)
Record ac_object := { ao_base : quantifier_object; ao_adjuster : adjuster }.

(** ac.py:119-129 __init__ *)
Definition AC_new (est_train est_test : option nat) : ac_object :=
  {| ao_base := {| estimator_train := est_train; estimator_test := est_test; needs_predictions_train := true;
                   probabilistic := false; predictions_train_ := None; predictions_test_ := None;
                   classes_ := None; y_ext_ := None |};
     ao_adjuster := unfitted_adjuster |}.

(** ac.py:131-174 fit: the base class first (its classes_ stays assigned when it raises), then cm_ and the rest.
    Predictions that are not labels (impossible after __probs2crisps, except an empty array) count as ValueError of
    confusion_matrix. *)
Definition AC_object_fit {X M : Type} (A : nat -> algorithm X M) (N : numerics) (fuel : nat) (dist : distance)
    (x : list X) (y : list Z) (given : option predictions) (s : ac_object) (w : world X M)
  : out unit * ac_object * world X M :=
  match UC_fit A (ao_base s) w x y given with
  | (Val tt, q, w) =>
      match predictions_train_ q with
      | Some (Labels l) =>
          match AC_fit y l with
          | Val cm => (Val tt, {| ao_base := q; ao_adjuster := assign_adjuster N fuel dist y (ao_adjuster s) cm |}, w)
          | Err e => (Err e, {| ao_base := q; ao_adjuster := ao_adjuster s |}, w)
          | NotANumber => (NotANumber, {| ao_base := q; ao_adjuster := ao_adjuster s |}, w)
          end
      | _ => (Err ValueError, {| ao_base := q; ao_adjuster := ao_adjuster s |}, w)
      end
  | (Err e, q, w) => (Err e, {| ao_base := q; ao_adjuster := ao_adjuster s |}, w)
  | (NotANumber, q, w) => (NotANumber, {| ao_base := q; ao_adjuster := ao_adjuster s |}, w)
  end.

(** Predicting when cm_ does not fit classes_ (only possible after a fit that raised): cm_ is None (TypeError at
    ac.py:234, AttributeError at 249), too small for two classes (IndexError at 234), or of another size with one or more
    than two classes (an exception at 250, or inside the solver if it is singular, modelled as ValueError).  With two
    classes only its first two rows are read. *)
Definition cm_problem (n : nat) (cm : list (option (list R))) : option exn :=
  match cm with
  | [] => Some (if Nat.eqb n 2 then TypeError else AttributeError)
  | _ => if Nat.eqb (length cm) n then None
         else if Nat.eqb n 2 then (if Nat.eqb (length cm) 1 then Some IndexError else None)
         else Some ValueError
  end.

(** The labels in predictions_test_.  __probs2crisps returns labels, or an empty array of probabilities as it is. *)
Definition labels_in (p : option predictions) : list Z := match p with Some (Labels l) => l | _ => [] end.

(** ac.py:176-273 predict *)
Definition AC_object_predict {X M : Type} (A : nat -> algorithm X M) (inv : nat -> matrix -> option matrix) (N : numerics)
    (cvx : cvx_solver) (dist : distance) (x : list X) (given : option predictions) (s : ac_object) (w : world X M)
  : ac_object * out (list R) :=
  let a := ao_adjuster s in
  match UC_predict A (ao_base s) w x given with
  | (Val tt, q) =>
      match classes_ q with
      | None => ({| ao_base := q; ao_adjuster := a |}, Err TypeError)
      | Some classes =>
          match cm_problem (length classes) (aj_cm a) with
          | Some e => ({| ao_base := q; ao_adjuster := a |}, Err e)
          | None =>
              let current := {| aj_classes := classes_ q; aj_cm := aj_cm a; aj_l2 := aj_l2 a; aj_problem := aj_problem a |} in
              let '(a, r) := adjuster_predict inv N cvx dist
                               (fun classes => class_frequencies classes (labels_in (predictions_test_ q))) current in
              ({| ao_base := q; ao_adjuster := a |}, r)
          end
      end
  | (Err e, q) => ({| ao_base := q; ao_adjuster := a |}, Err e)
  | (NotANumber, q) => ({| ao_base := q; ao_adjuster := a |}, NotANumber)
  end.
