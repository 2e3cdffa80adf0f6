(** * Model of decomposition/ordinal.py, estimators/frank_and_hall.py, estimators/ordinal_ddag.py,
    ordinal/trees.py and decomposition/multiclass.py. *)

From Coq Require Import Reals List ZArith Bool.
From Verif Require Import Num M_Baselines.
Import ListNotations.
Open Scope R_scope.

(** ** The monotone correction *)

(** decomposition/ordinal.py:308 [np.all(p[1:] >= p[:-1])]; the same test per row at
    frank_and_hall.py:537. *)
Fixpoint is_ascending (l : list R) : bool :=
  match l with
  | a :: t =>
      match t with
      | b :: _ => if Rle_dec a b then is_ascending t else false
      | [] => true
      end
  | [] => true
  end.

(** decomposition/ordinal.py:313-316: the left-to-right pass; [prev] is the already corrected
    entry [prevs1[i-1]]. *)
Fixpoint raise_from (prev : R) (l : list R) : list R :=
  match l with
  | [] => []
  | x :: t => let x' := if Rlt_dec x prev then prev else x in x' :: raise_from x' t
  end.
Definition left_to_right (l : list R) : list R :=
  match l with
  | [] => []
  | x :: t => x :: raise_from x t
  end.

(** decomposition/ordinal.py:318-321: the right-to-left pass. *)
Fixpoint right_to_left (l : list R) : list R :=
  match l with
  | [] => []
  | x :: t =>
      match right_to_left t with
      | [] => [x]
      | y :: r => (if Rlt_dec y x then y else x) :: y :: r
      end
  end.

(** decomposition/ordinal.py:308-323 check_and_correct_prevalences_asc. *)
Definition correct_asc (l : list R) : list R :=
  if is_ascending l then l
  else vmap2 (fun a b => (a + b) / 2) (left_to_right l) (right_to_left l).

(** decomposition/ordinal.py:256-261 (and frank_and_hall.py:483-488): the loop over the middle
    classes; [s] is the sum of the prevalences assigned so far. *)
Fixpoint increments (s : R) (l : list R) : list R :=
  match l with
  | [] => []
  | p :: t => let d := clip01 (p - s) in d :: increments (s + d) t
  end.

(** decomposition/ordinal.py:252-263 (and frank_and_hall.py:479-490): from left-group
    probabilities to class probabilities.  With a single class the vector is empty and reading
    its entry 0 raises IndexError. *)
Definition from_left_groups (left : list R) : out (list R) :=
  match left with
  | [] => Err IndexError
  | p :: t => let front := p :: increments p t in Val (front ++ [1 - rsum front])
  end.

(** decomposition/ordinal.py:248-264, end of FrankAndHallQuantifier.predict, [left] = the
    positive-class prevalences of the binary quantifiers. *)
Definition FHQ_combine (left : list R) : out (list R) := from_left_groups (correct_asc left).

(** ** Label binarisation *)

(** sklearn LabelBinarizer.transform with the fitted [classes]: one row per label.  With one class the
    only column is all zeros; with two classes the only column marks the second class;
    otherwise column i marks class i.  A label that was not seen by fit gives zeros. *)
Definition label_binarize (classes : list Z) (y : list Z) : list (list R) :=
  match classes with
  | [_] => map (fun _ => [0]) y
  | [_; c] => map (fun v => [if Z.eqb v c then 1 else 0]) y
  | _ => map (fun v => map (fun c => if Z.eqb v c then 1 else 0) classes) y
  end.

(** frank_and_hall.py:995-999 FHLabelBinarizer.transform: cumulative sums of the columns.  The
    loop runs over the classes, so with two classes it indexes a missing column. *)
Definition FH_binarize (classes : list Z) (y : list Z) : out (list (list R)) :=
  let y_bin := label_binarize classes y in
  if Nat.eqb (length classes) 2 then Err IndexError
  else Val (map (fun r => map (fun i => rsum (firstn (S i) r)) (seq 0 (length classes))) y_bin).

(** Column [i] of a 0/1 matrix, as the labels given to a binary quantifier or estimator. *)
Definition column_labels (i : nat) (m : list (list R)) : list Z :=
  map (fun r => if Req_EM_T (nth i r 0) 1 then 1%Z else 0%Z) m.

(** ** Frank and Hall classifiers.  All of them work example by example; an example is given by
    the rows (right-group, left-group) = (column 0, column 1) that the binary estimators'
    predict_proba return for it. *)

(** frank_and_hall.py:277-289 __compute_binary_proba: column 1 of every estimator.  With no
    estimator [self.estimators_[0]] raises IndexError. *)
Definition left_probabilities (ests : list (R * R)) : out (list R) :=
  match ests with
  | [] => Err IndexError
  | _ => Val (map snd ests)
  end.

(** frank_and_hall.py:246-257 FrankAndHallClassifier.predict_proba. *)
Definition FH_row (left : list R) : list R :=
  let n := S (length left) in
  nth 0 left 0
  :: map (fun c => 1 - nth (c - 1) left 0 * nth c left 0) (seq 1 (n - 2))
  ++ [1 - nth (n - 2) left 0].
Definition FH_predict_proba (ests : list (R * R)) : out (list R) := omap FH_row (left_probabilities ests).

(** frank_and_hall.py:537-558 __check_and_correct_probabilities_asc.  Line 538 compares an array
    with the constant False by identity, which is false, and [np.nonzero(False)[0]] is empty
    (numpy before 2.1; later versions raise ValueError on 0-d input), hence line 540. *)
Definition monotone_rows_to_correct (m : list (list R)) : list nat :=
  let array_is_the_constant_False := false in
  if array_is_the_constant_False then seq 0 (length m) else [].
Definition monotone_correct (m : list (list R)) : list (list R) :=
  match monotone_rows_to_correct m with
  | [] => m
  | todo =>
      map (fun i => let r := nth i m [] in
                    if in_dec Nat.eq_dec i todo
                    then vmap2 (fun a b => (a + b) / 2) (left_to_right r) (right_to_left r) else r)
          (seq 0 (length m))
  end.

Fixpoint collect {A : Type} (l : list (out A)) : out (list A) :=
  match l with
  | [] => Val []
  | o :: t => obind o (fun a => obind (collect t) (fun r => Val (a :: r)))
  end.

(** frank_and_hall.py:466-491 FrankAndHallMonotoneClassifier.predict_proba. *)
Definition FHM_predict_proba (examples : list (list (R * R))) : out (list (list R)) :=
  obind (collect (map left_probabilities examples)) (fun left =>
  collect (map from_left_groups (monotone_correct left))).

(** frank_and_hall.py:187-191, 412-414, 705-707 and ordinal_ddag.py:229-231: predict. *)
Definition predict_label (classes : list Z) (probs : list R) : Z := nth (argmax probs) classes 0%Z.

(** ** Frank and Hall tree *)

(** frank_and_hall.py:908-916 QTree; a leaf has no children. *)
Inductive qtree : Type :=
| QLeaf
| QNode (pos_estimator : nat) (left right : qtree).

(** frank_and_hall.py:824-833 __build_recursive_tree for the estimators first, ..., first+len-1.
    (The Python arguments are [first] and [last = first+len-1], which can be -1.)  [fuel] bounds the
    recursion depth; the depth is at most [len]. *)
Fixpoint build_tree (fuel : nat) (scores : list R) (first len : nat) : qtree :=
  match fuel, len with
  | S f, S _ =>
      let k := argmin (firstn len (skipn first scores)) in
      QNode (first + k) (build_tree f scores first k)
            (build_tree f scores (S (first + k)) (len - S k))
  | _, _ => QLeaf
  end.
Definition make_tree (scores : list R) : qtree :=
  build_tree (length scores) scores 0 (length scores).

(** frank_and_hall.py:785-808 __generate_tree.  [left] are the rows of left-group probabilities of the
    training examples; [measure] is performance_measure. *)
Definition tree_scores (measure : R -> R -> R) (classes y : list Z) (left : list (list R)) : out (list R) :=
  obind (FH_binarize classes y) (fun yb =>
  Val (map (fun i =>
         let num_left := length (filter (fun v => if Req_EM_T v 0 then true else false) (col i yb)) in
         let p_true := INR num_left / INR (length y) in
         measure p_true (rmean (col i left)))
       (seq 0 (length classes - 1)))).
Definition FHT_fit (measure : R -> R -> R) (classes y : list Z) (left : list (list R)) : out qtree :=
  omap make_tree (tree_scores measure classes y left).

(** [np.setdiff1d]: the sorted distinct elements of [a] that are not in [b]. *)
Definition setdiff1d (a b : list Z) : list Z :=
  filter (fun x => negb (existsb (Z.eqb x) b)) (np_unique a).

(** [classes.tolist().index(c)]. *)
Fixpoint index_of (c : Z) (l : list Z) : nat :=
  match l with
  | [] => O
  | x :: t => if Z.eqb x c then O else S (index_of c t)
  end.

(** [probs[pos] *= v]. *)
Fixpoint scale_at (pos : nat) (v : R) (l : list R) : list R :=
  match l, pos with
  | [], _ => []
  | x :: t, O => x * v :: t
  | x :: t, S p => x :: scale_at p v t
  end.
Definition scale_classes (classes : list Z) (cls : list Z) (v : R) (probs : list R) : list R :=
  fold_left (fun acc c => scale_at (index_of c classes) v acc) cls probs.

(** frank_and_hall.py:858-887 __compute_probabilities for one example. *)
Fixpoint tree_probabilities (classes : list Z) (ests : list (R * R)) (t : qtree) (subtree : list Z)
    (probs : list R) : list R :=
  match t with
  | QLeaf => probs
  | QNode pos l r =>
      let classes_left := firstn (S pos) classes in
      let classes_right := skipn (S pos) classes in
      let p_left := snd (nth pos ests (0, 0)) in
      let p_right := fst (nth pos ests (0, 0)) in
      let sub_left := match subtree with [] => classes_left | _ => setdiff1d subtree classes_right end in
      let sub_right := match subtree with [] => classes_right | _ => setdiff1d subtree classes_left end in
      let probs := scale_classes classes sub_left p_left probs in
      let probs := scale_classes classes sub_right p_right probs in
      let probs := tree_probabilities classes ests l sub_left probs in
      tree_probabilities classes ests r sub_right probs
  end.

(** frank_and_hall.py:752-763 FrankAndHallTreeClassifier.predict_proba. *)
Definition FHT_predict_proba (classes : list Z) (t : qtree) (ests : list (R * R)) : list R :=
  tree_probabilities classes ests t [] (repeat 1 (length classes)).

(** ordinal/trees.py:37-39 OrdinalQuantificationTree: PCC over the tree classifier. *)
Definition OQT_predict (classes : list Z) (t : qtree) (examples : list (list (R * R))) : out (list R) :=
  PCC_predict (length classes) (map (FHT_predict_proba classes t) examples).

(** ** DDAG *)

(** ordinal_ddag.py:308: position of the estimator of the node (left, right). *)
Definition pos_estim (n left right : nat) : nat :=
  list_sum (seq (n - left) left) + (right - left - 1).

(** sklearn OneVsOneClassifier.fit: the pairs of classes of [estimators_], in order. *)
Definition ovo_pairs (n : nat) : list (nat * nat) :=
  concat (map (fun i => map (fun j => (i, j)) (seq (S i) (n - S i))) (seq 0 n)).

Inductive ddag_method := FullProbabilistic | WinnerNode.

(** ordinal_ddag.py:316-322. *)
Definition node_probs (method : ddag_method) (left right : nat) (p : R * R) : R * R :=
  match method with
  | WinnerNode =>
      if Nat.eqb (right - left) 1 then p
      else ((if Rlt_dec (fst p) (1/2) then 0 else 1), (if Rle_dec (snd p) (1/2) then 0 else 1))
  | FullProbabilistic => p
  end.

(** ordinal_ddag.py:301-337 __compute_probabilities for one example; [d] = right - left.  [ests] are
    the predict_proba rows of the pairwise estimators; column 0 is the smaller class. *)
Fixpoint ddag_probabilities (method : ddag_method) (n : nat) (ests : list (R * R)) (d left : nat)
    (accum probs : list R) : list R :=
  match d with
  | O => vmap2 Rplus probs accum
  | S d' =>
      let right := (left + d)%nat in
      let p := node_probs method left right (nth (pos_estim n left right) ests (0, 0)) in
      let left_accum := map (fun c => if Nat.leb left c && Nat.ltb c right
                                      then nth c accum 0 * fst p else 0) (seq 0 n) in
      let right_accum := map (fun c => if Nat.leb (S left) c && Nat.ltb c (S right)
                                       then nth c accum 0 * snd p else 0) (seq 0 n) in
      let probs := ddag_probabilities method n ests d' left left_accum probs in
      ddag_probabilities method n ests d' (S left) right_accum probs
  end.

(** ordinal_ddag.py:264-272 DDAGClassifier.predict_proba. *)
Definition DDAG_predict_proba (method : ddag_method) (n : nat) (ests : list (R * R)) : list R :=
  ddag_probabilities method n ests (n - 1) 0 (repeat 1 n) (repeat 0 n).

(** ** Decompositions into binary quantifiers *)

(** The binary quantifier that a decomposition copies (deepcopy), seen from outside: [E] are the
    estimators, [X] the data, [S] its fitted states.  [fit est_train est_test X y predictions_train] and
    [predict state X predictions_test]. *)
Record quantifier (E X S : Type) := {
  q_fit : option E -> option E -> X -> list Z -> option (list (list R)) -> out S;
  q_predict : S -> X -> option (list (list R)) -> out (list R)
}.
Arguments q_fit {E X S}.
Arguments q_predict {E X S}.

(** [np.array([1 - p[:, i], p[:, i]]).T]. *)
Definition two_columns (i : nat) (p : list (list R)) : list (list R) :=
  map (fun r => [1 - nth i r 0; nth i r 0]) p.

Definition nth_estimator {E : Type} (ests : option (list E)) (i : nat) : option E :=
  match ests with Some l => nth_error l i | None => None end.

(** decomposition/ordinal.py:126-174 FrankAndHallQuantifier.fit with a classifier-based quantifier.
    [est_train]/[est_test] are the binary estimators of the (already fitted) FrankAndHallClassifiers; fitting
    them is UsingClassifiers.fit (see M_Base). *)
Definition FHQ_fit {E X S : Type} (q : quantifier E X S) (est_train est_test : option (list E))
    (x : X) (y : list Z) (predictions_train : option (list (list R))) : out (list S) :=
  let classes := np_unique y in
  obind (FH_binarize classes y) (fun yb =>
  collect (map (fun i => q_fit q (nth_estimator est_train i) (nth_estimator est_test i) x
                               (column_labels i yb) (option_map (two_columns i) predictions_train))
               (seq 0 (length classes - 1)))).

(** decomposition/ordinal.py:132-142 the same with a quantifier without classifiers. *)
Definition FHQ_fit_without {E X S : Type} (q : quantifier E X S) (x : X) (y : list Z) : out (list S) :=
  let classes := np_unique y in
  obind (FH_binarize classes y) (fun yb =>
  collect (map (fun i => q_fit q None None x (column_labels i yb) None) (seq 0 (length classes - 1)))).

(** Entry 1 of a prevalence vector; IndexError if there is none. *)
Definition positive_prevalence (p : list R) : out R :=
  match p with _ :: v :: _ => Val v | _ => Err IndexError end.

(** decomposition/ordinal.py:230-264 FrankAndHallQuantifier.predict (both kinds of quantifier: without
    classifiers [predictions_test] is not used, which is the case [None]). *)
Definition FHQ_predict {E X S : Type} (q : quantifier E X S) (states : list S) (x : X)
    (predictions_test : option (list (list R))) : out (list R) :=
  obind (collect (map (fun p => obind (q_predict q (snd p) x (option_map (two_columns (fst p)) predictions_test))
                                      positive_prevalence)
                      (combine (seq 0 (length states)) states)))
        FHQ_combine.

(** decomposition/multiclass.py:185-203, end of OneVsRestQuantifier.predict. *)
Definition OVR_combine (prevalences : list R) : list R :=
  if Rlt_dec 0 (rsum prevalences) then vdiv prevalences (rsum prevalences) else prevalences.

(** decomposition/multiclass.py:125-168 OneVsRestQuantifier.fit with a classifier-based quantifier. [y_bin[:, 1]]
    does not exist when there are two classes. *)
Definition OVR_fit {E X S : Type} (q : quantifier E X S) (est_train est_test : option (list E))
    (x : X) (y : list Z) (predictions_train : option (list (list R))) : out (list S) :=
  let classes := np_unique y in
  let yb := label_binarize classes y in
  collect (map (fun i =>
      if Nat.eqb (length classes) 2 && Nat.eqb i 1 then Err IndexError
      else q_fit q (nth_estimator est_train i) (nth_estimator est_test i) x
                 (column_labels i yb) (option_map (two_columns i) predictions_train))
    (seq 0 (length classes))).

(** decomposition/multiclass.py:185-203 OneVsRestQuantifier.predict. *)
Definition OVR_predict {E X S : Type} (q : quantifier E X S) (states : list S) (x : X)
    (predictions_test : option (list (list R))) : out (list R) :=
  omap OVR_combine
    (collect (map (fun p => obind (q_predict q (snd p) x (option_map (two_columns (fst p)) predictions_test))
                                  positive_prevalence)
                  (combine (seq 0 (length states)) states))).

(** cc.py:256-266 PCC as the binary quantifier of a decomposition, with given predictions. *)
Definition PCC_quantifier : quantifier unit unit unit :=
  {| q_fit := fun _ _ _ _ _ => Val tt;
     q_predict := fun _ _ p => match p with Some p => PCC_predict 2 p | None => Err ValueError end |}.
