(** * Model of arrays as mutable objects: the code that writes into arrays in place, and the objects that keep the
    arrays of the caller.

    The other models treat arrays as values.  Here an array is a cell of a heap, a name is an address, and
    [np.copy], a write and an alias are different things.  A program that returns [None] has raised an exception. *)

From Coq Require Import Reals List ZArith Bool.
From Verif Require Import Num M_Baselines M_Base M_Ordinal M_Estimators M_Optim M_Search M_Bags.
Import ListNotations.
Open Scope R_scope.

(** A numpy array: vectors of floats or integers, a matrix given by its rows, a square matrix given by its entries, and
    the two arrays returned by a bag generator, taken together. *)
Inductive array :=
| Floats (l : list R)
| Ints (l : list Z)
| Table (rows : list (list R))
| Grid (n : nat) (m : nat -> nat -> R)
| Drawn (bags : list bag).

Definition address := nat.
Definition heap := list array.

(** A piece of Python code: it may read, write and create arrays. *)
Definition prog (A : Type) := heap -> option (A * heap).

Definition ret {A : Type} (x : A) : prog A := fun h => Some (x, h).
Definition fail {A : Type} : prog A := fun _ => None.
Definition bind {A B : Type} (p : prog A) (f : A -> prog B) : prog B :=
  fun h => match p h with Some (x, h') => f x h' | None => None end.
Notation "x <- p ;; q" := (bind p (fun x => q)) (at level 61, p at next level, right associativity).
Notation "p ;; q" := (bind p (fun _ => q)) (at level 61, right associativity).

(** A new array, as made by np.copy, np.zeros, arithmetic, or indexing with a mask or with positions. *)
Definition new (x : array) : prog address := fun h => Some (length h, h ++ [x]).

(** The current contents. *)
Definition contents (a : address) : prog array :=
  fun h => match nth_error h a with Some x => Some (x, h) | None => None end.
Definition floats (a : address) : prog (list R) := x <- contents a;; match x with Floats l => ret l | _ => fail end.
Definition ints (a : address) : prog (list Z) := x <- contents a;; match x with Ints l => ret l | _ => fail end.
Definition table (a : address) : prog (list (list R)) := x <- contents a;; match x with Table l => ret l | _ => fail end.
Definition grid (a : address) : prog (nat * (nat -> nat -> R)) := x <- contents a;; match x with Grid n m => ret (n, m) | _ => fail end.

(** Overwriting the cell of an array. *)
Definition put (a : address) (x : array) : prog unit :=
  fun h => if Nat.ltb a (length h) then Some (tt, set_nth a x h) else None.

(** [a[i]] and [a[i] = v]; IndexError beyond the end. *)
Definition get (a : address) (i : nat) : prog R :=
  l <- floats a;; match nth_error l i with Some x => ret x | None => fail end.
Definition store (a : address) (i : nat) (v : R) : prog unit :=
  l <- floats a;; if Nat.ltb i (length l) then put a (Floats (set_nth i v l)) else fail.

(** [a[mask] = v]; a mask of another length raises IndexError. *)
Fixpoint write_where (mask : list bool) (v : R) (l : list R) : list R :=
  match mask, l with
  | b :: mask', x :: l' => (if b then v else x) :: write_where mask' v l'
  | _, _ => l
  end.
Definition store_where (a : address) (mask : list bool) (v : R) : prog unit :=
  l <- floats a;; if Nat.eqb (length mask) (length l) then put a (Floats (write_where mask v l)) else fail.

(** [for x in xs: body], where the body also updates local variables. *)
Fixpoint for_each {A S : Type} (xs : list A) (s : S) (body : A -> S -> prog S) : prog S :=
  match xs with
  | [] => ret s
  | x :: xs' => s' <- body x s;; for_each xs' s' body
  end.

(** [while test: body]; a loop that is still running after [fuel] rounds counts as a failure. *)
Fixpoint while_loop {S : Type} (fuel : nat) (test : S -> bool) (body : S -> prog S) (s : S) : prog S :=
  if test s then
    match fuel with
    | O => fail
    | S fuel' => s' <- body s;; while_loop fuel' test body s'
    end
  else ret s.

Definition rltb (x y : R) : bool := if Rlt_dec x y then true else false.
Definition rleb (x y : R) : bool := if Rle_dec x y then true else false.

(** ** Programs *)

(** decomposition/ordinal.py:308-323 check_and_correct_prevalences_asc *)
Definition correct_program (prevalences : address) : prog address :=
  p <- floats prevalences;;
  if is_ascending p then ret prevalences
  else
    let n := length p in
    prevs1 <- new (Floats p);;
    for_each (seq 1 (n - 1)) tt (fun i _ =>
      x <- get prevs1 i;; y <- get prevs1 (i - 1);;
      if rltb x y then store prevs1 i y else ret tt);;
    prevs2 <- new (Floats p);;
    for_each (rev (seq 1 (n - 1))) tt (fun i _ =>
      x <- get prevs2 i;; y <- get prevs2 (i - 1);;
      if rltb x y then store prevs2 (i - 1) x else ret tt);;
    l1 <- floats prevs1;; l2 <- floats prevs2;;
    new (Floats (vmap2 (fun a b => (a + b) / 2) l1 l2)).

(** decomposition/ordinal.py:252-264 (and frank_and_hall.py:479-490 for one example): from the corrected vector of the
    left groups, of length n_classes - 1, to the prevalences. *)
Definition prevalences_program (n_classes : nat) (left : address) : prog address :=
  prevalences <- new (Floats (repeat 0 n_classes));;
  x <- get left 0;; store prevalences 0 x;;
  for_each (seq 1 (n_classes - 2)) tt (fun c _ =>
    p_left <- get left c;;
    l <- floats prevalences;;
    store prevalences c (clip01 (p_left - rsum (firstn c l))));;
  l <- floats prevalences;;
  store prevalences (n_classes - 1) (1 - rsum (firstn (n_classes - 1) l));;
  ret prevalences.

(** base.py:333-342 in __probs2crisps, for a vector of probabilities. *)
Definition threshold_program (preds : address) : prog address :=
  p <- floats preds;;
  preds_mod <- new (Floats p);;
  l <- floats preds_mod;; store_where preds_mod (map (fun x => rleb (1/2) x) l) 1;;
  l <- floats preds_mod;; store_where preds_mod (map (fun x => rltb x (1/2)) l) 0;;
  l <- floats preds_mod;; new (Ints (map Int_part l)).

(** search.py:270-278 *)
Definition quantile_weights_program (prevalence : option R) (n : nat) (y : address) (c0 c1 : Z) : prog address :=
  p_weight <- new (Floats (repeat 1 n));;
  match prevalence with
  | None => ret p_weight
  | Some p =>
      labels <- ints y;;
      store_where p_weight (map (fun c => Z.eqb c c0) labels) ((1 - p) * INR n / INR (zcount c0 labels));;
      store_where p_weight (map (fun c => Z.eqb c c1) labels) (p * INR n / INR (zcount c1 labels));;
      ret p_weight
  end.

(** search.py:338-345 compute_sord_weights *)
Definition sord_weights_program (prevalence : R) (union_labels : address) (classes : list Z) : prog address :=
  labels <- ints union_labels;;
  weights <- new (Floats (repeat 0 (length labels)));;
  for_each (combine (seq 0 (length classes)) classes) tt (fun nc _ =>
    let '(n_cls, cls) := nc in
    if Nat.eqb n_cls 0 then
      store_where weights (map (fun c => Z.eqb c cls) labels) ((1 - prevalence) / INR (zcount cls labels))
    else store_where weights (map (fun c => Z.eqb c cls) labels) (prevalence / INR (zcount cls labels)));;
  store_where weights (map (fun c => Z.eqb c (zmax labels)) labels) (- 1 / INR (zcount (zmax labels) labels));;
  ret weights.

(** weighted_knn.py:106-109: the weights_ computed by fit. *)
Definition pwk_weights_program (y : address) : prog address :=
  labels <- ints y;;
  weights <- new (Floats (repeat 1 (length labels)));;
  for_each (np_unique labels) tt (fun cls _ =>
    store_where weights (map (fun c => Z.eqb c cls) labels) (1 - INR (zcount cls labels) / INR (length labels)));;
  ret weights.

(** metrics/multiclass.py:402-409: the recalls, from the counts of correct predictions and of examples of each label.
    Simplification: the positions of line 401 are all of them, in order, so 402-403 copy both arrays; the counts are floats. *)
Definition recall_program (correction : R) (tp_sum true_sum : address) : prog address :=
  tp <- floats tp_sum;; tp_sum <- new (Floats tp);;
  t <- floats true_sum;; true_sum <- new (Floats t);;
  t <- floats true_sum;;
  let mask := map (fun x => if Req_EM_T x 0 then true else false) t in
  store_where true_sum mask 1;;
  tp <- floats tp_sum;; t <- floats true_sum;;
  recall <- new (Floats (vmap2 Rdiv tp t));;
  store_where recall mask 0;;
  r <- floats recall;; store_where recall (map (fun x => if Req_EM_T x 0 then true else false) r) correction;;
  ret recall.

(** search.py:282-302: the quantiles, from the sorted probabilities and their weights. *)
Definition quantiles_program (n_quantiles : nat) (probabilities p_weight : address) : prog address :=
  scores <- floats probabilities;;
  let n := length scores in
  quantiles <- new (Floats (repeat 0 n_quantiles));;
  for_each (seq 0 n) (0, O) (fun i s =>
    let '(cumweight, j) := s in
    w <- get p_weight i;; p <- get probabilities i;;
    let cumweight := cumweight + w in
    if rleb cumweight (cutpoint n_quantiles n j) then
      q <- get quantiles j;; store quantiles j (q + p * w);; ret (cumweight, j)
    else
      q <- get quantiles j;; store quantiles j (q + p * (w - (cumweight - cutpoint n_quantiles n j)));;
      r <- while_loop n_quantiles (fun r => rltb (1/10000) (fst r) && Nat.ltb (snd r) (n_quantiles - 1)) (fun r =>
             let '(withoutassign, j) := r in
             let j := (j + 1)%nat in
             let assign := Rmin withoutassign (cutpoint n_quantiles n j - cutpoint n_quantiles n (j - 1)) in
             q <- get quantiles j;; store quantiles j (q + p * assign);; ret (withoutassign - assign, j))
           (cumweight - cutpoint n_quantiles n j, j);;
      ret (cumweight, snd r));;
  q <- floats quantiles;; new (Floats (vdiv q (cutpoint n_quantiles n 0))).

(** ac_ordinal.py:215-217 and pdf.py:271-272: cumulative sums computed in place, on a copy. *)
Definition cumulative_program (prevalences : address) : prog address :=
  p <- floats prevalences;;
  test_distrib <- new (Floats p);;
  for_each (seq 1 (length p - 1)) tt (fun i _ =>
    x <- get test_distrib i;; y <- get test_distrib (i - 1);; store test_distrib i (x + y));;
  ret test_distrib.

(** [r[i, k] = t]. *)
Definition store2 (a : address) (i k : nat) (t : R) : prog unit :=
  nm <- grid a;; put a (Grid (fst nm) (set_entry (snd nm) i k t)).
Definition get2 (a : address) (i k : nat) : prog R := nm <- grid a;; ret (snd nm i k).

(** optimization.py:324-341 dpofa; [k] is the next column of the loop that starts at 327. *)
Fixpoint dpofa_columns (r : address) (todo k : nat) : prog nat :=
  match todo with
  | O => ret O
  | S todo' =>
      s <- for_each (seq 0 k) 0 (fun i s =>
             t <- get2 r i k;; nm <- grid r;;
             let t := if Nat.ltb 0 i then t - sumn i (fun l => snd nm l i * snd nm l k) else t in
             d <- get2 r i i;;
             let t := t / d in
             store2 r i k t;; ret (s + t * t));;
      x <- get2 r k k;;
      let s := x - s in
      if rleb s 0 then ret (S k) else store2 r k k (sqrt s);; dpofa_columns r todo' (S k)
  end.
Definition dpofa_program (m : address) : prog (nat * address) :=
  nm <- grid m;;
  r <- new (Grid (fst nm) (snd nm));;
  k <- dpofa_columns r (fst nm) 0;;
  ret (k, r).

(** ordinal_ddag.py:313-322: [predictions] is the array returned by the estimator of a node and predictions_left and
    predictions_right are views of its columns 0 and 1, so the writes go into that array. *)
Definition set_column (j : nat) (v : list R) (rows : list (list R)) : list (list R) :=
  map (fun rx => set_nth j (snd rx) (fst rx)) (combine rows v).
Definition store_column_where (a : address) (j : nat) (test : R -> bool) (v : R) : prog unit :=
  rows <- table a;;
  put a (Table (set_column j (write_where (map test (col j rows)) v (col j rows)) rows)).
Definition winner_node_program (predictions : address) : prog unit :=
  store_column_where predictions 0 (fun x => rltb x (1/2)) 0;;
  store_column_where predictions 0 (fun x => rleb (1/2) x) 1;;
  store_column_where predictions 1 (fun x => rleb x (1/2)) 0;;
  store_column_where predictions 1 (fun x => rltb (1/2) x) 1.

(** ** Objects that keep arrays *)

(** base.py:245-261 UsingClassifiers.fit, given predictions_train, for a quantifier with probabilistic predictions:
    predictions_train_ is the array of the caller, and so is y_ext_ when the lengths agree. *)
Record kept := { k_classes : list Z; k_predictions : address; k_labels : address }.
Definition keep_program (y predictions_train : address) : prog kept :=
  labels <- ints y;; preds <- table predictions_train;;
  y_ext <- (if Nat.eqb (length labels) (length preds) then ret y
            else new (Ints (y_ext labels (length preds))));;
  ret {| k_classes := np_unique labels; k_predictions := predictions_train; k_labels := y_ext |}.

(** energy.py:371-373 CvMy.fit only keeps the arrays; 412-438 predict reads them. *)
Definition CvMy_fit_program := keep_program.
Definition CvMy_answer (N : numerics) (fuel : nat) (dist : list R -> list R -> R) (k : nat) (s : kept)
    (test : list (list R)) : prog (out (list R)) :=
  preds <- table (k_predictions s);; labels <- ints (k_labels s);;
  match CvMy_predict N fuel dist (k_classes s) labels k preds test with Some o => ret o | None => fail end.

(** energy.py:160-175 EDy.fit: indexing with a mask makes new arrays, one per class.  The matrices K_, G_, C_, b_ are
    new too; they are kept as values. *)
Record ed_object := { eo_kept : kept; eo_fitted : @ed_fitted (list R); eo_train : list address }.
Definition EDy_fit_program (N : numerics) (fuel : nat) (dist : list R -> list R -> R) (y predictions_train : address)
  : prog ed_object :=
  s <- keep_program y predictions_train;;
  preds <- table (k_predictions s);; labels <- ints (k_labels s);;
  train <- for_each (k_classes s) [] (fun c l => a <- new (Table (select c labels preds));; ret (l ++ [a]));;
  match ED_fit N fuel dist (k_classes s) labels preds with
  | Some f => ret {| eo_kept := s; eo_fitted := f; eo_train := train |}
  | None => fail
  end.

(** energy.py:216-225 EDy.predict reads the arrays train_distrib_ of each class. *)
Definition EDy_answer (N : numerics) (s : ed_object) (test : list (list R)) : prog (out (list R)) :=
  rows <- for_each (eo_train s) [] (fun a l => r <- table a;; ret (l ++ [r]));;
  let f := eo_fitted s in
  ret (ED_predict N {| ed_classes := ed_classes f; ed_train := fun i => nth i rows []; ed_sizes := ed_sizes f;
                       ed_dist := ed_dist f; ed_Kmat := ed_Kmat f; ed_Gmat := ed_Gmat f; ed_Cmat := ed_Cmat f;
                       ed_bvec := ed_bvec f |} test).

(** emd.py:142-158 and quantiles.py:165-183 fit: indexing with positions makes new arrays. *)
Record sorted_object := { so_kept : kept; so_scores : address; so_labels : address }.
Definition sorted_fit_program (argsort : list R -> list nat) (y predictions_train : address) : prog sorted_object :=
  s <- keep_program y predictions_train;;
  if Nat.ltb 2 (length (k_classes s)) then fail
  else
    preds <- table (k_predictions s);; labels <- ints (k_labels s);;
    let scores := col 1 preds in
    train_distrib <- new (Floats (pick scores (argsort scores)));;
    train_labels <- new (Ints (pick labels (argsort scores)));;
    ret {| so_kept := s; so_scores := train_distrib; so_labels := train_labels |}.
Definition sorted_state (s : sorted_object) : prog binary_fitted :=
  scores <- floats (so_scores s);; labels <- ints (so_labels s);;
  ret {| b_classes := k_classes (so_kept s); b_scores := scores; b_labels := labels |}.

(** emd.py:196-221 and quantiles.py:218-240 (first call after fit) *)
Definition SORDy_answer (argsort : list R -> list nat) (tol : R) (s : sorted_object) (test : list R) : prog (out R) :=
  f <- sorted_state s;; ret (SORDy_predict argsort tol f test).
Definition QUANTy_answer (argsort : list R -> list nat) (q : nat) (distance : list R -> list R -> R) (tol : R)
    (s : sorted_object) (test : list R) : prog (out R) :=
  f <- sorted_state s;; ret (omap snd (QUANTy_predict argsort q distance tol f None test)).

(** weighted_knn.py:105-112 PWK.fit keeps the labels of the caller; 127-131 predict.  [all] are the neighbours of each
    example (sklearn's nearest neighbours are not modelled). *)
Record pwk_object := { po_y : address; po_weights : address; po_classes : list Z }.
Definition PWK_fit_program (y : address) : prog pwk_object :=
  labels <- ints y;; w <- pwk_weights_program y;;
  ret {| po_y := y; po_weights := w; po_classes := np_unique labels |}.
Definition PWK_answer (s : pwk_object) (all : list (list nat)) : prog (list Z) :=
  y <- ints (po_y s);; w <- floats (po_weights s);;
  let scores := np_unique (map (fun i => nth i y 0%Z) (concat all)) in
  ret (map (fun neighbours => weighted_mode y w neighbours scores 0 0) all).

(** cross_validation.py:148-161 CV_estimator.fit keeps X and y of the caller; 233-288 predict_proba compares the X it is
    given with the current contents of the kept one. *)
Record cv_object (M : Type) := { co_X : address; co_y : address; co_classes : list Z; co_estimators : list M }.
Arguments co_X {M}. Arguments co_y {M}. Arguments co_classes {M}. Arguments co_estimators {M}.
Definition CV_fit_program {M : Type} (A : learner (list R) M) (X y : address) (folds : list fold_t) : prog (cv_object M) :=
  x <- table X;; labels <- ints y;;
  let s := CV_fit A x labels folds in
  ret {| co_X := X; co_y := y; co_classes := cv_classes s; co_estimators := cv_estimators s |}.
Definition CV_answer {M : Type} (A : learner (list R) M) (eqX : list (list R) -> list (list R) -> bool) (averaged : bool)
    (s : cv_object M) (folds1 folds2 : list fold_t) (x : list (list R)) : prog (out (list (list R))) :=
  x_train <- table (co_X s);; y_train <- ints (co_y s);;
  ret (CV_predict_proba A eqX averaged
         {| cv_X := x_train; cv_y := y_train; cv_classes := co_classes s; cv_estimators := co_estimators s |} folds1 folds2 x).

(** bag_generator.py:137-153 generate_bags returns the arrays kept in the object.  [stored] is where they are, [draw] what
    the first call draws (see M_Bags). *)
Definition generate_program (draw : list bag) (stored : option address) : prog (address * option address) :=
  match stored with
  | Some a => ret (a, Some a)
  | None => a <- new (Drawn draw);; ret (a, Some a)
  end.
