(** * Specification vocabulary for the ensembles of quantifiers. *)

From Coq Require Import Reals List ZArith Permutation Bool.
From Verif Require Import Num Spec M_Bags Spec_Bags M_Match Spec_Match M_Reg Spec_Reg M_Eoq.
Import ListNotations.
Open Scope R_scope.

(** numpy's argsort: the positions in an order in which the values ascend (ties in any order). *)
Definition sorts (argsort : list R -> list nat) : Prop :=
  forall l, Permutation (argsort l) (seq 0 (length l)) /\ ascending (map (fun i => nth i l 0) (argsort l)).

(** It only compares values: lists with the same comparisons are ordered in the same way. *)
Definition only_compares (argsort : list R -> list nat) : Prop :=
  forall l l', length l = length l' ->
    (forall i j, (i < length l)%nat -> (j < length l)%nat -> (nth i l 0 <= nth j l 0 <-> nth i l' 0 <= nth j l' 0)) ->
    argsort l = argsort l'.

(** An argsort for the examples. *)
Fixpoint place (l : list R) (x : nat) (s : list nat) : list nat :=
  match s with
  | [] => [x]
  | h :: t => if Rle_dec (nth x l 0) (nth h l 0) then x :: s else h :: place l x t
  end.
Definition insertion_argsort (l : list R) : list nat := fold_right (place l) [] (seq 0 (length l)).

(** The median: the middle value in ascending order, or the average of the two middle values. *)
Definition median_of (l : list R) (m : R) : Prop :=
  exists s, Permutation s l /\ ascending s /\
    ((exists h, length l = (2 * h + 1)%nat /\ m = nth h s 0) \/
     (exists h, length l = (2 * h + 2)%nat /\ m = (nth h s 0 + nth (S h) s 0) / 2)).

(** The medians of the answers, class by class. *)
Definition medians (n : nat) (answers : list (list R)) (m : list R) : Prop :=
  length m = n /\ forall c, (c < n)%nat -> median_of (map (fun a => nth c a 0) answers) (nth c m 0).

(** What member [i] of the ensemble gets from the predictions of the test bag. *)
Definition predictions_for (i : nat) (preds pi : predictions) : Prop :=
  match preds with
  | PerModel l => exists rows, pi = Soft rows /\ length rows = length l /\
      forall j ex, nth_error l j = Some ex -> nth_error ex i = Some (nth j rows [])
  | _ => pi = preds
  end.

(** The rows that describe predictions with probabilities: the rows themselves, or for each example the
    average of the rows of the classifiers. *)
Definition describes (k : nat) (preds : predictions) (rows : list (list R)) : Prop :=
  match preds with
  | Crisp _ => False
  | Soft l => rows = l
  | PerModel l => length rows = length l /\
      forall i ex, nth_error l i = Some ex -> length (nth i rows []) = k /\
        forall c, (c < k)%nat -> nth c (nth i rows []) 0 = rmean (map (fun r => nth c r 0) ex)
  end.

(** The test bag is not empty and has the attributes, or the probabilities, of the training set; [rows]
    describe it. *)
Definition test_bag {Q : Type} (b : base Q) (q : eoq Q) (k : nat) (X : list (list R)) (preds : predictions)
    (rows : list (list R)) : Prop :=
  rows <> [] /\
  match b with
  | Without _ _ => rows = X /\ length (eq_cuts q) = k
  | Using _ _ => describes (length (eq_classes q)) preds rows
  | OtherBase => False
  end.

(** Member [i] answers row [i]. *)
Definition members_answer {Q : Type} (b : base Q) (q : eoq Q) (X : list (list R)) (preds : predictions)
    (answers : list (list R)) : Prop :=
  length answers = length (eq_quantifiers q) /\
  forall i m, nth_error (eq_quantifiers q) i = Some m ->
    match b with
    | Without _ predict => predict m X = Val (nth i answers [])
    | Using _ predict => exists pi, predictions_for i preds pi /\ predict m pi = Val (nth i answers [])
    | OtherBase => False
    end.

(** The average of the answers of the members [sel], class by class. *)
Definition average_answer (n : nat) (answers : list (list R)) (sel : list nat) (r : list R) : Prop :=
  length r = n /\ forall c, (c < n)%nat -> nth c r 0 = rmean (map (fun i => nth c (nth i answers []) 0) sel).

(** Distance between two prevalence vectors over [n] classes: mean absolute error. *)
Definition mae (n : nat) (a b : list R) : R := sumn n (fun c => Rabs (nth c a 0 - nth c b 0)) / INR n.

(** [sel] holds [k] different members, none of them farther than a member that was left out. *)
Definition closest (d : nat -> R) (n k : nat) (sel : list nat) : Prop :=
  NoDup sel /\ length sel = k /\ Forall (fun i => (i < n)%nat) sel /\
  forall i j, In i sel -> (j < n)%nat -> ~ In j sel -> d i <= d j.

(** A generator that, once it has returned bags, returns them for ever, also after its number of bags is
    changed. *)
Definition keeps_bags {S : Type} (B : settable S) : Prop :=
  forall n X y g bags g', bs_generate (se_source B) X y (se_set B n g) = Some (Val bags, g') ->
    forall n' X' y', bs_generate (se_source B) X' y' (se_set B n' g') = Some (Val bags, se_set B n' g').

(** Calls of other ensembles with the same generator. *)
Record eoq_call := {
  ec_params : eoq_params; ec_attributes : nat; ec_X : list (list R); ec_y : list Z; ec_preds : predictions;
  ec_given : option (list bag)
}.
Fixpoint eoq_history {S Q : Type} (B : settable S) (ppf : R -> R) (b : base Q) (calls : list eoq_call) (g : S) : option S :=
  match calls with
  | [] => Some g
  | c :: t =>
      match EoQ_fit B ppf b (ec_params c) (ec_attributes c) (ec_X c) (ec_y c) (ec_preds c) (ec_given c) g with
      | Some (_, g') => eoq_history B ppf b t g'
      | None => None
      end
  end.

(** Member [i] was fitted with the examples of bag [i]. *)
Definition trained_with_bags {Q : Type} (fit : list (list R) -> list Z -> out Q) (X : list (list R)) (y : list Z)
    (q : eoq Q) : Prop :=
  forall i m, nth_error (eq_quantifiers q) i = Some m ->
    exists b, nth_error (eq_bags q) i = Some b /\
      Forall (fun j => (j < length X)%nat /\ (j < length y)%nat) (snd b) /\
      fit (examples X (snd b)) (bag_labels y (snd b)) = Val m.

(** The part of a training set (label and predictions of each example) given by indexes. *)
Definition part {A : Type} (d : A) (idx : list nat) (tr : list (Z * (nat -> A))) : list (Z * (nat -> A)) :=
  map (fun i => nth i tr (0%Z, fun _ => d)) idx.

(** [q] is an ensemble after fit(X, y, predictions_train), with any bag generator or bags. *)
Definition trained {Q : Type} (b : base Q) (p : eoq_params) (X : list (list R)) (y : list Z) (preds : predictions)
    (q : eoq Q) : Prop :=
  exists (S : Type) (B : settable S) ppf k given g g', EoQ_fit B ppf b p k X y preds given g = Some (Val q, g').

(** The same ensemble with another combination strategy. *)
Definition with_strategy (c : combination) (p : eoq_params) : eoq_params :=
  {| ep_n := ep_n p; ep_combination := c; ep_function := ep_function p; ep_bins := ep_bins p;
     ep_strategy := ep_strategy p; ep_percentage := ep_percentage p |}.

(** The strategies that return a vector. *)
Definition one_vector (c : combination) : Prop :=
  c = CMean \/ c = CMedian \/ c = PrevalenceSimilarity \/ c = DistributionSimilarity.

(** An answer with one number is copied to the [n] classes. *)
Definition widened (n : nat) (answers answers' : list (list R)) : Prop :=
  Forall2 (fun a a' => length a' = n /\ (a' = a \/ exists v, a = [v] /\ forall c, (c < n)%nat -> nth c a' 0 = v)) answers answers'.

(** A base quantifier for the examples: CC, which keeps the classes of its training labels. *)
Definition counting_base : base (list Z) :=
  Using (fun y _ => Val (np_unique y))
        (fun classes preds => match preds with
                              | Crisp (x :: l) => Val (map (fun c => fraction c (x :: l)) classes)
                              | _ => NotANumber
                              end).

(** A base quantifier that answers the prevalences of its training labels among the classes 0, 1, ..., n-1. *)
Definition prior_base (n : nat) : base (list R) :=
  Without (fun _ y => Val (tabulate n (fun c => fraction (Z.of_nat c) y))) (fun p _ => Val p).

(** The same for a quantifier that uses classifiers. *)
Definition prior_using (n : nat) : base (list R) :=
  Using (fun y _ => Val (tabulate n (fun c => fraction (Z.of_nat c) y))) (fun p _ => Val p).
