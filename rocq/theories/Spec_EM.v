(** * Specification vocabulary for EM. *)

From Coq Require Import Reals List ZArith.
From Verif Require Import Num Spec.
Import ListNotations.
Open Scope R_scope.

(** The prior-shift model: with test prevalences [pi], an example whose training posterior is [row]
    has likelihood proportional to  sum_j row_j * pi_j / train_j. *)
Definition evidence (train row pi : list R) : R :=
  sumn (length train) (fun j => nth j row 0 * nth j pi 0 / nth j train 0).

(** Log-likelihood of a bag under prevalences [pi]. *)
Definition log_likelihood (train : list R) (preds : list (list R)) (pi : list R) : R :=
  rsum (map (fun row => ln (evidence train row pi)) preds).

(** The corrected posterior of class [j], and the textbook update: its mean over the bag. *)
Definition responsibility (train pi row : list R) (j : nat) : R :=
  nth j row 0 * nth j pi 0 / nth j train 0 / evidence train row pi.

Definition em_update (train : list R) (preds : list (list R)) (pi : list R) : list R :=
  tabulate (length train) (fun j =>
    rsum (map (fun row => responsibility train pi row j) preds) / INR (length preds)).

(** The prevalences after [k] updates, starting at the training prevalences. *)
Fixpoint em_iterate (train : list R) (preds : list (list R)) (k : nat) : list R :=
  match k with
  | O => train
  | S k' => em_update train preds (em_iterate train preds k')
  end.

(** Mean absolute change of the [k]-th update. *)
Definition em_change (train : list R) (preds : list (list R)) (k : nat) : R :=
  sumn (length train) (fun j => Rabs (nth j (em_iterate train preds k) 0 - nth j (em_iterate train preds (k - 1)) 0))
  / INR (length train).

(** Prevalences under which every example of the bag is possible (its likelihood is not 0). *)
Definition explains (train : list R) (preds : list (list R)) (q : list R) : Prop :=
  distribution_over (length train) q /\ forall row, In row preds -> 0 < evidence train row q.

(** [p] is within [gap] of the largest log-likelihood of the bag. *)
Definition within_of_best (gap : R) (train : list R) (preds : list (list R)) (p : list R) : Prop :=
  explains train preds p /\
  forall q, explains train preds q -> log_likelihood train preds q - log_likelihood train preds p <= gap.

(** ** Prior shift with finitely many feature values

    [F c x] is the probability of the feature value [x < M] in class [c < n]: the same in training and test. *)
Definition class_conditional (n M : nat) (F : nat -> nat -> R) : Prop :=
  forall c, (c < n)%nat -> (forall x, (x < M)%nat -> 0 <= F c x) /\ sumn M (F c) = 1.

(** The probability of [x] when the prevalences are [pi]. *)
Definition value_probability (n : nat) (F : nat -> nat -> R) (pi : list R) (x : nat) : R :=
  sumn n (fun c => nth c pi 0 * F c x).

(** Bayes' rule with the training prevalences: the posterior of a calibrated classifier for the value [x]. *)
Definition calibrated_posterior (train : list R) (F : nat -> nat -> R) (x : nat) : list R :=
  tabulate (length train) (fun c => nth c train 0 * F c x / value_probability (length train) F train x).

(** The frequency of every value in the bag is its probability when the prevalences are [pi]. *)
Definition bag_of (n M : nat) (F : nat -> nat -> R) (pi : list R) (bag : list nat) : Prop :=
  bag <> [] /\ Forall (fun x => (x < M)%nat) bag /\
  forall x, (x < M)%nat -> INR (count_occ Nat.eq_dec bag x) / INR (length bag) = value_probability n F pi x.

(** Squared Hellinger distance of two functions of [M] values. *)
Definition hellinger2 (M : nat) (f g : nat -> R) : R := sumn M (fun x => (sqrt (f x) - sqrt (g x)) ^ 2).
