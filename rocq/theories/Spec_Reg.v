(** * Specification vocabulary for the regression quantifiers. *)

From Coq Require Import Reals List ZArith Bool.
From Verif Require Import Num Spec M_Bags Spec_Bags M_Match Spec_Match M_Reg.
Import ListNotations.
Open Scope R_scope.

(** The examples of [X] with the given indexes. *)
Definition examples (X : list (list R)) (idx : list nat) : list (list R) := map (fun i => nth i X []) idx.

(** [r] has one block of [nb] entries per attribute; entry [k] of block [b] is the number of examples of
    the sample whose attribute [b] is in bin [k], divided by [n]. *)
Definition bin_counts (nb : nat) (cuts : list (list edge)) (n : nat) (sample : list (list R)) (r : list R) : Prop :=
  length r = (nb * length cuts)%nat /\
  forall b k, (b < length cuts)%nat -> (k < nb)%nat ->
    exists c, how_many (in_bin (nth b cuts []) k) (col b sample) c /\ nth (b * nb + k) r 0 = INR c / INR n.

(** The pair (row, targets) describes the examples [idx] of the training set: the row counts them
    (divided by the size of the training set), the targets are the fractions of each class. *)
Definition training_pair (nb : nat) (cuts : list (list edge)) (X : list (list R)) (y : list Z) (size : nat)
    (row targets : list R) (idx : list nat) : Prop :=
  length idx = size /\ Forall (fun i => (i < length y)%nat) idx /\
  bin_counts nb cuts (length X) (examples X idx) row /\
  length targets = length (np_unique y) /\
  forall c, (c < length (np_unique y))%nat ->
    nth c targets 0 = fraction (nth c (np_unique y) 0%Z) (bag_labels y idx).

(** What the user expects of generate_bags: as many bags as [n_bags], each with the stated size and the
    prevalences of its examples. *)
Definition honest_source {S : Type} (B : bag_source S) (g : S) (X : list (list R)) (y : list Z) (size : nat) : Prop :=
  forall bags g', bs_generate B X y g = Some (Val bags, g') ->
    length bags = bs_n_bags B g' /\ Forall (honest_bag y size) bags.

(** A source that returns the same bags for ever after a successful call. *)
Definition write_once {S : Type} (B : bag_source S) : Prop :=
  forall X y g bags g', bs_generate B X y g = Some (Val bags, g') ->
    forall X' y', bs_generate B X' y' g' = Some (Val bags, g').

(** A regression estimator that always predicts a number. *)
Definition always_predicts {M : Type} (Q : regression M) : Prop :=
  forall m row, exists p, rg_predict Q m row = Val p.

(** GLM gives one coefficient for each column. *)
Definition one_coefficient_each {M : Type} (Q : regression M) : Prop :=
  forall d rows targets params, Forall (fun r => length r = d) rows -> rows <> [] ->
    glm_fit Q rows targets = Val params -> length params = d.

(** The fitted estimator [m] returns the targets it was fitted with. *)
Definition interpolates {M : Type} (Q : regression M) (m : M) (rows : list (list R)) (targets : list R) : Prop :=
  forall j, (j < length rows)%nat -> rg_predict Q m (nth j rows []) = Val (nth j targets 0).

(** What may happen to the shared objects: other quantifiers are fitted, the regression estimator is
    fitted with anything else, the generator is called. *)
Inductive reg_event :=
| Refit (rows : list (list R)) (targets : list R)
| Generate (X : list (list R)) (y : list Z)
| FitX (n_bins : nat) (strat : strategy) (X : data) (y : list Z)
| FitY (n_bins : nat) (strat : strategy) (y : list Z) (preds : list (list R)).

Fixpoint reg_history {S M : Type} (B : bag_source S) (Q : regression M) (ppf : R -> R) (evs : list reg_event)
    (w : world S M) : option (world S M) :=
  match evs with
  | [] => Some w
  | Refit rows targets :: t =>
      reg_history B Q ppf t
        {| w_generator := w_generator w;
           w_regressor := match w_regressor w with
                          | Some m => match rg_fit Q m rows targets with Val m' => Some m' | _ => Some m end
                          | None => None
                          end |}
  | Generate X y :: t =>
      match bs_generate B X y (w_generator w) with
      | Some (_, g) => reg_history B Q ppf t {| w_generator := g; w_regressor := w_regressor w |}
      | None => None
      end
  | FitX nb strat X y :: t =>
      match REGX_fit B Q ppf nb strat X y w with
      | Some (_, w') => reg_history B Q ppf t w'
      | None => None
      end
  | FitY nb strat y preds :: t =>
      match REGy_fit B Q ppf nb strat y preds w with
      | Some (_, w') => reg_history B Q ppf t w'
      | None => None
      end
  end.

(** ** A generator and regression estimators for the examples *)

(** It always returns the same bags. *)
Definition fixed_source (bags : list bag) : bag_source unit := {|
  bs_n_bags := fun _ => length bags;
  bs_generate := fun _ _ s => Some (Val bags, s)
|}.

(** It remembers the targets it was fitted with and predicts their average, whatever the row. *)
Definition mean_regressor : regression (list R) := {|
  rg_fit := fun _ _ t => Val t;
  rg_predict := fun t _ => if Nat.eqb (length t) 0 then NotANumber else Val (rmean t);
  glm_fit := fun rows _ => Val (repeat 0 (width rows))
|}.

(** It always predicts the same value. *)
Definition constant_regressor (v : R) : regression unit := {|
  rg_fit := fun m _ _ => Val m;
  rg_predict := fun _ _ => Val v;
  glm_fit := fun rows _ => Val (repeat 0 (width rows))
|}.

(** It remembers the training data and predicts the target of the first equal row (0 if there is none). *)
Definition same_row (a b : list R) : bool := if list_eq_dec Req_EM_T a b then true else false.
Definition memory_regressor : regression (list (list R * R)) := {|
  rg_fit := fun _ rows t => Val (combine rows t);
  rg_predict := fun m row => Val (match find (fun p => same_row (fst p) row) m with Some p => snd p | None => 0 end);
  glm_fit := fun rows _ => Val (repeat 0 (width rows))
|}.
