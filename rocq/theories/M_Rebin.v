(** * Model of DFy and DFX as objects whose n_bins, bin_strategy and distribution_function can be changed between calls (C130). *)

From Coq Require Import Reals List ZArith Bool.
From Verif Require Import Num M_Baselines M_Search M_Optim M_Match M_History.
Import ListNotations.
Open Scope R_scope.

(** multiclass/df.py: DFy, and DFX for examples with [k] attributes. *)
Inductive histogram_class := DFy_class_of | DFX_class_of (k : nat).

(** df.py:249-254 and 538-541 *)
Definition hc_cuts (q : histogram_class) (ppf : R -> R) (n_bins : nat) (strat : strategy) (y : list Z) (rows : list (list R))
  : out (list (list edge)) :=
  match q with
  | DFy_class_of => DFy_cuts ppf n_bins strat y rows
  | DFX_class_of k => DFX_cuts ppf n_bins strat y k rows
  end.

(** df.py:257-266 and 323-333; 544-555 and 593-603 *)
Definition hc_represent (q : histogram_class) : representation -> list (list edge) -> list (list R) -> out (list R) :=
  match q with DFy_class_of => dfy_represent | DFX_class_of _ => dfx_represent end.

(** df.py:216-277 and 518-566 *)
Definition hc_fit (q : histogram_class) (ppf : R -> R) (N : numerics) (fuel : nat) (kind : representation) (n_bins : nat) (strat : strategy)
    (crit : criterion) (y : list Z) (rows : list (list R)) : out (matcher (list (list R))) :=
  match q with
  | DFy_class_of => DFy_fit ppf N fuel kind n_bins strat crit y rows
  | DFX_class_of k => DFX_fit ppf N fuel kind n_bins strat crit y k rows
  end.

(** df.py:193-214 and 497-516: distribution_function, n_bins, bin_strategy, bincuts_ (None before fit), and the other attributes that fit
    and predict assign.  distance and tol are not changed here (see M_Retune.v). *)
Record histogram_object := {
  ho_kind : representation;
  ho_bins : nat;
  ho_strat : strategy;
  ho_cuts : option (list (list edge));
  ho_state : matcher (list (list R))
}.

Definition ho_new (kind : representation) (n_bins : nat) (strat : strategy) : histogram_object :=
  {| ho_kind := kind; ho_bins := n_bins; ho_strat := strat; ho_cuts := None; ho_state := unfitted_matcher |}.

(** fit uses the parameters that the object has now. *)
Definition ho_fit (q : histogram_class) (ppf : R -> R) (N : numerics) (fuel : nat) (crit : criterion) (y : list Z) (rows : list (list R))
    (o : histogram_object) : out histogram_object :=
  obind (hc_cuts q ppf (ho_bins o) (ho_strat o) y rows) (fun cuts =>
    omap (fun m => {| ho_kind := ho_kind o; ho_bins := ho_bins o; ho_strat := ho_strat o; ho_cuts := Some cuts;
                      ho_state := assign_matcher crit (ho_state o) m |})
         (hc_fit q ppf N fuel (ho_kind o) (ho_bins o) (ho_strat o) crit y rows)).

Definition with_represent {B : Type} (f : B -> out (list R)) (m : matcher B) : matcher B :=
  Build_matcher (mt_classes m) (mt_bins m) (mt_T m) (mt_l2 m) f (mt_problem m) (mt_mixtures m).

(** df.py:279-357 and 568-623 predict: the bag is represented with bincuts_ and with distribution_function as it is now.  The slices of
    test_distrib_ have n_bins entries (df.py:323-327, 593-597): numpy raises ValueError if the histograms have another length.
    Simplification: histograms of one bin are repeated by numpy to fill the slice, and then the solvers raise ValueError because
    test_distrib_ has another length than train_distrib_; the model raises at once (also if the distance is a Python function, which could
    accept arrays of different lengths). *)
Definition ho_predict (q : histogram_class) (N : numerics) (cvx : cvx_solver) (crit : criterion) (tol : R) (bag : list (list R))
    (o : histogram_object) : histogram_object * out (list R) :=
  match ho_cuts o with
  | None => (o, Err TypeError)
  | Some cuts =>
      if forallb (fun c => Nat.eqb (length c) (S (ho_bins o))) cuts then
        let '(m, r) := matching_predict N cvx crit tol (with_represent (hc_represent q (ho_kind o) cuts) (ho_state o)) bag in
        ({| ho_kind := ho_kind o; ho_bins := ho_bins o; ho_strat := ho_strat o; ho_cuts := ho_cuts o; ho_state := m |}, r)
      else (o, Err ValueError)
  end.

(** o.set_params(..), or an assignment to the attribute: nothing else changes (M_Params.v). *)
Definition set_kind (kind : representation) (o : histogram_object) : histogram_object :=
  {| ho_kind := kind; ho_bins := ho_bins o; ho_strat := ho_strat o; ho_cuts := ho_cuts o; ho_state := ho_state o |}.
Definition set_bins (n_bins : nat) (o : histogram_object) : histogram_object :=
  {| ho_kind := ho_kind o; ho_bins := n_bins; ho_strat := ho_strat o; ho_cuts := ho_cuts o; ho_state := ho_state o |}.
Definition set_strat (strat : strategy) (o : histogram_object) : histogram_object :=
  {| ho_kind := ho_kind o; ho_bins := ho_bins o; ho_strat := strat; ho_cuts := ho_cuts o; ho_state := ho_state o |}.
