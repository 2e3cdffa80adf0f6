(** * Model of DFy, DFX and FriedmanME as objects whose distance and tolerance can be changed between calls (C127). *)

From Coq Require Import Reals List ZArith Bool.
From Verif Require Import Num M_Baselines M_Search M_Optim M_Match M_History.
Import ListNotations.
Open Scope R_scope.

(** df.py:193-214, 497-516, friedman.py:131-147: the parameters distance and tol, and what fit and predict assign.  Other parameters
    (n_bins, bin_strategy, distribution_function) are not changed here. *)
Record tunable (B : Type) := { tn_distance : criterion; tn_tol : R; tn_state : matcher B }.
Arguments tn_distance {B}. Arguments tn_tol {B}. Arguments tn_state {B}. Arguments Build_tunable {B}.

(** A new object. *)
Definition tunable_new {B : Type} (crit : criterion) (tol : R) : tunable B := Build_tunable crit tol unfitted_matcher.

(** df.py:216-277, 518-566, friedman.py:149-204 fit: it uses the distance that the object has now.  [fit]: what fit computes from the
    distance and the arguments. *)
Definition tunable_fit {A B : Type} (fit : criterion -> A -> out (matcher B)) (a : A) (o : tunable B) : out (tunable B) :=
  omap (fun m => Build_tunable (tn_distance o) (tn_tol o) (assign_matcher (tn_distance o) (tn_state o) m)) (fit (tn_distance o) a).

(** df.py:279-357, 568-623, friedman.py:206-271 predict *)
Definition tunable_predict {B : Type} (N : numerics) (cvx : cvx_solver) (bag : B) (o : tunable B) : tunable B * out (list R) :=
  let '(m, r) := matching_predict N cvx (tn_distance o) (tn_tol o) (tn_state o) bag in (Build_tunable (tn_distance o) (tn_tol o) m, r).

(** o.set_params(distance=..), o.set_params(tol=..), or an assignment to the attribute: nothing else changes (M_Params.v). *)
Definition set_distance {B : Type} (crit : criterion) (o : tunable B) : tunable B := Build_tunable crit (tn_tol o) (tn_state o).
Definition set_tol {B : Type} (tol : R) (o : tunable B) : tunable B := Build_tunable (tn_distance o) tol (tn_state o).

(** What fit computes in DFy (labels and predictions), DFX (labels, number of attributes, examples) and FriedmanME (labels and predictions). *)
Definition DFy_fits (ppf : R -> R) (N : numerics) (fuel : nat) (kind : representation) (n_bins : nat) (strat : strategy)
    (crit : criterion) (a : list Z * list (list R)) : out (matcher (list (list R))) :=
  DFy_fit ppf N fuel kind n_bins strat crit (fst a) (snd a).
Definition DFX_fits (ppf : R -> R) (N : numerics) (fuel : nat) (kind : representation) (n_bins : nat) (strat : strategy)
    (crit : criterion) (a : list Z * nat * list (list R)) : out (matcher (list (list R))) :=
  DFX_fit ppf N fuel kind n_bins strat crit (fst (fst a)) (snd (fst a)) (snd a).
Definition FriedmanME_fits (N : numerics) (fuel : nat) (crit : criterion) (a : list Z * list (list R)) : out (matcher (list (list R))) :=
  FriedmanME_fit N fuel crit (fst a) (snd a).
