(** * Property theorems: changing n_bins, bin_strategy and distribution_function of a fitted DFy or DFX (C130). *)

From Coq Require Import Reals List ZArith Lra Lia Bool.
From Verif Require Import Num Spec M_Baselines M_Search M_Optim Spec_Optim L_Optim5 M_Match Spec_Match M_History L_History2
  M_Rebin Spec_Rebin L_Rebin.
Import ListNotations.
Open Scope R_scope.

(** C130: whatever predictions were made and however the three parameters were changed since the last fit, if n_bins and
    distribution_function are again what they were at that fit, the object answers as a new one fitted once with the same data; the
    bin_strategy it has now does not matter. *)
Theorem C130_answers : forall q ppf N cvx fuel crit tol y rows o1 o2 o bag,
  ho_fit q ppf N fuel crit y rows o1 = Val o2 -> used_after q N cvx crit tol o2 o ->
  ho_kind o = ho_kind o1 -> ho_bins o = ho_bins o1 -> (crit = Named HD \/ crit = Named L1 -> ignores_warm_start cvx) ->
  exists fresh, ho_fit q ppf N fuel crit y rows (ho_new (ho_kind o1) (ho_bins o1) (ho_strat o1)) = Val fresh /\
    snd (ho_predict q N cvx crit tol bag o) = snd (ho_predict q N cvx crit tol bag fresh).
Proof. exact unchanged_answers. Qed.
Print Assumptions C130_answers.

(** With another n_bins than at the last fit every prediction raises ValueError and leaves the object as it is. *)
Theorem C130_n_bins : forall q ppf N cvx fuel crit tol y rows o1 o2 o bag, has_descriptors q y ->
  ho_fit q ppf N fuel crit y rows o1 = Val o2 -> used_after q N cvx crit tol o2 o -> ho_bins o <> ho_bins o1 ->
  ho_predict q N cvx crit tol bag o = (o, Err ValueError).
Proof. exact other_bins. Qed.
Print Assumptions C130_n_bins.

(** With another distribution_function predictions are made, but they compare a histogram with cumulative ones: for a bag like the first
    class a DFX fitted with 'CDF' answers (1, 0), and (0, 1) after the change to 'PDF', with every exact solver. *)
Theorem C130_distribution_function_refuted : forall ppf N fuel cvx tol, exact_cvx cvx -> answering_cvx cvx ->
  exists o, ho_fit (DFX_class_of 1) ppf N fuel (Named L1) [0; 0; 1; 1]%Z [[1]; [1]; [2]; [2]] (ho_new CDF 4 EqualWidth) = Val o /\
    snd (ho_predict (DFX_class_of 1) N cvx (Named L1) tol [[1]] o) = Val [1; 0] /\
    snd (ho_predict (DFX_class_of 1) N cvx (Named L1) tol [[1]] (set_kind PDF o)) = Val [0; 1].
Proof. exact kind_changes. Qed.
Print Assumptions C130_distribution_function_refuted.

(** A history of the kind meant: the parameters are changed, used and put back. *)
Example C130_hypotheses : forall ppf N fuel tol,
  exact_cvx ideal_cvx /\ answering_cvx ideal_cvx /\ ignores_warm_start ideal_cvx /\ has_descriptors (DFX_class_of 1) [0; 0; 1; 1]%Z /\
  has_descriptors DFy_class_of [0; 1]%Z /\
  exists o2 o, ho_fit (DFX_class_of 1) ppf N fuel (Named L1) [0; 0; 1; 1]%Z [[1]; [1]; [2]; [2]] (ho_new CDF 4 EqualWidth) = Val o2 /\
    used_after (DFX_class_of 1) N ideal_cvx (Named L1) tol o2 o /\ ho_kind o = CDF /\ ho_bins o = 4%nat /\ ho_strat o = EqualCount /\
    used_after (DFX_class_of 1) N ideal_cvx (Named L1) tol o2 (set_bins 5 o).
Proof.
  intros ppf N fuel tol. split; [exact ideal_cvx_exact|]. split; [intros w n f x; apply ideal_cvx_answers|]. split; [exact ideal_ignores|].
  split; [cbn; lia|]. split; [discriminate|].
  destruct (kind_changes ppf N fuel ideal_cvx tol ideal_cvx_exact) as (o2 & F & _); [intros w n f x; apply ideal_cvx_answers|].
  pose (o := set_kind CDF (set_bins 4 (set_strat EqualCount (fst (ho_predict (DFX_class_of 1) N ideal_cvx (Named L1) tol [[1]] (set_kind PDF (set_bins 5 o2))))))).
  assert (U : used_after (DFX_class_of 1) N ideal_cvx (Named L1) tol o2 o)
    by (apply used_kind, used_bins, used_strat, used_predict, used_kind, used_bins, used_not).
  exists o2, o. split; [exact F|]. split; [exact U|]. split; [reflexivity|]. split; [reflexivity|]. split; [reflexivity|]. now apply used_bins.
Qed.
