(** * Property theorems: losses and scores (C23-C31, C65, C68). *)

From Coq Require Import Reals List ZArith Lia Lra Permutation Bool.
From Verif Require Import Num Spec Spec_Metrics M_Metrics L_Num L_Metrics L_Metrics2 L_Metrics3.
Import ListNotations.
Open Scope R_scope.

(** Two concrete distributions over three classes, used by the examples below. *)
Example two_distributions : distribution_over 3 [1/2; 1/4; 1/4] /\ distribution_over 3 [1/3; 0; 2/3].
Proof.
  split; (split; [reflexivity|split; [repeat (apply Forall_cons; [lra|]); apply Forall_nil|simpl; lra]]).
Qed.

(** C23 *)
Theorem C23_l1_metric : forall n, (0 < n)%nat ->
  metric_on (fun p => length p = n) (fun p q => l1 (vec p) (vec q)).
Proof. exact l1_metric. Qed.
Print Assumptions C23_l1_metric.

Theorem C23_mae_metric : forall n, (0 < n)%nat ->
  metric_on (fun p => length p = n) (fun p q => mean_absolute_error (vec p) (vec q)).
Proof. exact mae_metric. Qed.
Print Assumptions C23_mae_metric.

Theorem C23_l2_metric : forall n, (0 < n)%nat ->
  metric_on (fun p => length p = n) (fun p q => l2 (vec p) (vec q)).
Proof. exact l2_metric. Qed.
Print Assumptions C23_l2_metric.

Theorem C23_hd_metric : forall n, (0 < n)%nat ->
  metric_on (fun p => length p = n /\ Forall (fun x => 0 <= x) p) (fun p q => hdist (vec p) (vec q)).
Proof. exact hd_metric. Qed.
Print Assumptions C23_hd_metric.

Theorem C23_emd_metric : forall n, (0 < n)%nat ->
  metric_on (fun p => length p = n) (fun p q => emd (vec p) (vec q)).
Proof. exact emd_metric. Qed.
Print Assumptions C23_emd_metric.

(** A value that is neither zero nor undefined. *)
Example C23_value : l1 (vec [1/2; 1/4; 1/4]) (vec [1/3; 0; 2/3]) = Val (5/6).
Proof.
  unfold l1. rewrite checked_vec by (auto; congruence). simpl.
  rewrite (Rabs_right (1/2 - 1/3)), (Rabs_right (1/4 - 0)), (Rabs_left (1/4 - 2/3)) by lra. f_equal. lra.
Qed.

(** C24 *)
Theorem C24_ranges : forall n,
  ranges_on_distributions n 0 2 (fun p q => l1 (vec p) (vec q)) /\
  ranges_on_distributions n 0 (2 / INR n) (fun p q => mean_absolute_error (vec p) (vec q)) /\
  ranges_on_distributions n 0 (sqrt 2) (fun p q => l2 (vec p) (vec q)) /\
  ranges_on_distributions n 0 (sqrt 2) (fun p q => hdist (vec p) (vec q)) /\
  ranges_on_distributions n 0 1 (fun p q => bray_curtis (vec p) (vec q)) /\
  ranges_on_distributions n 0 (INR (n - 1)) (fun p q => emd (vec p) (vec q)).
Proof. exact (fun n => conj (l1_range n) (conj (mae_range n) (conj (l2_range n) (conj (hd_range n)
  (conj (bray_curtis_range n) (emd_range n)))))). Qed.
Print Assumptions C24_ranges.

Theorem C24_extremes_attained : forall n, (2 <= n)%nat ->
  attained n 2 (fun p q => l1 (vec p) (vec q)) /\
  attained n (2 / INR n) (fun p q => mean_absolute_error (vec p) (vec q)) /\
  attained n (sqrt 2) (fun p q => l2 (vec p) (vec q)) /\
  attained n (sqrt 2) (fun p q => hdist (vec p) (vec q)) /\
  attained n 1 (fun p q => bray_curtis (vec p) (vec q)) /\
  attained n (INR (n - 1)) (fun p q => emd (vec p) (vec q)).
Proof. exact metrics_attained. Qed.
Print Assumptions C24_extremes_attained.

Theorem C24_topsoe_range : forall e n p q, 0 < e -> distribution_over n p -> distribution_over n q ->
  exists v, topsoe e (vec p) (vec q) = Val v /\ 0 <= v < 2 * ln 2.
Proof. exact topsoe_upper. Qed.
Print Assumptions C24_topsoe_range.

Theorem C24_probsymmetric_range : forall e n p q, 0 < e -> distribution_over n p -> distribution_over n q ->
  exists v, probsymmetric e (vec p) (vec q) = Val v /\ 0 <= v <= 4 / (1 + e).
Proof. exact ps_upper. Qed.
Print Assumptions C24_probsymmetric_range.

(** C25 *)
Theorem C25_kld_lower_bound : forall e n p q, 0 < e ->
  distribution_over n p -> distribution_over n q -> Forall (fun x => 0 < x) p ->
  exists v, kld e (vec p) (vec q) = Val v /\ - (ln (1 + INR n * e) / ln 2) <= v.
Proof. exact kld_lower. Qed.
Print Assumptions C25_kld_lower_bound.

Theorem C25_kld_self_negative : forall e n p, 0 < e -> distribution_over n p -> Forall (fun x => 0 < x) p ->
  exists v, kld e (vec p) (vec p) = Val v /\ v < 0.
Proof. exact kld_self_negative. Qed.
Print Assumptions C25_kld_self_negative.

Theorem C25_kld_zero_prevalence : forall e p q, 0 < e -> length p = length q ->
  Forall (fun x => 0 <= x) p -> Forall (fun x => 0 <= x) q -> In 0 p ->
  kld e (vec p) (vec q) = NotANumber.
Proof. exact kld_zero_undefined. Qed.
Print Assumptions C25_kld_zero_prevalence.

Example C25_hypotheses : 0 < 1 / 1000 /\ distribution_over 3 [1/2; 1/4; 1/4] /\
  Forall (fun x => 0 < x) [1/2; 1/4; 1/4].
Proof.
  split; [lra|split; [apply two_distributions|repeat (apply Forall_cons; [lra|]); apply Forall_nil]].
Qed.

(** C26 *)
Theorem C26_topsoe_divergence : forall e n p q, 0 < e -> (0 < n)%nat -> length p = n -> length q = n ->
  Forall (fun x => 0 <= x) p -> Forall (fun x => 0 <= x) q ->
  exists v, topsoe e (vec p) (vec q) = Val v /\ topsoe e (vec q) (vec p) = Val v /\
    0 <= v /\ (v = 0 <-> p = q).
Proof. exact topsoe_divergence. Qed.
Print Assumptions C26_topsoe_divergence.

Theorem C26_probsymmetric_divergence : forall e n p q, 0 < e -> (0 < n)%nat -> length p = n -> length q = n ->
  Forall (fun x => 0 <= x) p -> Forall (fun x => 0 <= x) q ->
  exists v, probsymmetric e (vec p) (vec q) = Val v /\ probsymmetric e (vec q) (vec p) = Val v /\
    0 <= v /\ (v = 0 <-> p = q).
Proof. exact ps_divergence. Qed.
Print Assumptions C26_probsymmetric_divergence.

Theorem C26_jensenshannon_half_topsoe : forall e n p q, 0 < e -> (0 < n)%nat -> length p = n -> length q = n ->
  Forall (fun x => 0 <= x) p -> Forall (fun x => 0 <= x) q ->
  exists v t, jensenshannon e (vec p) (vec q) = Val v /\ jensenshannon e (vec q) (vec p) = Val v /\
    0 <= v /\ topsoe e (vec p) (vec q) = Val t /\ 0 <= v - t / 2 <= INR n * e / 2.
Proof. exact js_properties. Qed.
Print Assumptions C26_jensenshannon_half_topsoe.

(** jensenshannon of a distribution with itself is not 0: it is no divergence in the strict sense. *)
Theorem C26_jensenshannon_self_positive : forall e n p, 0 < e -> distribution_over n p ->
  exists v, jensenshannon e (vec p) (vec p) = Val v /\ 0 < v.
Proof. exact js_self_positive. Qed.
Print Assumptions C26_jensenshannon_self_positive.

(** C27 *)
Theorem C27_emd_optimal_transport : forall n p q, length p = n -> length q = n -> (0 < n)%nat ->
  Forall (fun x => 0 <= x) p -> Forall (fun x => 0 <= x) q -> rsum p = rsum q ->
  exists v, emd (vec p) (vec q) = Val v /\
    (forall T, transport_plan n p q T -> v <= transport_cost n T) /\
    (exists T, transport_plan n p q T /\ transport_cost n T = v).
Proof. exact emd_optimal. Qed.
Print Assumptions C27_emd_optimal_transport.

Example C27_hypotheses : rsum [1/2; 1/4; 1/4] = rsum [1/3; 0; 2/3] /\
  exists T, transport_plan 3 [1/2; 1/4; 1/4] [1/3; 0; 2/3] T.
Proof.
  split; [simpl; lra|]. exists (fun i j => nth i [1/2; 1/4; 1/4] 0 * nth j [1/3; 0; 2/3] 0).
  apply product_plan; apply two_distributions.
Qed.

(** C28 *)
Theorem C28_emd_score : forall n p q, (2 <= n)%nat -> distribution_over n p -> distribution_over n q ->
  exists s, emd_score p q = Val s /\ 0 <= s <= 1 /\ (s = 1 <-> p = q).
Proof. exact emd_score_spec. Qed.
Print Assumptions C28_emd_score.

Theorem C28_furthest_is_extreme : forall n p q, (2 <= n)%nat -> distribution_over n p -> distribution_over n q ->
  exists d dl dr, emd (vec p) (vec q) = Val d /\ emd (vec p) (vec (concentrated n 0)) = Val dl /\
    emd (vec p) (vec (concentrated n (n - 1))) = Val dr /\ (d <= dl \/ d <= dr).
Proof. exact emd_furthest. Qed.
Print Assumptions C28_furthest_is_extreme.

(** C29 *)
Theorem C29_emd_distances_agrees : forall A B n i j, (0 < n)%nat ->
  Forall (fun r => length r = n) A -> Forall (fun r => length r = n) B ->
  (i < length A)%nat -> (j < length B)%nat ->
  rsum (nth i A []) = rsum (nth j B []) ->
  exists D v, emd_distances A B = Val D /\ emd (vec (nth i A [])) (vec (nth j B [])) = Val v /\
    nth j (nth i D []) 0 = v.
Proof. exact emd_distances_agrees. Qed.
Print Assumptions C29_emd_distances_agrees.

Theorem C29_unequal_totals_refuted : exists A B D v,
  emd_distances A B = Val D /\ emd (vec (nth 0 A [])) (vec (nth 0 B [])) = Val v /\
  nth 0 (nth 0 D []) 0 <> v.
Proof. exact emd_distances_differs. Qed.
Print Assumptions C29_unequal_totals_refuted.

Example C29_hypotheses : Forall (fun r => length r = 3%nat) [[1/2; 1/4; 1/4]; [1; 0; 0]] /\
  rsum (nth 0 [[1/2; 1/4; 1/4]; [1; 0; 0]] []) = rsum (nth 0 [[1/3; 0; 2/3]] []).
Proof. split; [repeat constructor|simpl; lra]. Qed.

(** C30: a class counts as recognised if some example of it is predicted as it. *)
Theorem C30_geometric_mean : forall yt yp, length yt = length yp -> yt <> [] ->
  exists g, geometric_mean 0 yt yp = Val g /\ 0 <= g <= 1 /\
    (g = 0 <-> exists c, (In c yt \/ In c yp) /\
                 ~ exists i, nth_error yt i = Some c /\ nth_error yp i = Some c) /\
    (g = 1 <-> yt = yp).
Proof. exact geometric_mean_spec. Qed.
Print Assumptions C30_geometric_mean.

Theorem C30_correction_positive : forall corr yt yp, 0 < corr -> length yt = length yp -> yt <> [] ->
  exists g, geometric_mean corr yt yp = Val g /\ 0 < g.
Proof. exact geometric_mean_correction. Qed.
Print Assumptions C30_correction_positive.

Example C30_hypotheses : length [1; 2; 2]%Z = length [1; 2; 3]%Z /\ [1; 2; 2]%Z <> [].
Proof. split; [reflexivity|congruence]. Qed.

(** C31 *)
Theorem C31_scores : forall p q, 0 <= p <= 1 -> 0 <= q <= 1 ->
  (0 <= normalized_absolute_score p q <= 1 /\ (normalized_absolute_score p q = 1 <-> q = p)) /\
  (0 <= normalized_squared_score p q <= 1 /\ (normalized_squared_score p q = 1 <-> q = p)).
Proof. exact (fun p q Hp Hq => conj (nas_spec p q Hp Hq) (nss_spec p q Hp Hq)). Qed.
Print Assumptions C31_scores.

Theorem C31_errors : forall p q,
  (0 <= absolute_error p q /\ (absolute_error p q = 0 <-> q = p)) /\
  (0 <= squared_error p q /\ (squared_error p q = 0 <-> q = p)).
Proof. exact (fun p q => conj (ae_zero p q) (se_zero p q)). Qed.
Print Assumptions C31_errors.

Theorem C31_sape : forall p q, 0 <= p -> 0 <= q ->
  symmetric_absolute_percentage_error p q = symmetric_absolute_percentage_error q p /\
  0 <= symmetric_absolute_percentage_error p q <= 1 /\
  (symmetric_absolute_percentage_error p q = 0 <-> q = p).
Proof. exact sape_spec. Qed.
Print Assumptions C31_sape.

Theorem C31_binary_kld : forall eps p q, 0 < p < 1 -> 0 < q < 1 ->
  exists v, binary_kld eps p q = Val v /\ 0 <= v /\ (v = 0 <-> q = p).
Proof. exact binary_kld_spec. Qed.
Print Assumptions C31_binary_kld.

Example C31_value : normalized_absolute_score (1/4) (3/4) = 1/3.
Proof.
  unfold normalized_absolute_score, Rmax. destruct (Rle_dec (1/4) (1 - 1/4)); [|lra].
  rewrite Rabs_right by lra. lra.
Qed.

(** C65 *)
Theorem C65_losses_reject : forall e p q, length p <> length q \/ n_columns p <> n_columns q \/ p = [] ->
  Forall (fun d => d p q = Err ValueError)
    [kld e; mean_absolute_error; l1; mean_squared_error; l2; hdist; bray_curtis; topsoe e;
     jensenshannon e; probsymmetric e; emd].
Proof. exact losses_reject. Qed.
Print Assumptions C65_losses_reject.

Theorem C65_losses_order_free : forall e, Forall (fun d => order_free (fun p q => d (vec p) (vec q)))
  [kld e; mean_absolute_error; l1; mean_squared_error; l2; hdist; bray_curtis; topsoe e;
   jensenshannon e; probsymmetric e].
Proof. exact losses_order_free. Qed.
Print Assumptions C65_losses_order_free.

Theorem C65_emd_depends_on_order : ~ order_free (fun p q => emd (vec p) (vec q)).
Proof. exact emd_order_matters. Qed.
Print Assumptions C65_emd_depends_on_order.

(** C68: on matrices with one prevalence vector per row, emd is the sum of the emds of the rows. *)
Theorem C68_emd_matrix : forall n A B, (0 < n)%nat -> A <> [] ->
  Forall2 (fun a b => length a = n /\ length b = n /\ rsum a = rsum b) A B ->
  exists vs, Forall2 (fun ab v => emd (vec (fst ab)) (vec (snd ab)) = Val v) (combine A B) vs /\
    emd A B = Val (rsum vs).
Proof. exact emd_matrix. Qed.
Print Assumptions C68_emd_matrix.

Example C68_hypotheses : Forall2 (fun a b => length a = 2%nat /\ length b = 2%nat /\ rsum a = rsum b)
  [[1/2; 1/2]; [1; 0]] [[1/4; 3/4]; [0; 1]].
Proof. repeat (apply Forall2_cons; [simpl; repeat split; auto; lra|]); apply Forall2_nil. Qed.

(** C69 *)
Theorem C69_mse_is_l2_squared_over_n : forall n p q, (0 < n)%nat -> length p = n -> length q = n ->
  exists m d, mean_squared_error (vec p) (vec q) = Val m /\ l2 (vec p) (vec q) = Val d /\
    d ^ 2 = INR n * m /\ (m = 0 <-> p = q).
Proof. exact mse_l2. Qed.
Print Assumptions C69_mse_is_l2_squared_over_n.

Theorem C69_brier : forall n k p q, (0 < n)%nat -> length p = n -> length q = n ->
  Forall (fun r => length r = k) p -> Forall (fun r => length r = k) q ->
  exists b, brier_multi p q = Val b /\ 0 <= b /\ (b = 0 <-> p = q) /\
    INR n * b = sumn n (fun i => sumn k (fun j => (nth j (nth i p []) 0 - nth j (nth i q []) 0) ^ 2)).
Proof. exact brier_spec. Qed.
Print Assumptions C69_brier.

Theorem C69_binary_errors_agree : forall p q,
  (0 < bias p q <-> p < q) /\ absolute_error p q = Rabs (bias p q) /\ squared_error p q = bias p q ^ 2.
Proof. exact binary_errors_agree. Qed.
Print Assumptions C69_binary_errors_agree.

Theorem C69_relative_error : forall eps p q, 0 < eps -> 0 <= p ->
  exists v, relative_absolute_error eps p q = Val v /\
    (0 < p -> v * p = absolute_error p q) /\ (p = 0 -> v * eps = absolute_error p q) /\
    0 <= v /\ (v = 0 <-> q = p).
Proof. exact rae_spec. Qed.
Print Assumptions C69_relative_error.

Example C69_hypotheses : Forall (fun r => length r = 2%nat) [[1; 0]; [0; 1]; [1/2; 1/2]].
Proof. repeat constructor. Qed.
