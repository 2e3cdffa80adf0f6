# Formal model of quantificationlib in Rocq (Coq 8.16.1)

Sources: `/repo/quantificationlib` (Python, pinned commit).  Model, specification and
proofs: `/verif/rocq/theories`.  English properties: `/verif/properties.jsonl`
(C01...); the theorem names per property are in `/verif/MANIFEST.json`; the tests of the
theorems against wrong programs are in `/verif/seeded/LOG.jsonl`.

## 1. Layout

* `Num.v`       vocabulary shared by all models: outcomes, numpy list/vector helpers.
* `Spec*.v`     small specifications, independent of the models: distributions, transport
                plans, out-of-fold, energy distance, histories of calls, ...
* `M_*.v`       models, one per Python module group.  Every definition cites file:lines.
                No proofs there.
* `L_*.v`       auxiliary lemmas and proofs.
* `Properties*.v` only the property theorems, each closed by a lemma, followed by
                `Print Assumptions`, with `Example`s showing that concrete,
                non-trivial cases meet the hypotheses.
* `/verif/tools` `props.py` writes `properties.jsonl`; `manifest.py` writes `MANIFEST.json` and
                `_CoqProject`; `assumptions.py` writes the table of section 3.

## 2. Modelling conventions

* A Python float is a Coq real (`R`): rounding, overflow and signed zero are NOT modelled, except in the
  double-precision group (C112 onwards; M_Float*.v).  There a float is an IEEE double of Flocq (`binary_float 53 1024`,
  round to nearest even), and np.sum is an argument: any function that adds the numbers in some order and grouping
  (`adds_in_some_order`).  numpy's pairwise summation is modelled too and proved to be such a function.
  NaN and infinities are not reals: where the code can produce them the model returns the
  explicit outcome `NotANumber` (division by zero, log of zero).  Exceptions are explicit
  outcomes `Err ValueError`, `Err IndexError`, ...
* Class labels are integers (`Z`); `np.unique` is modelled by sort + dedup.
* ndarray of shape (n,) is `list R`; (n,m) is `list (list R)` (list of rows) or, in the
  optimisation code, a function of two indexes with explicit dimensions.
* Classifiers, regressors, cvxpy, quadprog, `linalg.inv`, SVD/eigenvalue routines, nearest
  neighbours, `np.argsort` (order of ties), the normal quantile function and the random
  generators are not library code: they are function arguments (oracles) of the model.
  Theorems that need something of them say so as an explicit hypothesis (for example
  "solve_qp returns a minimiser"), never as an axiom; an `Example` shows an oracle that has it.
* Objects with state are records, methods are functions from state to state and outcome;
  histories are lists of calls.  Shared objects (estimators, bag generators, regressors) live in
  a heap indexed by number, so that aliasing is visible.
* Loops are structural recursion; loops without a bound (`while`) get fuel, and the
  theorems are about runs that end, or say that no fuel is enough.

## 3. Trusted base

* Coq's kernel (checked again with `coqchk`).
* The axioms that `Print Assumptions` lists, all of Coq's standard library: those of the classical
  reals and, for some theorems, classical logic and description.  No other library adds any (Coquelicot is used for a
  few derivatives, mathcomp's and the other libraries' axioms are not used).  Per theorem:

<!-- ASSUMPTIONS -->
* no axioms (closed under the global context) (25 theorems): C105_number_of_draws, C111_generator, C121_failed_fit_is_final, C121_other_processes, C121_refused_fit, C121_same_process, C126_clone, C126_cv_refuted, C126_decompositions, C126_first_argument_test, C126_first_argument_train, C126_get_params, C126_methods_keep, C126_modes, C126_presets, C126_renamed_refuted, C126_set_params, C126_set_params_unknown, C126_tree_clone_refuted, C126_tree_params_refuted, C19_ddag_estimators, C61_other_processes, C61_same_process_last_bag_only, C61_second_fit, C94_boxes.
* `ClassicalDedekindReals.sig_forall_dec` (3 theorems): C104_fit_order, C15_frank_hall_classifier_values, C21_binarizer_two_classes.
* `ClassicalDedekindReals.sig_forall_dec`, `FunctionalExtensionality.functional_extensionality_dep` (242 theorems): C01_cc_empty_bag, C01_cc_exact_frequencies, C02_pcc_distribution, C03_ac_binary_distribution, C03_pac_binary_distribution, C03_pwk_binary_distribution, C03_unknown_labels_refuted, C04_ac_multiclass_distribution, C04_pac_multiclass_distribution, C05_ac_recovers_prevalence, C05_pac_recovers_prevalence, C06_bag_order, C06_em_bag_order, C07_bag_replication, C07_em_bag_replication, C08_em_training_order, C08_training_order_ac, C08_training_order_pac_debias, C09_debias_binary_only, C09_debias_distribution, C09_debias_exact, C100_counts_respond, C100_pac_responds, C101_two_classes, C102_own_examples, C105_all_classes, C105_draws, C105_empty_class, C105_last_class, C105_minimum_draws, C105_minimum_impossible, C105_minimum_uniform, C105_two_classes, C105_uniform_refuted, C106_AC, C106_CC, C106_DeBias, C106_EM, C106_FrankAndHall, C106_PAC, C106_PWKQ, C106_any_renaming_refuted, C106_order, C106_tree, C107_PWK, C107_PWK_one_class_refuted, C107_PriorShift, C107_predict_label, C108_bray_curtis_l1, C108_emd_l1, C108_emd_mean_class, C108_emd_two, C108_l1_mae, C109_EoQ_selected, C109_bray_curtis, C109_emd, C109_l1, C109_mae, C109_mse, C109_probsymmetric, C10_em_distribution, C10_em_stopping, C10_em_training_prevalences, C10_em_zero_posterior, C110_correction, C110_correction_new, C110_correction_new_refuted, C110_cumulative, C110_prevalences, C110_pwk_weights, C110_quantile_weights, C110_quantiles, C110_recall, C110_sord_weights, C110_threshold, C110_winner_node, C110_winner_node_refuted, C111_CV, C111_CV_copies_refuted, C111_PWK, C111_PWK_copies_refuted, C116_separated_positive, C116_separated_two, C120_answers, C120_binary_problems, C120_failed_fit, C120_never_fitted, C120_nothing_else_changes, C120_private_copies, C120_refused_fit_relabels, C120_schedule_and_history, C120_tree, C120_tree_failed, C120_when_fit_returns, C121_retry_refuted, C123_load_labels, C123_load_round_trip, C125_CC, C125_DeBias_fit_returns, C125_DeBias_never_fitted, C125_DeBias_not_binary, C125_DeBias_one_column, C125_DeBias_refit, C125_DeBias_refit_refuted, C125_EM_fit_returns, C125_EM_never_fitted, C125_EM_refit, C125_EM_refit_other, C125_PCC, C128_path_length, C12_em_fixed_point, C12_em_no_shift, C13_frank_hall_ascending, C13_frank_hall_distribution, C13_frank_hall_exact, C14_correction_ascending, C14_correction_average, C14_correction_bounds, C14_correction_idempotent, C14_correction_untouched, C15_frank_hall_classifier_middle, C15_frank_hall_classifier_refuted, C16_monotone_averaging_refuted, C16_monotone_classifier_distribution, C17_ordinal_tree_quantifier, C17_tree_distribution, C17_tree_path_probabilities, C17_tree_shape, C18_tree_scores_actual, C18_tree_scores_refuted, C19_ddag_distribution, C19_ddag_value, C20_winner_node, C21_binarizer, C22_one_vs_rest, C22_one_vs_rest_over_pcc, C22_one_vs_rest_two_classes, C23_emd_metric, C23_l1_metric, C23_mae_metric, C24_probsymmetric_range, C26_probsymmetric_divergence, C27_emd_optimal_transport, C28_emd_score, C28_furthest_is_extreme, C29_emd_distances_agrees, C29_unequal_totals_refuted, C31_errors, C31_sape, C31_scores, C32_prior_shift_bags, C33_exact_bound_refuted, C33_min_prevalence, C33_rounding, C34_can_return, C34_never_returns, C34_no_room, C34_terminates_without_minimum, C34_termination_refuted, C37_prior_shift_write_once, C38_out_of_fold, C38_shuffling_splitter_refuted, C39_rows_aligned_with_labels, C39_rows_of_another_sample, C40_not_fitted, C40_votes_and_averages, C41_first_fit_wins, C41_fitted_at_most_once, C42_fit_value_error, C42_given_labels, C42_given_predictions_fit, C42_given_predictions_predict, C42_predict_value_error, C43_fit_first_maximal_column, C43_predict_first_maximal_column, C43_scores_thresholded, C43_single_probability_fails, C46_range_refuted, C46_test_ascending, C46_test_mean, C46_test_range, C46_test_values, C46_training_ascending, C46_training_mean, C46_training_mean_exact, C46_training_range, C46_training_values, C47_area, C53_same_distances, C54_gaussian, C55_range, C55_two_neighbours, C55_winner, C55_winner_last, C61_one_model_per_bag_refuted, C62_estimators_refuted, C64_predict_is_first_maximum, C64_rarer_classes_weigh_more, C64_row_values, C64_rows_are_distributions, C64_single_class, C65_emd_depends_on_order, C67_ascending, C67_default_list, C67_descending, C67_distribution, C67_lines, C67_list_reversed, C67_positions, C67_same_list_refuted, C67_sort, C67_sort_descending, C67_sort_missing, C68_emd_matrix, C69_binary_errors_agree, C69_brier, C69_relative_error, C70_misaligned_training_rejected, C71_frank_hall_fit, C71_frank_hall_fit_without_classifiers, C71_frank_hall_over_pcc, C71_frank_hall_predict, C71_frank_hall_two_classes, C71_one_vs_rest_fit, C72_ordinal_predict_label, C73_failed_call_leaves_zeros, C73_retry_refuted, C74_dirichlet_reproducible_refuted, C74_uniform_reproducible, C75_last_class_present, C75_other_classes_can_be_absent, C94_colour, C94_distinct, C94_repeated, C97_ac_binary_error, C97_ac_multiclass_error, C97_pac_binary_error, C97_pac_multiclass_error, C98_cc_error, C98_pcc_error, C99_frank_hall_error, C99_one_vs_rest_error.
* `ClassicalDedekindReals.sig_forall_dec`, `ClassicalDedekindReals.sig_not_dec`, `FunctionalExtensionality.functional_extensionality_dep` (205 theorems): C101_cvmy_minimises, C101_edy_consistent, C101_edy_minimises, C101_edy_nearly_minimises, C101_energy_area, C101_energy_zero, C101_sees_rows_refuted, C103_CvMy_joint, C103_CvMy_order, C103_ED_bag, C103_ED_training, C103_EDy_solver, C106_CvMy, C106_DFX, C106_DFy, C106_ED, C106_FriedmanME, C106_PDFOrdinaly, C107_CovariateShift, C107_EoQ, C107_PriorAndCovariateShift, C107_REGX, C107_REGy, C107_generators, C108_hd_l1, C108_l2_l1, C108_l2_mse, C108_probsymmetric_l1, C109_EoQ_mean_any, C109_hd, C109_l2, C109_median_refuted, C110_dpofa, C111_CvMy, C111_CvMy_copies_refuted, C111_EDy, C122_failed_refit_refuted, C122_failed_refit_same_classes, C122_never_fitted, C123_no_leak, C123_normalize, C125_PAC_fit_returns, C125_PAC_labels_are_scores, C125_PAC_never_fitted_refuted, C125_PAC_no_predictions, C125_PAC_refit_refuted, C125_PAC_scores_suffice, C125_PAC_uncorrected, C127_AC_PAC_frozen, C129_refused, C131_cdf, C131_early, C131_fewer_members, C131_fit_returns, C131_last_member_refuted, C131_more_members, C131_one_fit, C131_returns, C131_unfinished_using, C131_unfinished_without, C23_hd_metric, C23_l2_metric, C24_extremes_attained, C24_ranges, C35_always_returns, C35_covariate_bags, C35_probabilities, C36_default_bag_size_refuted, C36_mixed_bags, C37_covariate_shift_write_once, C37_mixed_shift_write_once, C47_ties, C47_zero, C48_dependent_classes, C48_distribution, C48_exact_fit, C48_least_squares, C49_decides, C49_factor, C49_info, C49_not_symmetric_refuted, C49_upper_triangle, C50_CvMy_minimises, C50_consistent, C50_distribution, C50_minimises_energy, C50_nearly_minimises, C51_DFX_fit, C51_DFy_fit, C51_normal_refuted, C54_binormal, C54_equal_count, C54_equal_count_balanced, C54_equal_count_few_refuted, C54_equal_count_order_refuted, C54_equal_width, C54_normal, C57_identity, C57_metric, C57_minimises, C57_tolerance_refuted, C58_all, C58_distribution_similarity, C58_mean, C58_median, C58_median_always_refuted, C58_median_two, C58_none_selected, C58_prevalence_similarity, C58_strategy_at_fit, C59_bags_refuted, C59_same_selection, C59_whole_using, C59_whole_without, C60_generators, C60_own_data_refuted, C60_shared_bags, C62_AC, C62_AC_answers, C62_AC_distance, C62_PAC, C62_PAC_answers, C62_PAC_distance, C62_PWKQuantifier, C62_PWKQuantifier_answers, C63_REGX_default, C63_REGX_distribution, C63_REGX_many, C63_REGX_two, C63_REGy_default, C63_REGy_distribution, C63_REGy_many, C63_REGy_two, C63_many_always_refuted, C66_l2_parameters, C66_positive_definite, C66_semidefinite, C66_terminates, C69_mse_is_l2_squared_over_n, C76_AC_HD, C76_AC_L1, C76_AC_L2, C76_PAC_HD, C76_PAC_L1, C76_PWKQ_L1, C77_CvMy_scale_free, C79_ACOrdinal, C79_DFX, C79_DFy, C79_FriedmanME, C79_PDFOrdinaly, C83_REGX_pairs, C83_REGX_test, C83_REGy_pairs, C83_REGy_test, C83_any_size_refuted, C83_default_distorted, C83_generators_honest, C83_mass, C83_other_scale, C83_same_scale, C84_REGX_independent, C84_REGX_user, C84_REGy_independent, C84_REGy_user, C84_two_classes_refuted, C85_REGX_reused, C85_REGy_reused, C85_generators_write_once, C85_own_data_refuted, C86_REGX_same_bag, C86_REGy_same_bag, C87_many_classes, C87_two_classes, C88_flat_fails, C88_more_attributes, C89_bags, C89_fresh_covariate, C89_fresh_mixed, C89_fresh_prior, C89_using_crisp, C89_using_models, C89_using_soft, C89_without, C90_between, C90_mean_error, C90_order, C90_selected_error, C90_unanimous, C91_aligned_refuted, C91_one_class, C91_wrong_length, C92_bins, C92_cdf, C92_crisp, C92_hundred_bins, C92_using_bins, C93_DFX, C93_DFy, C93_EoQ_using, C93_EoQ_without, C93_REGX, C93_REGy, C93_equal_width_data, C93_equal_width_range.
* `ClassicalDedekindReals.sig_forall_dec`, `ClassicalDedekindReals.sig_not_dec`, `Classical_Prop.classic`, `FunctionalExtensionality.functional_extensionality_dep` (224 theorems): C102_edx_consistent, C102_edx_minimises, C102_edx_nearly_minimises, C102_energy_zero, C103_EDX_solver, C104_QUANTy_bag, C104_QUANTy_order, C104_SORDy, C104_SORDy_affine, C104_SORDy_cumulative, C106_ACOrdinal, C106_QUANTy, C106_SORDy, C108_kld_l1, C108_topsoe_l1, C108_topsoe_probsymmetric, C109_EoQ_mean, C109_kld, C111_QUANTy, C111_SORDy, C112_AC_accuracy, C112_AC_accuracy_refuted, C112_AC_double, C112_AC_recovers, C112_DeBias_accuracy, C112_DeBias_double, C112_PAC_accuracy, C112_PAC_double, C112_PAC_double_any, C112_PAC_recovers, C113_CC_order, C113_CC_rounded, C113_CC_sum_refuted, C113_CC_two, C113_PCC_accuracy, C113_PCC_equal_refuted, C113_PCC_sum_refuted, C114_accuracy, C114_correction, C114_few_classes, C114_few_classes_monotone, C114_nine_classes_refuted, C115_ensemble_mean_double, C115_inverse_double, C115_one_vs_rest_double, C115_one_vs_rest_zero, C115_pdf_double, C115_regression_double, C115_regression_nan, C115_unanimous_refuted, C116_EM_double, C116_EM_rounds_double, C116_absent_class_double, C116_positive_rows_refuted, C117_bray_curtis_accuracy, C117_bray_curtis_nan, C117_hd_accuracy, C117_identity_refuted, C117_l1_accuracy, C117_l1_identity, C117_l2_accuracy, C117_mae_accuracy, C117_mse_accuracy, C117_probsymmetric_accuracy, C117_self, C117_symmetric, C117_triangle_refuted, C118_global_two_refuted, C118_global_valid, C118_global_where, C118_golden_minimum, C118_golden_valid, C119_cumulative, C119_ends, C119_mixture, C119_same_refuted, C11_em_likelihood_monotone, C124_accuracy, C124_distances_accuracy, C124_distances_symmetric, C124_identity, C124_identity_refuted, C124_score, C124_self, C124_symmetric, C127_L2_needs_fit, C127_L2_stale_refuted, C127_answers, C127_distance_refuted, C127_frozen, C127_new_DFX, C127_new_DFy, C127_new_FriedmanME, C127_parameters, C128_DDAG_full, C128_DDAG_winner, C128_FH, C128_OQT, C128_OQT_sum, C128_first_from_second, C128_tree, C128_tree_length, C128_tree_sum, C128_winner_zero_refuted, C129_after_an_answer, C129_decreasing_cuts, C129_fit_returns, C129_forgotten, C129_never_fitted, C129_never_fitted_refuted, C129_other_classes, C129_refit_refuted, C130_answers, C130_distribution_function_refuted, C130_n_bins, C132_early, C132_fit_returns, C132_never_fitted_refuted, C132_returns, C132_wrong_number_L2, C132_wrong_number_after_an_answer, C132_wrong_number_before_an_answer, C133_early, C133_few_columns, C133_fit_returns, C133_never_fitted_refuted, C133_returns, C133_wrong_number_L2, C133_wrong_number_after_an_answer, C133_wrong_number_before_an_answer, C134_early, C134_fit_returns, C134_never_fitted_refuted, C134_returns, C134_two_classes, C134_wrong_columns, C134_wrong_number_L2, C134_wrong_number_after_an_answer, C134_wrong_number_before_an_answer, C135_blind, C135_fit_returns, C135_keeps_refuted, C135_never_fitted, C135_other_number, C135_probabilities, C135_renamed, C135_returns, C135_same_classes, C24_topsoe_range, C25_kld_lower_bound, C25_kld_self_negative, C25_kld_zero_prevalence, C26_jensenshannon_half_topsoe, C26_jensenshannon_self_positive, C26_topsoe_divergence, C30_correction_positive, C30_geometric_mean, C31_binary_kld, C35_closer_is_likelier, C44_convex, C44_errors, C44_inside, C44_unimodal, C45_global_minimum_refuted, C45_mixtures, C45_single_minimum_refuted, C45_unimodal, C45_valid, C47_consistent, C47_prediction, C51_DFX_histograms, C51_DFy_histograms, C52_ACOrdinal, C52_DFX, C52_DFX_CDF_HD_refuted, C52_DFy, C52_DFy_CDF_HD_refuted, C52_FriedmanME, C52_FriedmanME_HD_refuted, C52_PDFOrdinaly, C53_DFX, C53_DFy, C53_DFy_refuted, C55_histograms, C56_ACOrdinal, C56_PDFOrdinaly, C62_ACOrdinal, C62_DFX, C62_DFy, C62_FriedmanME, C62_HD_distance, C62_L1_distance, C62_PDFOrdinaly, C62_QUANTy, C65_losses_order_free, C65_losses_reject, C78_ACOrdinal, C78_DFX, C78_DFy, C78_FriedmanME, C78_PDFOrdinaly, C80_ACOrdinal, C80_DFX, C80_DFy, C80_FriedmanME, C80_PDFOrdinaly, C80_function_refuted, C80_unknown_refuted, C81_DFX, C81_DFy, C81_FriedmanME, C81_FriedmanME_fractions, C81_PDFOrdinaly, C82_DFX, C82_DFX_recovers, C82_DFy, C82_DFy_recovers, C82_FriedmanME, C82_FriedmanME_recovers, C95_em_certificate, C95_em_fixed_point_best, C95_em_near_best, C95_em_tolerance_refuted, C96_em_prior_shift.
* `ClassicalDedekindReals.sig_forall_dec`, `ClassicalDedekindReals.sig_not_dec`, `ClassicalEpsilon.constructive_indefinite_description`, `Classical_Prop.classic`, `FunctionalExtensionality.functional_extensionality_dep` (2 theorems): C103_CvMy_replication_refuted, C103_CvMy_replication_witness.
* `ClassicalDedekindReals.sig_forall_dec`, `ClassicalDedekindReals.sig_not_dec`, `Classical_Prop.classic`, `Description.constructive_definite_description`, `FunctionalExtensionality.functional_extensionality_dep` (1 theorems): C62_warm_start_refuted.
<!-- END ASSUMPTIONS -->

* The faithfulness of the model to the Python text (read by hand), and the numpy/sklearn
  semantics stated in the comments of `Num.v` and `M_*.v`.

## 4. Method per property

| id | modelled | method |
|----|----------|--------|
| C01 C02 | CC/PCC predict over label lists / posterior rows | counting induction, sum exchange |
| C03 | the common binary correction of AC/PAC/PWK | case analysis on clip, `lra` |
| C04 C05 | AC/PAC fit and predict, `linalg.inv` as an oracle with `inv(M) M = I` | column sums, matrix-vector algebra |
| C06-C08 | predict/fit as functions of lists | `Permutation` induction, replication lemma |
| C09 | DeBias fit/predict | field arithmetic |
| C10-C12 | EM loop with iteration counter | invariant by induction on the budget; Jensen via `ln x <= x-1` |
| C13 C14 | FrankAndHallQuantifier.predict and the correction | list induction; running max/min |
| C15 C16 | predict_proba of FH and monotone FH | refutation witness for C15, induction for C16 |
| C17 C18 | tree construction and recursive products | induction on tree; interval invariant |
| C19 C20 | DDAG recursion | induction on r-l |
| C21 C22 | binarizers, OvR combination | list induction |
| C23-C26 | all metrics as functions on vectors | Minkowski/Cauchy-Schwarz, log inequalities |
| C27-C29 | emd; transport plans as matrices with given marginals | lower bound by exchanging sums; existence by north-west-corner induction |
| C30 C31 | geometric_mean, binary metrics | product bounds; `lra`, log inequality |
| C32-C37 | generators with the random draws as an arbitrary stream | induction over bags/classes; write-once invariant over histories; no-fuel-suffices for C34 |
| C38-C40 | CV_estimator with fold list as input | permutation of each repetition; index arithmetic of reshape/tile |
| C41 C42 | heap of estimators, fit/predict histories | invariant over histories |
| C43 | probs2crisps | argmax spec |
| C44 C45 | golden section, global search with abstract loss | bracket invariant, geometric shrink |
| C46 C47 | compute_quantiles, sord | loop invariants; telescoping |
| C48 C50 C57 | QP parameters | polynomial identities on sums |
| C49 C66 | dpofa / is_pd / nearest_pd | Cholesky induction (completion of squares) |
| C51-C54 | np.histogram, compute_bincuts, DFy/DFX distributions | counting |
| C55 C56 | PDFOrdinaly, ACOrdinal | list induction |
| C58-C61 | EoQ fit/predict, EnsembleOfClassifiers on a heap | invariants; refutations |
| C62 | objects whose fit assigns attributes and whose predict assigns the caches | simulation relation over histories; solver determinism as hypothesis |
| C63-C65 C67 | REG, PWK, check_prevalences, qlplot | arithmetic and list induction |
| C68-C70 | metrics on matrices, binary errors, fit with misaligned predictions | sums; divisibility |
| C71 C72 | decompositions with heap of binary quantifiers, predict of the ordinal classifiers | list induction; argmax |
| C73-C75 | state of a failed generator, seeds, last class | case analysis of the draws |
| C76 C77 | AC/PAC/PWK with solvers, CvMy | C48/C57 applied to the confusion matrix; ranks under monotone maps |
| C78-C82 | matching quantifiers as functions of multisets, with caches | permutation and repetition of counts; C44/C45 |
| C83-C88 | REGX/REGy with heap of regressors and generators | invariants over histories |
| C89-C93 | EoQ on the heap, cut points | invariants; refutations |
| C94 | colours of the plots | arithmetic mod the number of colours |
| C95 C96 | EM iterates against any other prevalences; prior shift over finitely many feature values | ln x <= x-1 on the responsibilities, telescoping sum; Hellinger and Cauchy-Schwarz |
| C97 C98 | AC, PAC, CC, PCC on an arbitrary labelled bag; drift of the classifier between training and bag | law of total probability, column sums of the inverse, clipping is a contraction towards distributions, counting of mistakes |
| C99 C100 | error of the decompositions given the error of their parts; binary correction as a function of the bag | halfway values lie between bounds, monotone clip, Lipschitz constant of the 0.001 guard |
| C101 C102 | energy distance with sklearn's Manhattan and Euclidean distances, class mixtures, EDy, CvMy and EDX with them | \|x−y\| as the integral of a squared difference of steps (Coquelicot RInt); Gaussian kernels positive semidefinite by the power series of exp, the Euclidean distance as their integral over the scales, strictness from small scales |
| C103 C104 | ED_fit, ED_predict, CvMy_predict, SORDy_predict, QUANTy_predict, sorted_fit under permutation and replication of the bag and the training set | means of samples with the same proportions; strict convexity of the energy distance for uniqueness; SORD as an area (C47), substitution in the integral; uniqueness of sorted lists |
| C105 | generate_uniform run with a generator whose randint answers a given draw | sorting and differencing a draw gives a composition iff the draw is an order of its cut points; number of distinct orders of a list by induction, choosing the first element |
| C106 C107 | all the fit and predict functions that use labels, before and after a strictly increasing renaming of the labels | np.unique commutes with the renaming, counts and selections are equal; the matrices given to the solvers agree on their dimensions; the renaming is extended to the label that SORDy invents |
| C108 C109 | the losses between prevalence vectors; EoQ.predict with its strategies | finite sums: Cauchy-Schwarz, summation by parts, ln x >= 1 - 1/x; supporting lines (Jensen) class by class, Minkowski for l2; C58 gives the average; a median ensemble over four classes as counterexample |
| C110 C111 | M_Arrays.v: arrays as cells of a heap; the in-place loops and masked writes of ordinal.py, base.py, search.py, weighted_knn.py, multiclass.py (metrics), ac_ordinal.py, optimization.py, ordinal_ddag.py; the arrays kept by EDy, CvMy, SORDy, QUANTy, PWK, CV_estimator and the generators | refinement: every program equals the value-level function of the other models, by induction over its loops; frame lemmas for the rest of the heap |
| C112 C113 C114 | M_Float.v, M_Float2.v: IEEE doubles; CC, PCC, the binary correction of AC, PAC and PWKQuantifier, DeBias; numpy's pairwise summation; Frank and Hall's correction and combination | Flocq: rounding is monotone and exact on doubles; x and 1-x rounded add up to 1; induction over summation trees for range and error; accuracy against the exact models, for DeBias with the conditioning 1/V |
| C115 C116 | M_Float3.v: the final division of OneVsRest, PDF, REG, multiclass AC/PAC and EoQ; EM's rounds and loop in doubles | relative error of any summation tree; for EM the invariant that every row keeps a class with a large posterior and a prevalence of at least 2^-101; mixed absolute and relative errors for the accuracy of one round |
| C117 | M_Float4.v: l1, mean squared error, l2, hd, bray_curtis and probsymmetric in doubles (mae is in M_Float3.v) | |x-y| and (x-y)^2 rounded are symmetric to the bit; relative errors of the terms, of the sum and of the square root; witnesses computed with vm_compute for the refuted parts |
| C118 C119 | M_Float5.v: golden_section_search (with its except clauses), global_search and mixture_of_pdfs in doubles; the loss is an arbitrary partial function, the number of steps an argument | the rounded points are followed along an exact trajectory with the same comparisons, errors grow by at most 8 units of 2^-53 per step, so the points stay in order; bracketing of the minimum; monotonicity of rounding for mixtures |
| C120 C121 C122 C123 | M_Fit.v: FrankAndHall classifiers, their tree, EnsembleOfClassifiers and AC as objects whose estimators live in a store and may raise anywhere; joblib as an arbitrary order of jobs. M_Data.v: normalize, load_data | invariants over the jobs of a schedule (each writes its own slot and its own new object); induction over histories of failing calls; algebra of mean and variance |
| C124 | M_Float6.v: np.cumsum, emd, emd_score and emd_distances in doubles | partial sums of opposite differences are opposite doubles, so their absolute values agree to the bit; error of each partial sum by induction, then of the sum of n of them; the two extreme distributions are n-1 apart, which bounds the divisor of emd_score |
| C125 | M_Fit2.v: CC, PCC, PAC, DeBias and EM as objects on the base class, attribute by attribute in the order of assignment, with an exception at every call that can raise | induction over histories of calls; comparison of the states before and after a call that raised; witnesses for the attributes assigned too early |
| C126 | M_Params.v: the __init__ of 34 classes as functions of their arguments, Python's argument binding, and scikit-learn's get_params, set_params and clone on attribute dictionaries | a general argument about classes that keep each parameter under its name, checked class by class by computation; induction over histories of attribute assignments |
| C127 | M_Retune.v: DFy, DFX, FriedmanME as objects with a distance and a tolerance that events may change; adjusters of M_History.v for AC and PAC | invariant of the caches indexed by the distances used since the last fit; concrete DFy as counterexample |
| C128 | M_Float7.v: predict_proba of the Frank and Hall classifiers and of DDAG with rounded operations | error per multiplication carried along the path of a tree; exactness of products and sums with 0 and 1 for winner_node; concrete double as counterexample |
| C129 | M_Fit3.v: DFX as an object, the arrays bincuts_ and train_distrib_ filled row by row until a call raises | compute_bincuts returns for all the attributes or for none; all-zero edges count nothing; refinement to the model of C51-C53 when fit returns; concrete histories as counterexamples |
| C130 | M_Rebin.v: DFy and DFX with n_bins, bin_strategy and distribution_function as attributes that are read at each call | invariant of the fitted values under predictions and changes of parameters; every row of bincuts_ has n_bins + 1 edges; concrete counterexample |
| C131 | M_Eoq2.v: EoQ as an object with the attributes that fit assigns one after another, a base quantifier object that fit copies, and parameters read at each call | refinement of C58-C60's EoQ for fits that return; induction over the calls of fit; a gap in the list of members makes predict raise; concrete counterexample |
| C132 | M_Fit4.v: DFy as an object with the attributes of the base class and those that fit assigns one after another, also while a loop fills bincuts_ and train_distrib_ | refinement of C51-C53's DFy for fits that return; invariant of the states after a fit that returned; two objects that agree in what predict reads answer the same; constant objective for the refutation |
| C133 | M_Fit5.v: FriedmanME as an object with the attributes of the base class and those that fit assigns one after another (train_prevs_ first, then train_distrib_ column by column) | refinement of C51-C53's FriedmanME for fits that return; invariant of the states after a fit that returned; predict as a function of the bag's features and of what the object holds |
| C134 | M_Fit6.v: PDFOrdinaly as an object with the attributes of the base class and those that fit assigns one after another | refinement of C51-C53's PDFOrdinaly for fits that return; invariant of the states after a fit that returned; two objects that agree in what predict reads answer the same; constant objective for the refutation |
| C135 | M_Fit7.v: ACOrdinal as an object with the attributes of the base class, train_distrib_ and problem_ | refinement of C52's ACOrdinal for fits that return; a fit that raises changes only the base class; counting the labels of renamed bags; sizes of the cached problem |
| C136 | M_Fit8.v: SORDy as an object with the attributes of the base class, train_distrib_ and train_labels_, and compute_sord_weights for any number of classes | refinement of C47's SORDy for fits that return; the weights do not depend on larger classes without examples; a loss that does not depend on the prevalence gives one answer; the example by C47's consistency |
| C137 | M_Fit9.v: QUANTy as a SORDy object (C136) with the stored grid of mixtures | the stored grid, when there is one, is that of the training scores and labels of the last fit that returned; a mixture that does not depend on the prevalence gives equal losses, for which the search raises ValueError |

## 5. What is modelled and what is not

Modelled (all of the code except what is named below): `baselines/{cc,ac}.py`, `binary/*`,
`multiclass/*`, `ordinal/*`, `decomposition/*`, `estimators/*`, `ensembles/eoq.py`,
`metrics/*`, `base.py`, `search.py`, `optimization.py`, `bag_generator.py`, `plot/qlplot.py`.

Not modelled, or simplified (each simplification is repeated at the definition):

* Floating point: outside the double-precision group every number is an exact real.  Statements about thresholds
  (0.001 in AC, 0.0001 in compute_quantiles, tol, epsilon) are about exact comparisons there.  The double-precision
  group covers the functions cited in M_Float*.v; BLAS products, LAPACK inverses and transcendental functions are
  arguments.  NaN payloads and floating-point warnings are not modelled.
* `verbose` printing, warnings, the parallel backend of joblib (only its two observable cases, same process
  or other processes, in C61), running time, matplotlib beyond the calls made on the axes.
* `check_X_y`/`check_array`: only the length test of `check_X_y`.  Sparse or object arrays are not modelled.
* Labels that are not integers; `y` of length 0.
* The random generators are streams of arbitrary answers in the documented ranges; nothing is said about
  how likely a bag is.
* Classifiers and regressors answer every query; an estimator that raises is only modelled before it is fitted
  (in C120-C122 estimators may raise at any call).
* cvxpy's and quadprog's failures are one exception.  LinAlgError of SVD/eigvals is not modelled.
* `cvxpy_installed_solvers.py` (prints a list), `QTree.__str__`; of StandardScaler the guard for tiny variances, of
  `genfromtxt` the parsing of text.
* Nested parameters (`a__b` in set_params, deep=True in get_params); the names of the attributes that methods assign
  (`cl_assigns` in M_Params.v) were read from the sources.  get_params is that of scikit-learn 0.24 and later.
* `statsmodels` GLM (default regressor of REGX/REGy): an oracle with positive outputs.

## 6. Findings

Where the documented or expected behaviour is false of the code the property states what does hold, and a
theorem named `..._refuted` gives a concrete witness.  The findings, with the property that states them:

* C03: AC and PWKQuantifier return [0,0] for a bag with no known label.
* C95: the tolerance of EM can stop it arbitrarily far from the best prevalences.
* C101: with its default distance EDy compares only the columns of the predictions: samples without a row in common can
  be at energy distance 0.
* C15: FrankAndHallClassifier computes 1-p*q instead of (1-p)*q for the middle classes.
* C16: the averaging of the monotone correction is never applied.
* C18: tree scores compare the left group with the right group.
* C25: kld of a distribution with itself is not 0; a true prevalence 0 gives NaN.
* C29: emd_distances differs from emd when the totals differ.
* C34: min_prevalence with n*round(v*size) >= size never ends.  C73: after a failed call the generator returns bags
  of zeros.  C74: the Dirichlet method uses numpy's global generator.  C75: the last class is always present.
* C36: the mixed generator fails with its default bag_size.  C37 C60 C85: generators are write-once, and shared by default.
* C38: cross-validation with a splitter that shuffles anew judges examples with models trained on them.
* C41 C61 C62: estimators are never refitted; all members of EnsembleOfClassifiers are one object with the default n_jobs.
* C43: a vector of probabilities becomes the labels 0/1 whatever the labels are.
* C45: the local-minimum test of global_search accepts rising points and misses the upper end.
* C46: a quantile can be smaller than every score (left-over weights of at most 0.0001).
* C49: is_pd reads only the upper triangle.  C57: solve_hd asks for feastol=1e6.
* C51 C54: normal cut points lose constant scores; equal_count cuts fail with few examples.
* C52: HD is not consistent with distributions of unequal masses (FriedmanME, CDF).  C53: DFy's CDF accumulates over descriptors.
* C59: EoQ stores the distribution of the whole training set for every member.  C91: a member that saw one class predicts
  one number for all classes.  C92: n_bins other than 100, CDF and labels never work in EoQ.
* C63 C83 C84 C88: REG: bags are scaled by n instead of bag_size; the user's regressor is shared with two classes; NaN when no
  output is positive; one-dimensional data never works.
* C64: PWK with a single class predicts label 0.
* C67: the plots reverse the caller's list of columns.  C94: more than ten classes share colours.
* C22 C71: Frank-and-Hall and one-vs-rest quantifiers fail with two classes.
* C80: with a function as distance only the first two classes are used; PDFOrdinaly with an unknown distance returns None.
* C33: the bound of min_prevalence holds only up to half an example.
* C101: EDy with its default distance cannot see differences that leave the distribution of every column unchanged.
* C103: replicating the bag changes the answer of CvMy.
* C105: the prevalences of the 'Uniform' method are not uniform: with three or more classes compositions with an empty class in the middle are drawn at most half as often as the others, and bags without examples of the last class are never drawn (for two classes this is the only bias).
* C107: the labels of PWK trained with a single class do not follow a renaming (always 0).
* C109: with the strategy 'median' EoQ can be worse (in l1) than every one of its members.
* C110: check_and_correct_prevalences_asc returns its argument itself, not a copy, when it is already ascending.
* C110: with predict_method='winner_node' the DDAG writes into the array returned by the estimator of each node.
* C111: CvMy, PWK and CV_estimator keep the arrays of the caller ("copied" in the documentation of the base class), so that
  writing into them after fit changes later answers; generators return the arrays they keep.
* C112: AC with two rates that differ by exactly 0.001: exact arithmetic leaves the estimate alone (2/3), doubles correct it (0).
* C113: in doubles CC with three classes and PCC with two classes need not add up to 1; the mean of three 0.1's is not 0.1.
* C114: with nine classes FrankAndHallQuantifier can return a negative prevalence (-2^-52), because np.sum adds eight numbers
  pairwise while the prevalences were built from sums of fewer numbers.
* C115: in doubles three ensemble members that all answer 0.1 give 0.10000000000000002.
* C116: EM with a row (2^-1074, 0) returns NaN: the product underflows to 0 and the row is divided by 0.
* C117: in doubles mean_absolute_error, mean_squared_error, l2 and hd can be 0 for different prevalences, and l1 can break the triangle inequality by a rounding error ((0,1), (0.1,0.9), (0.3,0.7)).
* C118: global_search returns the number 2 (the initial value of p_estimated) when some point of the grid is taken for a minimum but every loss found by golden section search is infinite or NaN. An exception of the distance inside the loop of golden_section_search is swallowed and the loss of another point is used instead.
* C119: mixing a distribution with itself is not exact in doubles.
* C120: FrankAndHall classifiers overwrite `classes_` before `check_X_y`: after a refused second fit, predictions carry the
  labels of the refused data.
* C121: an EnsembleOfClassifiers whose fit failed while training cannot be fitted again: later fits return at once
  (`classes_` is set) and predict raises.
* C122: a failed second fit of AC with other classes changes its answers (`classes_` is overwritten first).
* C123: load_data cuts labels with decimals towards 0 without warning.
* C124: emd_distances, which adds up each row before subtracting, gives 0 for rows that emd (which subtracts first) tells apart.
* C125: a fit of PAC that raises while it averages the predictions leaves a confusion matrix of zeros: with two classes PAC then
  answers uncorrected prevalences, even if it was never fitted. A fit of DeBias that raises on one-column predictions leaves the
  new prevalences with the old Vt_. A CC whose only fit raised answers.
* C126: EM, EDX, PWKQuantifier and PWK store constructor parameters under other names, so that get_params, set_params and clone
  raise AttributeError. OrdinalQuantificationTree wraps its classifier in the constructor and cannot be cloned.
  CV_estimator.fit overwrites its parameter cv.
* C127: after a prediction with HD or L1, changing the distance to the other one has no effect until the next fit: the cached
  problem_ keeps the old objective. Setting L2 after a fit with another distance uses the matrix of an earlier training set, if any.
* C128: DDAGClassifier with 'winner_node' compares the first column with `< 0.5` and the second with `<= 0.5`. For the double
  p just below 0.5 the machine's 1 - p is 0.5, so both become 0 and the example gets a row of zeros.
* C129: DFX.fit replaces bincuts_ by zeros before it computes the cut points. When that raises (equal_count with fewer than
  n_bins / 2 examples), the object keeps the old train_distrib_ with all-zero cut points: predict goes on answering, the same for every bag
  without zeros. With equal_count and n_bins = 2 modulo 4 the cut points of n_bins / 2 examples can decrease, and np.histogram then raises
  after train_distrib_ was replaced by zeros: after one more raising fit an object that was never fitted answers.
* C130: predict represents the bag with the current distribution_function, train_distrib_ with that of the last fit: after a change
  from 'CDF' to 'PDF' a DFX with distance L1 answers (0, 1) for a bag of the first class.
* C131: fit puts each copy of the base quantifier in quantifiers_ before it is trained, and classes_ first of all. After a fit that raised, predict
  may average trained members with an untrained one, or refuse because classes_ are those of the failed call. With distribution_function='CDF'
  fit always raises AxisError, after which predict answers with the strategies that do not compare distributions.
* C132: DFy.fit assigns train_distrib_ (zeros) before it selects the predictions of each class. With a wrong number of predictions it raises
  IndexError there, and leaves an object that answers: with HD or L1 from the cached problem if there is one, otherwise from the zeros (with L2: the same for
  every bag).
* C133: FriedmanME.fit assigns train_prevs_ before anything that can fail on the predictions. If it then raises (too few columns), predict still
  answers, comparing features computed with the new class shares to the distributions of the previous fit, without any error.
* C134: after PDFOrdinaly.fit has raised for labels of two classes, the object cannot be used any more (classes_ is already replaced), although
  the parameters of its last fit are all still there.
* C135: an ACOrdinal.fit that raises has already replaced classes_: with as many other classes, predict then silently counts the new labels
  and matches their frequencies to the confusion matrix of the old ones.
* C136: a SORDy.fit that raises has already replaced classes_ (also when it refuses a third class), and with a wrong number of predictions
  train_distrib_ too, but not train_labels_: predict then silently pairs the new scores with the old labels.
* C137: as in C136, a QUANTy.fit that raises has already replaced classes_; with new labels the next predict raises (all the mixtures are
  then equal and the search finds no minimum) although the object had been fitted.

## 7. Not expressible in this model

Floating-point accuracy outside the double-precision group, running time, parallel execution of joblib beyond the order of its jobs, warnings/printing, statistical quality of random draws,
numerical quality of solvers.
