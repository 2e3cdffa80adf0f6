{
 "claims": [
  {
   "property": "C01",
   "status": "proved",
   "theorems": [
    "C01_cc_exact_frequencies",
    "C01_cc_empty_bag"
   ],
   "note": ""
  },
  {
   "property": "C02",
   "status": "proved",
   "theorems": [
    "C02_pcc_distribution"
   ],
   "note": ""
  },
  {
   "property": "C03",
   "status": "proved",
   "theorems": [
    "C03_ac_binary_distribution",
    "C03_pwk_binary_distribution",
    "C03_pac_binary_distribution",
    "C03_unknown_labels_refuted"
   ],
   "note": "For AC and PWKQuantifier the bag must contain at least one known label; otherwise the result can be [0,0], shown by C03_unknown_labels_refuted."
  },
  {
   "property": "C04",
   "status": "proved",
   "theorems": [
    "C04_ac_multiclass_distribution",
    "C04_pac_multiclass_distribution"
   ],
   "note": ""
  },
  {
   "property": "C05",
   "status": "proved",
   "theorems": [
    "C05_ac_recovers_prevalence",
    "C05_pac_recovers_prevalence"
   ],
   "note": ""
  },
  {
   "property": "C06",
   "status": "proved",
   "theorems": [
    "C06_bag_order",
    "C06_em_bag_order"
   ],
   "note": ""
  },
  {
   "property": "C07",
   "status": "proved",
   "theorems": [
    "C07_bag_replication",
    "C07_em_bag_replication"
   ],
   "note": ""
  },
  {
   "property": "C08",
   "status": "proved",
   "theorems": [
    "C08_training_order_ac",
    "C08_training_order_pac_debias",
    "C08_em_training_order"
   ],
   "note": ""
  },
  {
   "property": "C09",
   "status": "proved",
   "theorems": [
    "C09_debias_binary_only",
    "C09_debias_distribution",
    "C09_debias_exact"
   ],
   "note": ""
  },
  {
   "property": "C10",
   "status": "proved",
   "theorems": [
    "C10_em_distribution",
    "C10_em_stopping",
    "C10_em_training_prevalences",
    "C10_em_zero_posterior"
   ],
   "note": ""
  },
  {
   "property": "C11",
   "status": "proved",
   "theorems": [
    "C11_em_likelihood_monotone"
   ],
   "note": ""
  },
  {
   "property": "C12",
   "status": "proved",
   "theorems": [
    "C12_em_no_shift",
    "C12_em_fixed_point"
   ],
   "note": ""
  },
  {
   "property": "C13",
   "status": "proved",
   "theorems": [
    "C13_frank_hall_distribution",
    "C13_frank_hall_ascending",
    "C13_frank_hall_exact"
   ],
   "note": ""
  },
  {
   "property": "C14",
   "status": "proved",
   "theorems": [
    "C14_correction_ascending",
    "C14_correction_untouched",
    "C14_correction_idempotent",
    "C14_correction_bounds",
    "C14_correction_average"
   ],
   "note": ""
  },
  {
   "property": "C15",
   "status": "proved",
   "theorems": [
    "C15_frank_hall_classifier_refuted",
    "C15_frank_hall_classifier_middle",
    "C15_frank_hall_classifier_values"
   ],
   "note": "The documented formula is false of the code (C15_frank_hall_classifier_refuted); the theorems give the values the code computes and show that a middle class agrees with the documentation only when its estimator outputs 1."
  },
  {
   "property": "C16",
   "status": "proved",
   "theorems": [
    "C16_monotone_classifier_distribution",
    "C16_monotone_averaging_refuted"
   ],
   "note": "Distribution and cumulative running maximum proved; the documented averaging never happens (C16_monotone_averaging_refuted)."
  },
  {
   "property": "C17",
   "status": "proved",
   "theorems": [
    "C17_tree_shape",
    "C17_tree_path_probabilities",
    "C17_tree_distribution",
    "C17_ordinal_tree_quantifier"
   ],
   "note": ""
  },
  {
   "property": "C18",
   "status": "proved",
   "theorems": [
    "C18_tree_scores_refuted",
    "C18_tree_scores_actual"
   ],
   "note": "False of the code: refuted with perfect estimators, and the actual score is stated for every training set."
  },
  {
   "property": "C19",
   "status": "proved",
   "theorems": [
    "C19_ddag_estimators",
    "C19_ddag_value",
    "C19_ddag_distribution"
   ],
   "note": ""
  },
  {
   "property": "C20",
   "status": "proved",
   "theorems": [
    "C20_winner_node"
   ],
   "note": ""
  },
  {
   "property": "C21",
   "status": "proved",
   "theorems": [
    "C21_binarizer",
    "C21_binarizer_two_classes"
   ],
   "note": ""
  },
  {
   "property": "C22",
   "status": "proved",
   "theorems": [
    "C22_one_vs_rest",
    "C22_one_vs_rest_over_pcc",
    "C22_one_vs_rest_two_classes"
   ],
   "note": ""
  },
  {
   "property": "C23",
   "status": "proved",
   "theorems": [
    "C23_l1_metric",
    "C23_mae_metric",
    "C23_l2_metric",
    "C23_hd_metric",
    "C23_emd_metric"
   ],
   "note": ""
  },
  {
   "property": "C24",
   "status": "proved",
   "theorems": [
    "C24_ranges",
    "C24_extremes_attained",
    "C24_topsoe_range",
    "C24_probsymmetric_range"
   ],
   "note": ""
  },
  {
   "property": "C25",
   "status": "proved",
   "theorems": [
    "C25_kld_lower_bound",
    "C25_kld_self_negative",
    "C25_kld_zero_prevalence"
   ],
   "note": ""
  },
  {
   "property": "C26",
   "status": "proved",
   "theorems": [
    "C26_topsoe_divergence",
    "C26_probsymmetric_divergence",
    "C26_jensenshannon_half_topsoe",
    "C26_jensenshannon_self_positive"
   ],
   "note": ""
  },
  {
   "property": "C27",
   "status": "proved",
   "theorems": [
    "C27_emd_optimal_transport"
   ],
   "note": ""
  },
  {
   "property": "C28",
   "status": "proved",
   "theorems": [
    "C28_emd_score",
    "C28_furthest_is_extreme"
   ],
   "note": ""
  },
  {
   "property": "C29",
   "status": "proved",
   "theorems": [
    "C29_emd_distances_agrees",
    "C29_unequal_totals_refuted"
   ],
   "note": ""
  },
  {
   "property": "C30",
   "status": "proved",
   "theorems": [
    "C30_geometric_mean",
    "C30_correction_positive"
   ],
   "note": ""
  },
  {
   "property": "C31",
   "status": "proved",
   "theorems": [
    "C31_scores",
    "C31_errors",
    "C31_sape",
    "C31_binary_kld"
   ],
   "note": ""
  },
  {
   "property": "C32",
   "status": "proved",
   "theorems": [
    "C32_prior_shift_bags"
   ],
   "note": ""
  },
  {
   "property": "C33",
   "status": "proved",
   "theorems": [
    "C33_min_prevalence",
    "C33_rounding",
    "C33_exact_bound_refuted"
   ],
   "note": ""
  },
  {
   "property": "C34",
   "status": "proved",
   "theorems": [
    "C34_never_returns",
    "C34_can_return",
    "C34_no_room",
    "C34_terminates_without_minimum",
    "C34_termination_refuted"
   ],
   "note": ""
  },
  {
   "property": "C35",
   "status": "proved",
   "theorems": [
    "C35_covariate_bags",
    "C35_always_returns",
    "C35_probabilities",
    "C35_closer_is_likelier"
   ],
   "note": ""
  },
  {
   "property": "C36",
   "status": "proved",
   "theorems": [
    "C36_mixed_bags",
    "C36_default_bag_size_refuted"
   ],
   "note": ""
  },
  {
   "property": "C37",
   "status": "proved",
   "theorems": [
    "C37_prior_shift_write_once",
    "C37_covariate_shift_write_once",
    "C37_mixed_shift_write_once"
   ],
   "note": ""
  },
  {
   "property": "C38",
   "status": "proved",
   "theorems": [
    "C38_out_of_fold",
    "C38_shuffling_splitter_refuted"
   ],
   "note": "The unconditional form is false when the splitter shuffles without a fixed seed (C38_shuffling_splitter_refuted)."
  },
  {
   "property": "C39",
   "status": "proved",
   "theorems": [
    "C39_rows_aligned_with_labels",
    "C39_rows_of_another_sample"
   ],
   "note": ""
  },
  {
   "property": "C40",
   "status": "proved",
   "theorems": [
    "C40_votes_and_averages",
    "C40_not_fitted"
   ],
   "note": ""
  },
  {
   "property": "C41",
   "status": "proved",
   "theorems": [
    "C41_fitted_at_most_once",
    "C41_first_fit_wins"
   ],
   "note": ""
  },
  {
   "property": "C42",
   "status": "proved",
   "theorems": [
    "C42_given_predictions_fit",
    "C42_given_rows",
    "C42_given_predictions_predict",
    "C42_given_labels",
    "C42_fit_value_error",
    "C42_predict_value_error"
   ],
   "note": ""
  },
  {
   "property": "C43",
   "status": "proved",
   "theorems": [
    "C43_fit_first_maximal_column",
    "C43_predict_first_maximal_column",
    "C43_scores_thresholded",
    "C43_single_probability_fails"
   ],
   "note": ""
  },
  {
   "property": "C44",
   "status": "proved",
   "theorems": [
    "C44_inside",
    "C44_unimodal",
    "C44_convex",
    "C44_errors"
   ],
   "note": ""
  },
  {
   "property": "C45",
   "status": "proved",
   "theorems": [
    "C45_valid",
    "C45_unimodal",
    "C45_mixtures",
    "C45_single_minimum_refuted",
    "C45_global_minimum_refuted"
   ],
   "note": "Always finding a best prevalence is false of the code (C45_single_minimum_refuted, C45_global_minimum_refuted)."
  },
  {
   "property": "C46",
   "status": "proved",
   "theorems": [
    "C46_training_mean",
    "C46_training_values",
    "C46_training_mean_exact",
    "C46_training_range",
    "C46_training_ascending",
    "C46_test_values",
    "C46_test_mean",
    "C46_test_range",
    "C46_test_ascending",
    "C46_range_refuted"
   ],
   "note": "The range of the values without the exception is false of the code (C46_range_refuted)."
  },
  {
   "property": "C47",
   "status": "proved",
   "theorems": [
    "C47_area",
    "C47_zero",
    "C47_ties",
    "C47_prediction",
    "C47_consistent"
   ],
   "note": ""
  },
  {
   "property": "C48",
   "status": "proved",
   "theorems": [
    "C48_distribution",
    "C48_least_squares",
    "C48_exact_fit",
    "C48_dependent_classes"
   ],
   "note": ""
  },
  {
   "property": "C49",
   "status": "proved",
   "theorems": [
    "C49_decides",
    "C49_upper_triangle",
    "C49_factor",
    "C49_info",
    "C49_not_symmetric_refuted"
   ],
   "note": "The unconditional form is false for matrices that are not symmetric (C49_not_symmetric_refuted); the library only passes symmetric ones."
  },
  {
   "property": "C50",
   "status": "proved",
   "theorems": [
    "C50_distribution",
    "C50_minimises_energy",
    "C50_nearly_minimises",
    "C50_consistent",
    "C50_CvMy_minimises"
   ],
   "note": ""
  },
  {
   "property": "C51",
   "status": "proved",
   "theorems": [
    "C51_DFy_fit",
    "C51_DFX_fit",
    "C51_DFy_histograms",
    "C51_DFX_histograms",
    "C51_normal_refuted"
   ],
   "note": "The normal and binormal strategies are outside the claim: C51_normal_refuted shows constant scores lost."
  },
  {
   "property": "C52",
   "status": "proved",
   "theorems": [
    "C52_DFy",
    "C52_DFX",
    "C52_FriedmanME",
    "C52_PDFOrdinaly",
    "C52_ACOrdinal",
    "C52_FriedmanME_HD_refuted",
    "C52_DFy_CDF_HD_refuted",
    "C52_DFX_CDF_HD_refuted"
   ],
   "note": "Refuted for HD with distributions of unequal masses: C52_FriedmanME_HD_refuted, C52_DFy_CDF_HD_refuted, C52_DFX_CDF_HD_refuted."
  },
  {
   "property": "C53",
   "status": "proved",
   "theorems": [
    "C53_DFX",
    "C53_DFy",
    "C53_same_distances",
    "C53_DFy_refuted"
   ],
   "note": "Entries in [0,1] are false of DFy with three or more classes (C53_DFy_refuted); C53_DFy gives the values computed."
  },
  {
   "property": "C54",
   "status": "proved",
   "theorems": [
    "C54_equal_width",
    "C54_equal_count",
    "C54_equal_count_balanced",
    "C54_gaussian",
    "C54_normal",
    "C54_binormal",
    "C54_equal_count_few_refuted",
    "C54_equal_count_order_refuted"
   ],
   "note": "Without n_bins < 2*n_examples the claim is false (C54_equal_count_few_refuted, C54_equal_count_order_refuted)."
  },
  {
   "property": "C55",
   "status": "proved",
   "theorems": [
    "C55_two_neighbours",
    "C55_winner",
    "C55_winner_last",
    "C55_range",
    "C55_histograms"
   ],
   "note": ""
  },
  {
   "property": "C56",
   "status": "proved",
   "theorems": [
    "C56_ACOrdinal",
    "C56_PDFOrdinaly"
   ],
   "note": ""
  },
  {
   "property": "C57",
   "status": "proved",
   "theorems": [
    "C57_identity",
    "C57_metric",
    "C57_minimises",
    "C57_tolerance_refuted"
   ],
   "note": "Minimisation assumes an exact solver; with the tolerance the code asks for the contract does not give a distribution (C57_tolerance_refuted)."
  },
  {
   "property": "C58",
   "status": "proved",
   "theorems": [
    "C58_mean",
    "C58_median",
    "C58_median_two",
    "C58_median_always_refuted",
    "C58_prevalence_similarity",
    "C58_distribution_similarity",
    "C58_none_selected",
    "C58_all",
    "C58_strategy_at_fit"
   ],
   "note": "C58_median_always_refuted: three members answering the three corners give NaN. For n_quantifiers=1 numpy's argsort of a 0-d array is taken to be that of one value."
  },
  {
   "property": "C59",
   "status": "proved",
   "theorems": [
    "C59_whole_without",
    "C59_whole_using",
    "C59_same_selection",
    "C59_bags_refuted"
   ],
   "note": "The first wording (each row describes its bag) is false: C59_bags_refuted."
  },
  {
   "property": "C60",
   "status": "proved",
   "theorems": [
    "C60_shared_bags",
    "C60_generators",
    "C60_own_data_refuted"
   ],
   "note": "The first wording (an EoQ trains on bags of its own data) is false: C60_own_data_refuted."
  },
  {
   "property": "C61",
   "status": "proved",
   "theorems": [
    "C61_other_processes",
    "C61_same_process_last_bag_only",
    "C61_one_model_per_bag_refuted",
    "C61_second_fit"
   ],
   "note": "One model per bag is false with the default n_jobs (C61_one_model_per_bag_refuted); the theorems say which model each column comes from."
  },
  {
   "property": "C62",
   "status": "proved",
   "theorems": [
    "C62_DFy",
    "C62_DFX",
    "C62_FriedmanME",
    "C62_ACOrdinal",
    "C62_PDFOrdinaly",
    "C62_QUANTy",
    "C62_AC",
    "C62_PAC",
    "C62_PWKQuantifier",
    "C62_AC_answers",
    "C62_PAC_answers",
    "C62_PWKQuantifier_answers",
    "C62_warm_start_refuted",
    "C62_L1_distance",
    "C62_HD_distance",
    "C62_AC_distance",
    "C62_PAC_distance",
    "C62_estimators_refuted"
   ],
   "note": "Histories contain fits that fail (they may leave any state). AC and PAC with L2 exclude a last fit with a single class, for which the parameters of an earlier fit stay in the object. C62_warm_start_refuted: with ties an exact solver may answer differently from its warm start; the distance theorems cover every exact solver. C62_estimators_refuted: with an own estimator the first fit wins."
  },
  {
   "property": "C63",
   "status": "proved",
   "theorems": [
    "C63_REGX_distribution",
    "C63_REGy_distribution",
    "C63_REGX_two",
    "C63_REGy_two",
    "C63_REGX_many",
    "C63_REGy_many",
    "C63_REGX_default",
    "C63_REGy_default",
    "C63_many_always_refuted"
   ],
   "note": "The earlier wording asked for one scale of training and test histograms; that part is now C83. C63_many_always_refuted: three classes and non-positive outputs give NaN."
  },
  {
   "property": "C64",
   "status": "proved",
   "theorems": [
    "C64_rows_are_distributions",
    "C64_row_values",
    "C64_predict_is_first_maximum",
    "C64_rarer_classes_weigh_more",
    "C64_single_class"
   ],
   "note": ""
  },
  {
   "property": "C65",
   "status": "proved",
   "theorems": [
    "C65_losses_reject",
    "C65_losses_order_free",
    "C65_emd_depends_on_order"
   ],
   "note": ""
  },
  {
   "property": "C66",
   "status": "proved",
   "theorems": [
    "C66_positive_definite",
    "C66_l2_parameters",
    "C66_terminates",
    "C66_semidefinite"
   ],
   "note": ""
  },
  {
   "property": "C67",
   "status": "proved",
   "theorems": [
    "C67_lines",
    "C67_positions",
    "C67_distribution",
    "C67_ascending",
    "C67_descending",
    "C67_default_list",
    "C67_sort",
    "C67_sort_descending",
    "C67_sort_missing",
    "C67_list_reversed",
    "C67_same_list_refuted"
   ],
   "note": ""
  },
  {
   "property": "C68",
   "status": "proved",
   "theorems": [
    "C68_emd_matrix"
   ],
   "note": ""
  },
  {
   "property": "C69",
   "status": "proved",
   "theorems": [
    "C69_mse_is_l2_squared_over_n",
    "C69_brier",
    "C69_binary_errors_agree",
    "C69_relative_error"
   ],
   "note": ""
  },
  {
   "property": "C70",
   "status": "proved",
   "theorems": [
    "C70_misaligned_training_rejected"
   ],
   "note": ""
  },
  {
   "property": "C71",
   "status": "proved",
   "theorems": [
    "C71_frank_hall_fit",
    "C71_frank_hall_fit_without_classifiers",
    "C71_one_vs_rest_fit",
    "C71_frank_hall_predict",
    "C71_frank_hall_over_pcc",
    "C71_frank_hall_two_classes"
   ],
   "note": ""
  },
  {
   "property": "C72",
   "status": "proved",
   "theorems": [
    "C72_ordinal_predict_label"
   ],
   "note": ""
  },
  {
   "property": "C73",
   "status": "proved",
   "theorems": [
    "C73_failed_call_leaves_zeros",
    "C73_retry_refuted"
   ],
   "note": ""
  },
  {
   "property": "C74",
   "status": "proved",
   "theorems": [
    "C74_uniform_reproducible",
    "C74_seed_or_generator",
    "C74_covariate_seed_or_generator",
    "C74_stored",
    "C74_dirichlet_reproducible_refuted"
   ],
   "note": ""
  },
  {
   "property": "C75",
   "status": "proved",
   "theorems": [
    "C75_last_class_present",
    "C75_other_classes_can_be_absent"
   ],
   "note": ""
  },
  {
   "property": "C76",
   "status": "proved",
   "theorems": [
    "C76_AC_HD",
    "C76_AC_L1",
    "C76_AC_L2",
    "C76_PAC_HD",
    "C76_PAC_L1",
    "C76_PWKQ_L1"
   ],
   "note": ""
  },
  {
   "property": "C77",
   "status": "proved",
   "theorems": [
    "C77_CvMy_scale_free"
   ],
   "note": ""
  },
  {
   "property": "C78",
   "status": "proved",
   "theorems": [
    "C78_DFy",
    "C78_DFX",
    "C78_FriedmanME",
    "C78_PDFOrdinaly",
    "C78_ACOrdinal"
   ],
   "note": ""
  },
  {
   "property": "C79",
   "status": "proved",
   "theorems": [
    "C79_DFy",
    "C79_DFX",
    "C79_FriedmanME",
    "C79_PDFOrdinaly",
    "C79_ACOrdinal"
   ],
   "note": ""
  },
  {
   "property": "C80",
   "status": "proved",
   "theorems": [
    "C80_DFy",
    "C80_DFX",
    "C80_FriedmanME",
    "C80_PDFOrdinaly",
    "C80_ACOrdinal",
    "C80_function_refuted",
    "C80_unknown_refuted"
   ],
   "note": "False for a function as distance and three or more classes (C80_function_refuted)."
  },
  {
   "property": "C81",
   "status": "proved",
   "theorems": [
    "C81_DFy",
    "C81_DFX",
    "C81_FriedmanME",
    "C81_FriedmanME_fractions",
    "C81_PDFOrdinaly"
   ],
   "note": ""
  },
  {
   "property": "C82",
   "status": "proved",
   "theorems": [
    "C82_DFy",
    "C82_DFX",
    "C82_FriedmanME",
    "C82_DFy_recovers",
    "C82_DFX_recovers",
    "C82_FriedmanME_recovers"
   ],
   "note": ""
  },
  {
   "property": "C83",
   "status": "proved",
   "theorems": [
    "C83_REGX_pairs",
    "C83_REGy_pairs",
    "C83_generators_honest",
    "C83_REGX_test",
    "C83_REGy_test",
    "C83_same_scale",
    "C83_other_scale",
    "C83_mass",
    "C83_default_distorted",
    "C83_any_size_refuted"
   ],
   "note": "C83_any_size_refuted: bags of size 1, two training examples, an exact regression model and the opposite prevalences."
  },
  {
   "property": "C84",
   "status": "proved",
   "theorems": [
    "C84_REGX_user",
    "C84_REGy_user",
    "C84_REGX_independent",
    "C84_REGy_independent",
    "C84_two_classes_refuted"
   ],
   "note": "C84_two_classes_refuted gives the concrete case of the last sentence."
  },
  {
   "property": "C85",
   "status": "proved",
   "theorems": [
    "C85_generators_write_once",
    "C85_REGX_reused",
    "C85_REGy_reused",
    "C85_own_data_refuted"
   ],
   "note": "C85_own_data_refuted: the second quantifier learns prevalences its data do not have."
  },
  {
   "property": "C86",
   "status": "proved",
   "theorems": [
    "C86_REGX_same_bag",
    "C86_REGy_same_bag"
   ],
   "note": ""
  },
  {
   "property": "C87",
   "status": "proved",
   "theorems": [
    "C87_two_classes",
    "C87_many_classes"
   ],
   "note": ""
  },
  {
   "property": "C88",
   "status": "proved",
   "theorems": [
    "C88_flat_fails",
    "C88_more_attributes"
   ],
   "note": ""
  },
  {
   "property": "C89",
   "status": "proved",
   "theorems": [
    "C89_without",
    "C89_using_soft",
    "C89_using_crisp",
    "C89_using_models",
    "C89_bags",
    "C89_fresh_prior",
    "C89_fresh_covariate",
    "C89_fresh_mixed"
   ],
   "note": ""
  },
  {
   "property": "C90",
   "status": "proved",
   "theorems": [
    "C90_between",
    "C90_mean_error",
    "C90_selected_error",
    "C90_unanimous",
    "C90_order"
   ],
   "note": ""
  },
  {
   "property": "C91",
   "status": "proved",
   "theorems": [
    "C91_wrong_length",
    "C91_one_class",
    "C91_aligned_refuted"
   ],
   "note": "C91_aligned_refuted is the wrong result with CC members."
  },
  {
   "property": "C92",
   "status": "proved",
   "theorems": [
    "C92_bins",
    "C92_hundred_bins",
    "C92_using_bins",
    "C92_cdf",
    "C92_crisp"
   ],
   "note": ""
  },
  {
   "property": "C93",
   "status": "proved",
   "theorems": [
    "C93_equal_width_range",
    "C93_equal_width_data",
    "C93_DFX",
    "C93_DFy",
    "C93_REGX",
    "C93_REGy",
    "C93_EoQ_without",
    "C93_EoQ_using"
   ],
   "note": ""
  },
  {
   "property": "C94",
   "status": "proved",
   "theorems": [
    "C94_colour",
    "C94_distinct",
    "C94_repeated",
    "C94_boxes"
   ],
   "note": ""
  },
  {
   "property": "C95",
   "status": "proved",
   "theorems": [
    "C95_em_near_best",
    "C95_em_certificate",
    "C95_em_fixed_point_best",
    "C95_em_tolerance_refuted"
   ],
   "note": "C95_em_tolerance_refuted shows that the stopping rule itself gives no guarantee. Prevalences that make some example impossible have likelihood 0 and are excluded (explains)."
  },
  {
   "property": "C96",
   "status": "proved",
   "theorems": [
    "C96_em_prior_shift"
   ],
   "note": ""
  },
  {
   "property": "C97",
   "status": "proved",
   "theorems": [
    "C97_ac_binary_error",
    "C97_ac_multiclass_error",
    "C97_pac_binary_error",
    "C97_pac_multiclass_error"
   ],
   "note": ""
  },
  {
   "property": "C98",
   "status": "proved",
   "theorems": [
    "C98_cc_error",
    "C98_pcc_error"
   ],
   "note": ""
  },
  {
   "property": "C99",
   "status": "proved",
   "theorems": [
    "C99_frank_hall_error",
    "C99_one_vs_rest_error"
   ],
   "note": ""
  },
  {
   "property": "C100",
   "status": "proved",
   "theorems": [
    "C100_counts_respond",
    "C100_pac_responds"
   ],
   "note": ""
  },
  {
   "property": "C101",
   "status": "proved",
   "theorems": [
    "C101_energy_area",
    "C101_energy_zero",
    "C101_edy_minimises",
    "C101_edy_consistent",
    "C101_edy_nearly_minimises",
    "C101_two_classes",
    "C101_cvmy_minimises",
    "C101_sees_rows_refuted"
   ],
   "note": "Exact reals; sklearn's manhattan_distances is modelled by its definition; quadprog is an oracle assumed exact. C101_sees_rows_refuted shows two disjoint samples at energy distance 0."
  },
  {
   "property": "C102",
   "status": "proved",
   "theorems": [
    "C102_energy_zero",
    "C102_edx_minimises",
    "C102_edx_consistent",
    "C102_own_examples",
    "C102_edx_nearly_minimises"
   ],
   "note": "Exact reals; sklearn's euclidean_distances is modelled by its definition; quadprog is an oracle assumed exact. The Euclidean distance is written as an integral of Gaussian kernels over their scales; no hypothesis about the energy distance is left."
  },
  {
   "property": "C103",
   "status": "proved",
   "theorems": [
    "C103_ED_bag",
    "C103_ED_training",
    "C103_EDy_solver",
    "C103_EDX_solver",
    "C103_CvMy_order",
    "C103_CvMy_joint",
    "C103_CvMy_replication_refuted",
    "C103_CvMy_replication_witness"
   ],
   "note": "Exact reals; quadprog is an oracle (any function for the invariances, exact where said). C103_CvMy_replication_refuted and its witness show that CvMy's answer changes when only the bag is replicated (70% against 68.75%)."
  },
  {
   "property": "C104",
   "status": "proved",
   "theorems": [
    "C104_SORDy",
    "C104_SORDy_cumulative",
    "C104_SORDy_affine",
    "C104_QUANTy_order",
    "C104_QUANTy_bag",
    "C104_fit_order"
   ],
   "note": "Exact reals; np.argsort is any sorting permutation, and two runs may use different ones. For 10000 quantiles or more the replication claim is not made: the code drops remainders of 0.0001."
  },
  {
   "property": "C105",
   "status": "proved",
   "theorems": [
    "C105_number_of_draws",
    "C105_draws",
    "C105_all_classes",
    "C105_empty_class",
    "C105_last_class",
    "C105_uniform_refuted",
    "C105_two_classes",
    "C105_minimum_draws",
    "C105_minimum_uniform",
    "C105_minimum_impossible"
   ],
   "note": "Stated on one bag: the prevalences a draw gives are those of the code run with a generator whose randint answers that draw when called with the expected range and size. That randint's answers are equally likely is numpy's contract; the theorems count the answers."
  },
  {
   "property": "C106",
   "status": "proved",
   "theorems": [
    "C106_CC",
    "C106_AC",
    "C106_PAC",
    "C106_PWKQ",
    "C106_DeBias",
    "C106_EM",
    "C106_DFy",
    "C106_DFX",
    "C106_FriedmanME",
    "C106_PDFOrdinaly",
    "C106_ACOrdinal",
    "C106_ED",
    "C106_CvMy",
    "C106_SORDy",
    "C106_QUANTy",
    "C106_FrankAndHall",
    "C106_tree",
    "C106_order",
    "C106_any_renaming_refuted"
   ],
   "note": "Labels are integers in the model; since only their order matters this also covers strings, booleans and floats that sort in the same order. EDy, EDX and CvMy: the linear algebra routines are oracles that may read only the entries of the matrices they get (reads_dimensions). DeBias, EM, DFy, DFX, FriedmanME, PDFOrdinaly, Frank-and-Hall and one-vs-rest: fit gives the same object, so predict, which gets no labels, gives the same. SORDy and QUANTy: two classes. C106_any_renaming_refuted: the order is needed."
  },
  {
   "property": "C107",
   "status": "proved",
   "theorems": [
    "C107_PriorShift",
    "C107_CovariateShift",
    "C107_PriorAndCovariateShift",
    "C107_generators",
    "C107_REGX",
    "C107_REGy",
    "C107_EoQ",
    "C107_PWK",
    "C107_PWK_one_class_refuted",
    "C107_predict_label"
   ],
   "note": "Covariate shift: the generator returns indexes in range (rng_ok). EoQ: for base quantifiers with the property, shown for CC (counting_base). C107_PWK_one_class_refuted: with one class PWK predicts label 0."
  },
  {
   "property": "C108",
   "status": "proved",
   "theorems": [
    "C108_l1_mae",
    "C108_l2_mse",
    "C108_l2_l1",
    "C108_bray_curtis_l1",
    "C108_hd_l1",
    "C108_emd_l1",
    "C108_emd_two",
    "C108_emd_mean_class",
    "C108_probsymmetric_l1",
    "C108_topsoe_probsymmetric",
    "C108_topsoe_l1",
    "C108_kld_l1"
   ],
   "note": "The first three relations hold for all vectors, the others for distributions. kld: all true prevalences positive (otherwise it is undefined, C25). hd is the unnormalised Hellinger distance of the code."
  },
  {
   "property": "C109",
   "status": "proved",
   "theorems": [
    "C109_l1",
    "C109_mae",
    "C109_mse",
    "C109_l2",
    "C109_emd",
    "C109_bray_curtis",
    "C109_hd",
    "C109_probsymmetric",
    "C109_kld",
    "C109_EoQ_mean",
    "C109_EoQ_mean_any",
    "C109_EoQ_selected",
    "C109_median_refuted"
   ],
   "note": "l1, l2, mae, mse and emd: all vectors. hd, probsymmetric: non-negative vectors; kld: positive truth. C109_EoQ_selected composes with the selection theorems of C58. C109_median_refuted: three members with l1 = 2/3 each, median ensemble with l1 = 1."
  },
  {
   "property": "C110",
   "status": "proved",
   "theorems": [
    "C110_correction",
    "C110_correction_new",
    "C110_correction_new_refuted",
    "C110_prevalences",
    "C110_threshold",
    "C110_quantile_weights",
    "C110_sord_weights",
    "C110_pwk_weights",
    "C110_recall",
    "C110_quantiles",
    "C110_cumulative",
    "C110_dpofa",
    "C110_winner_node",
    "C110_winner_node_refuted"
   ],
   "note": "Heap model in M_Arrays.v; a program that raises returns None, so each theorem also says that there is no exception. C110_correction_new_refuted: an ascending vector is returned itself. C110_winner_node_refuted: the array returned by the estimator is overwritten."
  },
  {
   "property": "C111",
   "status": "proved",
   "theorems": [
    "C111_EDy",
    "C111_SORDy",
    "C111_QUANTy",
    "C111_CvMy",
    "C111_CvMy_copies_refuted",
    "C111_PWK",
    "C111_PWK_copies_refuted",
    "C111_CV",
    "C111_CV_copies_refuted",
    "C111_generator"
   ],
   "note": "EDy: external routines that read only the entries below the dimensions, as in C106. CvMy: labels and predictions of the same length (otherwise y_ext_ is a copy). The refutations exhibit a caller that reuses an array after fit."
  },
  {
   "property": "C112",
   "status": "proved",
   "theorems": [
    "C112_AC_double",
    "C112_PAC_double",
    "C112_PAC_double_any",
    "C112_DeBias_double",
    "C112_AC_accuracy",
    "C112_PAC_accuracy",
    "C112_AC_recovers",
    "C112_PAC_recovers",
    "C112_AC_accuracy_refuted",
    "C112_DeBias_accuracy"
   ],
   "note": "IEEE doubles (Flocq's binary64, round to nearest even). np.sum is any function that adds the numbers in some order; numpy's pairwise summation is shown to be one. C112_AC_accuracy_refuted: rates that differ by exactly 0.001 give 2/3 in exact arithmetic and 0 in doubles."
  },
  {
   "property": "C113",
   "status": "proved",
   "theorems": [
    "C113_CC_rounded",
    "C113_CC_order",
    "C113_CC_two",
    "C113_CC_sum_refuted",
    "C113_PCC_accuracy",
    "C113_PCC_equal_refuted",
    "C113_PCC_sum_refuted"
   ],
   "note": "Refuted parts kept as theorems: CC with three classes (1/6+4/6+1/6) and PCC with two classes need not add up to 1 in doubles; the mean of three 0.1's is not 0.1."
  },
  {
   "property": "C114",
   "status": "proved",
   "theorems": [
    "C114_correction",
    "C114_few_classes",
    "C114_few_classes_monotone",
    "C114_nine_classes_refuted",
    "C114_accuracy"
   ],
   "note": "C114_nine_classes_refuted: with nine classes and numpy's pairwise order the last prevalence can be -2^-52."
  },
  {
   "property": "C115",
   "status": "proved",
   "theorems": [
    "C115_one_vs_rest_double",
    "C115_one_vs_rest_zero",
    "C115_pdf_double",
    "C115_regression_double",
    "C115_regression_nan",
    "C115_inverse_double",
    "C115_ensemble_mean_double",
    "C115_unanimous_refuted"
   ],
   "note": "From the numbers about to be divided (answers of solvers, regressors, members are arguments). C115_unanimous_refuted: three members that answer 0.1 give 0.10000000000000002."
  },
  {
   "property": "C116",
   "status": "proved",
   "theorems": [
    "C116_EM_double",
    "C116_EM_rounds_double",
    "C116_separated_positive",
    "C116_separated_two",
    "C116_absent_class_double",
    "C116_positive_rows_refuted"
   ],
   "note": "C116_separated_positive and C116_separated_two give the rows to which C116_EM_double applies. C116_positive_rows_refuted: with a row (2^-1074, 0) the product underflows and the answer is NaN."
  },
  {
   "property": "C117",
   "status": "proved",
   "theorems": [
    "C117_symmetric",
    "C117_self",
    "C117_l1_identity",
    "C117_identity_refuted",
    "C117_l1_accuracy",
    "C117_mae_accuracy",
    "C117_mse_accuracy",
    "C117_l2_accuracy",
    "C117_hd_accuracy",
    "C117_bray_curtis_nan",
    "C117_bray_curtis_accuracy",
    "C117_probsymmetric_accuracy",
    "C117_triangle_refuted"
   ],
   "note": "C117_identity_refuted gives the pairs of different vectors at distance 0 (mae and mse/l2 by underflow, hd because two square roots round alike); C117_triangle_refuted a case where l1(p,q)+l1(q,r) < l1(p,r) in doubles."
  },
  {
   "property": "C118",
   "status": "proved",
   "theorems": [
    "C118_golden_valid",
    "C118_golden_minimum",
    "C118_global_valid",
    "C118_global_where",
    "C118_global_two_refuted"
   ],
   "note": "The number of steps (math.log) is an argument; C118_global_two_refuted: p_estimated = 2 (search.py:89) is returned when no searched loss is below infinity."
  },
  {
   "property": "C119",
   "status": "proved",
   "theorems": [
    "C119_mixture",
    "C119_ends",
    "C119_cumulative",
    "C119_same_refuted"
   ],
   "note": "C119_same_refuted: 0.9 mixed with 0.9 at prevalence 0.2 is not 0.9."
  },
  {
   "property": "C120",
   "status": "proved",
   "theorems": [
    "C120_binary_problems",
    "C120_answers",
    "C120_when_fit_returns",
    "C120_schedule_and_history",
    "C120_private_copies",
    "C120_nothing_else_changes",
    "C120_never_fitted",
    "C120_failed_fit",
    "C120_refused_fit_relabels",
    "C120_tree",
    "C120_tree_failed"
   ],
   "note": "The estimator is an arbitrary record of set_params/fit/predict/predict_proba, objects live in a store; joblib runs the jobs in an arbitrary order. C120_refused_fit_relabels is the finding; C120_tree covers the tree variant's fit."
  },
  {
   "property": "C121",
   "status": "proved",
   "theorems": [
    "C121_other_processes",
    "C121_same_process",
    "C121_failed_fit_is_final",
    "C121_refused_fit",
    "C121_retry_refuted"
   ],
   "note": "C121_failed_fit_is_final holds for every history of later fits; C121_retry_refuted is a concrete run (a bag with one class, a corrected second call that returns, a prediction that raises)."
  },
  {
   "property": "C122",
   "status": "proved",
   "theorems": [
    "C122_never_fitted",
    "C122_failed_refit_same_classes",
    "C122_failed_refit_refuted"
   ],
   "note": "C122_failed_refit_refuted: after a failed second fit with other classes the answer changes from (1/2, 1/2) to (1, 0)."
  },
  {
   "property": "C123",
   "status": "proved",
   "theorems": [
    "C123_normalize",
    "C123_no_leak",
    "C123_load_round_trip",
    "C123_load_labels"
   ],
   "note": "StandardScaler with exact reals (its guard for tiny variances is not modelled); genfromtxt as a table of numbers with at least two lines."
  },
  {
   "property": "C124",
   "status": "proved",
   "theorems": [
    "C124_symmetric",
    "C124_distances_symmetric",
    "C124_self",
    "C124_identity",
    "C124_identity_refuted",
    "C124_accuracy",
    "C124_distances_accuracy",
    "C124_score"
   ],
   "note": "np.cumsum copies the first entry and adds the others from left to right. C124_identity_refuted: (1/2, 2^-60, 1/2) and (1/2, 2^-61, 1/2) have the same rounded partial sums, so emd_distances cannot tell them apart (emd can), and the score of one for the other is 1."
  },
  {
   "property": "C125",
   "status": "proved",
   "theorems": [
    "C125_CC",
    "C125_PCC",
    "C125_PAC_uncorrected",
    "C125_PAC_no_predictions",
    "C125_PAC_fit_returns",
    "C125_PAC_scores_suffice",
    "C125_PAC_labels_are_scores",
    "C125_PAC_never_fitted_refuted",
    "C125_PAC_refit_refuted",
    "C125_DeBias_not_binary",
    "C125_DeBias_never_fitted",
    "C125_DeBias_fit_returns",
    "C125_DeBias_one_column",
    "C125_DeBias_refit",
    "C125_DeBias_refit_refuted",
    "C125_EM_never_fitted",
    "C125_EM_fit_returns",
    "C125_EM_refit",
    "C125_EM_refit_other"
   ],
   "note": "C125_PAC_never_fitted_refuted, C125_PAC_refit_refuted: cm_ is zeroed before its rows are computed, so a fit that raises there leaves an object that answers uncorrected prevalences. C125_DeBias_refit_refuted: train_prevs_ is assigned before Vt_."
  },
  {
   "property": "C126",
   "status": "proved",
   "theorems": [
    "C126_get_params",
    "C126_methods_keep",
    "C126_cv_refuted",
    "C126_set_params",
    "C126_set_params_unknown",
    "C126_clone",
    "C126_renamed_refuted",
    "C126_tree_clone_refuted",
    "C126_tree_params_refuted",
    "C126_first_argument_train",
    "C126_first_argument_test",
    "C126_modes",
    "C126_decompositions",
    "C126_presets"
   ],
   "note": "scikit-learn's get_params (from 0.24 on), set_params and clone are modelled too. Refuted: C126_renamed_refuted (EM, EDX, PWKQuantifier, PWK), C126_tree_clone_refuted and C126_tree_params_refuted (OrdinalQuantificationTree), C126_cv_refuted (CV_estimator.fit overwrites cv). Which attributes methods assign was read from the sources (cl_assigns)."
  },
  {
   "property": "C127",
   "status": "proved",
   "theorems": [
    "C127_answers",
    "C127_parameters",
    "C127_new_DFy",
    "C127_new_DFX",
    "C127_new_FriedmanME",
    "C127_frozen",
    "C127_distance_refuted",
    "C127_L2_needs_fit",
    "C127_L2_stale_refuted",
    "C127_AC_PAC_frozen"
   ],
   "note": "With HD and L1 the theorem C127_answers assumes a solver whose answer does not depend on its warm start (as in C62). That every change of distance takes effect is refuted by C127_frozen with C127_distance_refuted, and by C127_L2_stale_refuted. Changes of n_bins, bin_strategy and distribution_function are the subject of C130."
  },
  {
   "property": "C128",
   "status": "proved",
   "theorems": [
    "C128_FH",
    "C128_tree",
    "C128_tree_length",
    "C128_path_length",
    "C128_tree_sum",
    "C128_OQT",
    "C128_OQT_sum",
    "C128_DDAG_full",
    "C128_DDAG_winner",
    "C128_first_from_second",
    "C128_winner_zero_refuted"
   ],
   "note": "Rows that are NaN or outside [0, 1] are not covered. That 'winner_node' always distributes the probability is refuted by C128_winner_zero_refuted. The bound 4^n 2^-53 of 'full_probabilistic' is crude: it counts one rounding for each of the 2^(n-1) leaves that the code visits."
  },
  {
   "property": "C129",
   "status": "proved",
   "theorems": [
    "C129_fit_returns",
    "C129_refused",
    "C129_never_fitted",
    "C129_never_fitted_refuted",
    "C129_refit_refuted",
    "C129_forgotten",
    "C129_other_classes",
    "C129_after_an_answer",
    "C129_decreasing_cuts"
   ],
   "note": "The number of attributes is the same in all the calls on an object. C129_never_fitted and C129_forgotten assume that norm.ppf increases and, for equal_count, that n_bins is not 2 modulo 4; C129_never_fitted_refuted shows that the second assumption is needed. That a raising fit leaves the answers as they were is refuted by C129_refit_refuted."
  },
  {
   "property": "C130",
   "status": "proved",
   "theorems": [
    "C130_answers",
    "C130_n_bins",
    "C130_distribution_function_refuted"
   ],
   "note": "With HD and L1, C130_answers assumes a solver whose answer does not depend on its warm start (as in C62). Histograms of one bin are repeated by numpy, after which the solvers refuse the length; for a distance that is a Python function the model also counts this as ValueError. That a change of distribution_function is harmless until the next fit is refuted by C130_distribution_function_refuted."
  },
  {
   "property": "C131",
   "status": "proved",
   "theorems": [
    "C131_fit_returns",
    "C131_returns",
    "C131_one_fit",
    "C131_early",
    "C131_unfinished_using",
    "C131_unfinished_without",
    "C131_last_member_refuted",
    "C131_cdf",
    "C131_more_members",
    "C131_fewer_members"
   ],
   "note": "The base quantifier class is any pair of functions fit and predict; fit may change the copy and raise. C131_unfinished_using assumes given bags and one prediction per example, C131_unfinished_without given bags and n_bins = 100 (the only value for which the first part of fit returns, C92). That an EoQ whose fit raised never answers is refuted by C131_last_member_refuted."
  },
  {
   "property": "C132",
   "status": "proved",
   "theorems": [
    "C132_fit_returns",
    "C132_returns",
    "C132_early",
    "C132_wrong_number_after_an_answer",
    "C132_wrong_number_before_an_answer",
    "C132_wrong_number_L2",
    "C132_never_fitted_refuted"
   ],
   "note": "The theorems about a wrong number of predictions are for equal_width cut points and, after an answer, for HD and L1 (whose cvxpy problem is cached) and for L2; C132_early is for every strategy and distance. In the second part of C132_early the number of columns used is 1 for two classes and else the number of classes. That a DFy none of whose fits returned never answers is refuted by C132_never_fitted_refuted."
  },
  {
   "property": "C133",
   "status": "proved",
   "theorems": [
    "C133_fit_returns",
    "C133_returns",
    "C133_early",
    "C133_few_columns",
    "C133_wrong_number_after_an_answer",
    "C133_wrong_number_before_an_answer",
    "C133_wrong_number_L2",
    "C133_never_fitted_refuted"
   ],
   "note": "FriedmanME is modelled as an object whose fit assigns train_prevs_, train_distrib_ and the rest one after another; the refinement to the single fit and the answers after each way of failing are for all histories. That a FriedmanME none of whose fits returned never answers is refuted by C133_never_fitted_refuted."
  },
  {
   "property": "C134",
   "status": "proved",
   "theorems": [
    "C134_fit_returns",
    "C134_returns",
    "C134_early",
    "C134_two_classes",
    "C134_wrong_columns",
    "C134_wrong_number_after_an_answer",
    "C134_wrong_number_before_an_answer",
    "C134_wrong_number_L2",
    "C134_never_fitted_refuted"
   ],
   "note": "The statements that predict raises are for the three distances of the class; with any other distance predict returns None, as in the code. C134_wrong_columns is for the method full_probabilistic; C134_early and C134_two_classes are for both. That a PDFOrdinaly none of whose fits returned never answers is refuted by C134_never_fitted_refuted."
  },
  {
   "property": "C135",
   "status": "proved",
   "theorems": [
    "C135_fit_returns",
    "C135_returns",
    "C135_never_fitted",
    "C135_same_classes",
    "C135_renamed",
    "C135_probabilities",
    "C135_blind",
    "C135_other_number",
    "C135_keeps_refuted"
   ],
   "note": "C135_fit_returns compares with the single fit where that is defined: if a class has no prediction among the classes its row of the confusion matrix is 0/0, and what the solver does then is not modelled. That a fit that raises leaves the answers as they were is refuted by C135_keeps_refuted; what holds instead is C135_same_classes, C135_renamed, C135_probabilities, C135_blind and C135_other_number."
  },
  {
   "property": "C136",
   "status": "proved",
   "theorems": [
    "C136_fit_returns",
    "C136_returns",
    "C136_never_fitted",
    "C136_keeps",
    "C136_blind",
    "C136_mixes",
    "C136_keeps_refuted"
   ],
   "note": "C136_fit_returns is about two classes; with one class the object is modelled but only covered by C136_returns. C136_mixes is about a failing fit with as many predictions as the last fit that returned; with more of them predict raises IndexError, with fewer the labels are read at shifted positions (both in the model). That a fit that raises leaves the answers as they were is refuted by C136_keeps_refuted; what holds instead is C136_keeps, C136_blind and C136_mixes."
  },
  {
   "property": "C137",
   "status": "proved",
   "theorems": [
    "C137_fit_returns",
    "C137_returns",
    "C137_never_fitted",
    "C137_keeps",
    "C137_blind",
    "C137_mixes"
   ],
   "note": "C137_fit_returns is about two classes. Failing fits with new labels or a wrong number of predictions that come after predictions (so that a grid is stored) are in the model but no theorem is about their answers. Errors are not told apart where the statement says raises."
  }
 ]
}