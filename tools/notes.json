{
 "C03": {
  "note": "For AC and PWKQuantifier the bag must contain at least one known label; otherwise the result can be [0,0], shown by C03_unknown_labels_refuted."
 },
 "C15": {
  "note": "The documented formula is false of the code (C15_frank_hall_classifier_refuted); the theorems give the values the code computes and show that a middle class agrees with the documentation only when its estimator outputs 1."
 },
 "C16": {
  "note": "Distribution and cumulative running maximum proved; the documented averaging never happens (C16_monotone_averaging_refuted)."
 },
 "C18": {
  "note": "False of the code: refuted with perfect estimators, and the actual score is stated for every training set."
 },
 "C38": {
  "note": "The unconditional form is false when the splitter shuffles without a fixed seed (C38_shuffling_splitter_refuted)."
 },
 "C61": {
  "note": "One model per bag is false with the default n_jobs (C61_one_model_per_bag_refuted); the theorems say which model each column comes from."
 },
 "C45": {
  "note": "Always finding a best prevalence is false of the code (C45_single_minimum_refuted, C45_global_minimum_refuted)."
 },
 "C46": {
  "note": "The range of the values without the exception is false of the code (C46_range_refuted)."
 },
 "C49": {
  "note": "The unconditional form is false for matrices that are not symmetric (C49_not_symmetric_refuted); the library only passes symmetric ones."
 },
 "C57": {
  "note": "Minimisation assumes an exact solver; with the tolerance the code asks for the contract does not give a distribution (C57_tolerance_refuted)."
 },
 "C51": {
  "note": "The normal and binormal strategies are outside the claim: C51_normal_refuted shows constant scores lost."
 },
 "C52": {
  "note": "Refuted for HD with distributions of unequal masses: C52_FriedmanME_HD_refuted, C52_DFy_CDF_HD_refuted, C52_DFX_CDF_HD_refuted."
 },
 "C53": {
  "note": "Entries in [0,1] are false of DFy with three or more classes (C53_DFy_refuted); C53_DFy gives the values computed."
 },
 "C54": {
  "note": "Without n_bins < 2*n_examples the claim is false (C54_equal_count_few_refuted, C54_equal_count_order_refuted)."
 },
 "C80": {
  "note": "False for a function as distance and three or more classes (C80_function_refuted)."
 },
 "C63": {
  "note": "The earlier wording asked for one scale of training and test histograms; that part is now C83. C63_many_always_refuted: three classes and non-positive outputs give NaN."
 },
 "C83": {
  "note": "C83_any_size_refuted: bags of size 1, two training examples, an exact regression model and the opposite prevalences."
 },
 "C84": {
  "note": "C84_two_classes_refuted gives the concrete case of the last sentence."
 },
 "C85": {
  "note": "C85_own_data_refuted: the second quantifier learns prevalences its data do not have."
 },
 "C58": {
  "note": "C58_median_always_refuted: three members answering the three corners give NaN. For n_quantifiers=1 numpy's argsort of a 0-d array is taken to be that of one value."
 },
 "C59": {
  "note": "The first wording (each row describes its bag) is false: C59_bags_refuted."
 },
 "C60": {
  "note": "The first wording (an EoQ trains on bags of its own data) is false: C60_own_data_refuted."
 },
 "C91": {
  "note": "C91_aligned_refuted is the wrong result with CC members."
 },
 "C62": {
  "note": "Histories contain fits that fail (they may leave any state). AC and PAC with L2 exclude a last fit with a single class, for which the parameters of an earlier fit stay in the object. C62_warm_start_refuted: with ties an exact solver may answer differently from its warm start; the distance theorems cover every exact solver. C62_estimators_refuted: with an own estimator the first fit wins."
 },
 "C95": {
  "note": "C95_em_tolerance_refuted shows that the stopping rule itself gives no guarantee. Prevalences that make some example impossible have likelihood 0 and are excluded (explains)."
 },
 "C101": {
  "note": "Exact reals; sklearn's manhattan_distances is modelled by its definition; quadprog is an oracle assumed exact. C101_sees_rows_refuted shows two disjoint samples at energy distance 0."
 },
 "C102": {
  "note": "Exact reals; sklearn's euclidean_distances is modelled by its definition; quadprog is an oracle assumed exact. The Euclidean distance is written as an integral of Gaussian kernels over their scales; no hypothesis about the energy distance is left."
 },
 "C103": {
  "note": "Exact reals; quadprog is an oracle (any function for the invariances, exact where said). C103_CvMy_replication_refuted and its witness show that CvMy's answer changes when only the bag is replicated (70% against 68.75%)."
 },
 "C104": {
  "note": "Exact reals; np.argsort is any sorting permutation, and two runs may use different ones. For 10000 quantiles or more the replication claim is not made: the code drops remainders of 0.0001."
 },
 "C105": {
  "note": "Stated on one bag: the prevalences a draw gives are those of the code run with a generator whose randint answers that draw when called with the expected range and size. That randint's answers are equally likely is numpy's contract; the theorems count the answers."
 },
 "C106": {
  "note": "Labels are integers in the model; since only their order matters this also covers strings, booleans and floats that sort in the same order. EDy, EDX and CvMy: the linear algebra routines are oracles that may read only the entries of the matrices they get (reads_dimensions). DeBias, EM, DFy, DFX, FriedmanME, PDFOrdinaly, Frank-and-Hall and one-vs-rest: fit gives the same object, so predict, which gets no labels, gives the same. SORDy and QUANTy: two classes. C106_any_renaming_refuted: the order is needed."
 },
 "C107": {
  "note": "Covariate shift: the generator returns indexes in range (rng_ok). EoQ: for base quantifiers with the property, shown for CC (counting_base). C107_PWK_one_class_refuted: with one class PWK predicts label 0."
 },
 "C108": {
  "note": "The first three relations hold for all vectors, the others for distributions. kld: all true prevalences positive (otherwise it is undefined, C25). hd is the unnormalised Hellinger distance of the code."
 },
 "C109": {
  "note": "l1, l2, mae, mse and emd: all vectors. hd, probsymmetric: non-negative vectors; kld: positive truth. C109_EoQ_selected composes with the selection theorems of C58. C109_median_refuted: three members with l1 = 2/3 each, median ensemble with l1 = 1."
 },
 "C110": {
  "note": "Heap model in M_Arrays.v; a program that raises returns None, so each theorem also says that there is no exception. C110_correction_new_refuted: an ascending vector is returned itself. C110_winner_node_refuted: the array returned by the estimator is overwritten."
 },
 "C111": {
  "note": "EDy: external routines that read only the entries below the dimensions, as in C106. CvMy: labels and predictions of the same length (otherwise y_ext_ is a copy). The refutations exhibit a caller that reuses an array after fit."
 },
 "C112": {
  "note": "IEEE doubles (Flocq's binary64, round to nearest even). np.sum is any function that adds the numbers in some order; numpy's pairwise summation is shown to be one. C112_AC_accuracy_refuted: rates that differ by exactly 0.001 give 2/3 in exact arithmetic and 0 in doubles."
 },
 "C113": {
  "note": "Refuted parts kept as theorems: CC with three classes (1/6+4/6+1/6) and PCC with two classes need not add up to 1 in doubles; the mean of three 0.1's is not 0.1."
 },
 "C114": {
  "note": "C114_nine_classes_refuted: with nine classes and numpy's pairwise order the last prevalence can be -2^-52."
 },
 "C115": {
  "note": "From the numbers about to be divided (answers of solvers, regressors, members are arguments). C115_unanimous_refuted: three members that answer 0.1 give 0.10000000000000002."
 },
 "C116": {
  "note": "C116_separated_positive and C116_separated_two give the rows to which C116_EM_double applies. C116_positive_rows_refuted: with a row (2^-1074, 0) the product underflows and the answer is NaN."
 },
 "C117": {
  "note": "C117_identity_refuted gives the pairs of different vectors at distance 0 (mae and mse/l2 by underflow, hd because two square roots round alike); C117_triangle_refuted a case where l1(p,q)+l1(q,r) < l1(p,r) in doubles."
 },
 "C118": {
  "note": "The number of steps (math.log) is an argument; C118_global_two_refuted: p_estimated = 2 (search.py:89) is returned when no searched loss is below infinity."
 },
 "C119": {
  "note": "C119_same_refuted: 0.9 mixed with 0.9 at prevalence 0.2 is not 0.9."
 },
 "C120": {
  "note": "The estimator is an arbitrary record of set_params/fit/predict/predict_proba, objects live in a store; joblib runs the jobs in an arbitrary order. C120_refused_fit_relabels is the finding; C120_tree covers the tree variant's fit."
 },
 "C121": {
  "note": "C121_failed_fit_is_final holds for every history of later fits; C121_retry_refuted is a concrete run (a bag with one class, a corrected second call that returns, a prediction that raises)."
 },
 "C122": {
  "note": "C122_failed_refit_refuted: after a failed second fit with other classes the answer changes from (1/2, 1/2) to (1, 0)."
 },
 "C123": {
  "note": "StandardScaler with exact reals (its guard for tiny variances is not modelled); genfromtxt as a table of numbers with at least two lines."
 },
 "C124": {
  "note": "np.cumsum copies the first entry and adds the others from left to right. C124_identity_refuted: (1/2, 2^-60, 1/2) and (1/2, 2^-61, 1/2) have the same rounded partial sums, so emd_distances cannot tell them apart (emd can), and the score of one for the other is 1."
 },
 "C125": {
  "note": "C125_PAC_never_fitted_refuted, C125_PAC_refit_refuted: cm_ is zeroed before its rows are computed, so a fit that raises there leaves an object that answers uncorrected prevalences. C125_DeBias_refit_refuted: train_prevs_ is assigned before Vt_."
 },
 "C126": {
  "note": "scikit-learn's get_params (from 0.24 on), set_params and clone are modelled too. Refuted: C126_renamed_refuted (EM, EDX, PWKQuantifier, PWK), C126_tree_clone_refuted and C126_tree_params_refuted (OrdinalQuantificationTree), C126_cv_refuted (CV_estimator.fit overwrites cv). Which attributes methods assign was read from the sources (cl_assigns)."
 },
 "C127": {
  "note": "With HD and L1 the theorem C127_answers assumes a solver whose answer does not depend on its warm start (as in C62). That every change of distance takes effect is refuted by C127_frozen with C127_distance_refuted, and by C127_L2_stale_refuted. Changes of n_bins, bin_strategy and distribution_function are the subject of C130."
 },
 "C128": {
  "note": "Rows that are NaN or outside [0, 1] are not covered. That 'winner_node' always distributes the probability is refuted by C128_winner_zero_refuted. The bound 4^n 2^-53 of 'full_probabilistic' is crude: it counts one rounding for each of the 2^(n-1) leaves that the code visits."
 },
 "C129": {
  "note": "The number of attributes is the same in all the calls on an object. C129_never_fitted and C129_forgotten assume that norm.ppf increases and, for equal_count, that n_bins is not 2 modulo 4; C129_never_fitted_refuted shows that the second assumption is needed. That a raising fit leaves the answers as they were is refuted by C129_refit_refuted."
 },
 "C130": {
  "note": "With HD and L1, C130_answers assumes a solver whose answer does not depend on its warm start (as in C62). Histograms of one bin are repeated by numpy, after which the solvers refuse the length; for a distance that is a Python function the model also counts this as ValueError. That a change of distribution_function is harmless until the next fit is refuted by C130_distribution_function_refuted."
 },
 "C131": {
  "note": "The base quantifier class is any pair of functions fit and predict; fit may change the copy and raise. C131_unfinished_using assumes given bags and one prediction per example, C131_unfinished_without given bags and n_bins = 100 (the only value for which the first part of fit returns, C92). That an EoQ whose fit raised never answers is refuted by C131_last_member_refuted."
 },
 "C132": {
  "note": "The theorems about a wrong number of predictions are for equal_width cut points and, after an answer, for HD and L1 (whose cvxpy problem is cached) and for L2; C132_early is for every strategy and distance. In the second part of C132_early the number of columns used is 1 for two classes and else the number of classes. That a DFy none of whose fits returned never answers is refuted by C132_never_fitted_refuted."
 },
 "C133": {
  "note": "FriedmanME is modelled as an object whose fit assigns train_prevs_, train_distrib_ and the rest one after another; the refinement to the single fit and the answers after each way of failing are for all histories. That a FriedmanME none of whose fits returned never answers is refuted by C133_never_fitted_refuted."
 },
 "C134": {
  "note": "The statements that predict raises are for the three distances of the class; with any other distance predict returns None, as in the code. C134_wrong_columns is for the method full_probabilistic; C134_early and C134_two_classes are for both. That a PDFOrdinaly none of whose fits returned never answers is refuted by C134_never_fitted_refuted."
 },
 "C135": {
  "note": "C135_fit_returns compares with the single fit where that is defined: if a class has no prediction among the classes its row of the confusion matrix is 0/0, and what the solver does then is not modelled. That a fit that raises leaves the answers as they were is refuted by C135_keeps_refuted; what holds instead is C135_same_classes, C135_renamed, C135_probabilities, C135_blind and C135_other_number."
 },
 "C136": {
  "note": "C136_fit_returns is about two classes; with one class the object is modelled but only covered by C136_returns. C136_mixes is about a failing fit with as many predictions as the last fit that returned; with more of them predict raises IndexError, with fewer the labels are read at shifted positions (both in the model). That a fit that raises leaves the answers as they were is refuted by C136_keeps_refuted; what holds instead is C136_keeps, C136_blind and C136_mixes."
 },
 "C137": {
  "note": "C137_fit_returns is about two classes. Failing fits with new labels or a wrong number of predictions that come after predictions (so that a grid is stored) are in the model but no theorem is about their answers. Errors are not told apart where the statement says raises."
 }
}