{"id": "C01", "title": "CC returns exact label frequencies", "statement": "CC.predict returns, for every class, exactly the fraction of the bag predicted as that class; the result is a probability distribution if and only if every prediction is a known label; an empty bag has no numeric answer.", "quantifier": "all class lists without duplicates, all bags of crisp predictions of any length", "why_tests_cant": "bags and label sets are unbounded", "anchors": ["quantificationlib/baselines/cc.py:CC.predict"]}
{"id": "C02", "title": "PCC returns a valid distribution", "statement": "PCC.predict on a non-empty bag of posterior vectors returns the class-wise mean, which is a probability distribution over the classes whenever every posterior vector is one.", "quantifier": "all non-empty bags, all numbers of classes", "why_tests_cant": "unbounded sizes and real-valued inputs", "anchors": ["quantificationlib/baselines/cc.py:PCC.predict"]}
{"id": "C03", "title": "Binary AC/PAC/PWK-quantifier outputs are distributions", "statement": "With two classes, AC, PAC and PWKQuantifier return non-negative prevalences that sum to 1 for every trained confusion matrix and every non-empty bag (also when the correction leaves [0,1] and when the classifier is uninformative); AC and PWKQuantifier need one predicted label in the bag to be a known one, otherwise the result can be [0,0].", "quantifier": "all 2x2 confusion matrices, all bags", "why_tests_cant": "the clip/normalise corner cases depend on real values", "anchors": ["quantificationlib/baselines/ac.py:AC.predict", "quantificationlib/baselines/ac.py:PAC.predict", "quantificationlib/multiclass/knn.py:PWKQuantifier.predict"]}
{"id": "C04", "title": "Multiclass AC/PAC outputs are distributions", "statement": "With more than two classes and an invertible confusion matrix, AC.predict and PAC.predict never divide by zero and return a probability distribution.", "quantifier": "all row-stochastic confusion matrices of any size with an inverse, all bags", "why_tests_cant": "needs linear algebra over all matrices", "anchors": ["quantificationlib/baselines/ac.py:AC.predict", "quantificationlib/baselines/ac.py:PAC.predict"]}
{"id": "C05", "title": "AC/PAC recover the true prevalence under prior shift", "statement": "If the observed (mean or counted) predictions of the bag are exactly the training class-conditional predictions mixed with prevalences pi, then AC.predict / PAC.predict return pi (binary: when |tpr-fpr|>0.001; multiclass: when the confusion matrix is invertible).", "quantifier": "all confusion matrices, all pi in the simplex", "why_tests_cant": "an equality over all reals", "anchors": ["quantificationlib/baselines/ac.py:AC.predict", "quantificationlib/baselines/ac.py:PAC.predict"]}
{"id": "C06", "title": "Predictions do not depend on the order of the examples in the bag", "statement": "For CC, PCC, AC, PAC, DeBias, EM, DFy, EDy, FriedmanME: permuting the examples of the test bag does not change the predicted prevalences.", "quantifier": "all bags and all permutations of them", "why_tests_cant": "factorially many permutations of unbounded bags", "anchors": ["quantificationlib/baselines/cc.py", "quantificationlib/baselines/ac.py", "quantificationlib/multiclass/em.py", "quantificationlib/multiclass/df.py", "quantificationlib/multiclass/energy.py", "quantificationlib/multiclass/friedman.py"]}
{"id": "C07", "title": "Predictions depend on the bag only through proportions", "statement": "For CC, PCC, AC, PAC, EM: repeating every example of the test bag k>=1 times does not change the predicted prevalences.", "quantifier": "all bags, all k", "why_tests_cant": "unbounded sizes", "anchors": ["quantificationlib/baselines/cc.py", "quantificationlib/baselines/ac.py", "quantificationlib/multiclass/em.py"]}
{"id": "C08", "title": "Fitting does not depend on the order of the training examples", "statement": "For AC, PAC, DeBias, EM: permuting training labels and training predictions together does not change the fitted state, hence no later prediction.", "quantifier": "all training sets and permutations", "why_tests_cant": "factorially many permutations", "anchors": ["quantificationlib/baselines/ac.py:AC.fit", "quantificationlib/baselines/ac.py:PAC.fit", "quantificationlib/binary/debias.py", "quantificationlib/multiclass/em.py"]}
{"id": "C09", "title": "DeBias is binary, valid and exact for calibrated classifiers", "statement": "DeBias.fit raises AttributeError unless there are exactly two classes; when the training scatter is non-zero predict returns a probability distribution; if the training predictions are calibrated (mean and covariance with the label) and the bag mixes the class-conditional means with prevalence p, predict returns [1-p,p].", "quantifier": "all training sets and bags", "why_tests_cant": "real-valued identity", "anchors": ["quantificationlib/binary/debias.py:DeBias.fit", "quantificationlib/binary/debias.py:DeBias.predict"]}
{"id": "C10", "title": "EM stays in the simplex and stops", "statement": "EM.predict performs at least min(10,max_iter) and at most max_iter iterations and, on posteriors with positive entries, returns a probability distribution; max_iter=0 returns the training prevalences.", "quantifier": "all bags, all epsilon, all max_iter", "why_tests_cant": "unbounded iterations", "anchors": ["quantificationlib/multiclass/em.py:EM.predict"]}
{"id": "C11", "title": "EM never decreases the likelihood", "statement": "Each iteration of EM.predict does not decrease the log-likelihood of the bag under the prior-shift model (posteriors re-weighted by prevalence over training prevalence).", "quantifier": "all bags, all iterations", "why_tests_cant": "an inequality over all reals and iteration counts", "anchors": ["quantificationlib/multiclass/em.py:EM.predict"]}
{"id": "C12", "title": "EM is exact when there is no shift", "statement": "If the mean posterior of the bag already equals the training prevalences, EM.predict returns the training prevalences, for any epsilon and max_iter; more generally a fixed point of the update is returned unchanged once reached.", "quantifier": "all bags with that mean, all iteration budgets", "why_tests_cant": "loop invariant", "anchors": ["quantificationlib/multiclass/em.py:EM.predict"]}
{"id": "C13", "title": "Frank-and-Hall quantifier returns a valid distribution", "statement": "For any prevalences in [0,1] returned by the n-1 binary quantifiers, FrankAndHallQuantifier.predict returns a probability distribution whose cumulative sums are exactly the corrected left-group prevalences.", "quantifier": "all vectors of left-group prevalences of any length", "why_tests_cant": "unbounded number of classes", "anchors": ["quantificationlib/decomposition/ordinal.py:FrankAndHallQuantifier.predict"]}
{"id": "C14", "title": "Monotone correction of left-group prevalences", "statement": "check_and_correct_prevalences_asc returns an ascending vector, leaves ascending input untouched, is idempotent, stays between the smallest and the largest input, and equals the average of the running maximum from the left and the running minimum from the right.", "quantifier": "all real vectors", "why_tests_cant": "real vectors of any length", "anchors": ["quantificationlib/decomposition/ordinal.py:check_and_correct_prevalences_asc"]}
{"id": "C15", "title": "Frank-and-Hall classifier probabilities", "statement": "FrankAndHallClassifier.predict_proba gives the first class p_0, the last one 1-p_{n-2} and a middle class i the value 1-p_{i-1}*p_i, where p_j is the probability of the first j+1 classes. This is the documented product (1-p_{i-1})*p_i only when p_i=1, so the rows are in general not distributions.", "quantifier": "all binary estimator outputs", "why_tests_cant": "real-valued formula", "anchors": ["quantificationlib/estimators/frank_and_hall.py:FrankAndHallClassifier.predict_proba"]}
{"id": "C16", "title": "Monotone Frank-and-Hall classifier returns distributions", "statement": "FrankAndHallMonotoneClassifier.predict_proba returns a probability distribution for each example, whose cumulative sums are the running maximum of the left-group probabilities. The documented averaging of an ascending and a descending correction is never applied.", "quantifier": "all estimator outputs in [0,1]", "why_tests_cant": "real vectors of any length", "anchors": ["quantificationlib/estimators/frank_and_hall.py:FrankAndHallMonotoneClassifier"]}
{"id": "C17", "title": "Frank-and-Hall tree classifier returns distributions", "statement": "FrankAndHallTreeClassifier builds a tree that uses each of the n-1 binary estimators exactly once, places in every node an estimator of minimal score in its range, and predict_proba gives each class the product of the branch probabilities on its root-to-leaf path; the result is a probability distribution.", "quantifier": "all scores, all numbers of classes, all estimator outputs", "why_tests_cant": "unbounded tree shapes", "anchors": ["quantificationlib/estimators/frank_and_hall.py:FrankAndHallTreeClassifier"]}
{"id": "C18", "title": "Tree scores compare the left group with the right one", "statement": "The score of estimator i compares the mean predicted probability of the left group with the true prevalence of the right group, not of the left one: perfect estimators do not get the score 0.", "quantifier": "all training sets", "why_tests_cant": "all label distributions", "anchors": ["quantificationlib/estimators/frank_and_hall.py:FrankAndHallTreeClassifier.__generate_tree", "quantificationlib/estimators/frank_and_hall.py:FHLabelBinarizer.transform"]}
{"id": "C19", "title": "DDAG full_probabilistic returns distributions", "statement": "DDAGClassifier.predict_proba with full_probabilistic returns a probability distribution for each example; each internal node (l,r) uses the estimator that was trained to separate classes l and r.", "quantifier": "all numbers of classes, all pairwise probabilities", "why_tests_cant": "unbounded DAGs", "anchors": ["quantificationlib/estimators/ordinal_ddag.py"]}
{"id": "C20", "title": "DDAG winner_node puts mass on two adjacent classes", "statement": "With winner_node, predict_proba is a probability distribution that is non-zero on at most two classes and these are consecutive.", "quantifier": "all numbers of classes >= 2, all pairwise probabilities", "why_tests_cant": "unbounded DAGs, threshold cases", "anchors": ["quantificationlib/estimators/ordinal_ddag.py"]}
{"id": "C21", "title": "Frank-and-Hall label binarisation", "statement": "For three or more classes FHLabelBinarizer.transform gives 1 in column i exactly for the examples whose class is one of the first i+1 classes; the last column is all ones.", "quantifier": "all label vectors with >= 3 classes", "why_tests_cant": "unbounded label sets", "anchors": ["quantificationlib/estimators/frank_and_hall.py:FHLabelBinarizer"]}
{"id": "C22", "title": "One-vs-rest quantifier output", "statement": "OneVsRestQuantifier.predict returns a probability distribution proportional to the binary positive-class prevalences, or all zeros exactly when all of them are zero.", "quantifier": "all vectors of binary prevalences in [0,1]", "why_tests_cant": "unbounded number of classes", "anchors": ["quantificationlib/decomposition/multiclass.py:OneVsRestQuantifier.predict"]}
{"id": "C23", "title": "Distances between prevalences are metrics", "statement": "l1, l2, mean_absolute_error, hd and emd are non-negative, zero exactly on equal vectors, symmetric, and satisfy the triangle inequality.", "quantifier": "all pairs/triples of non-negative vectors of equal length", "why_tests_cant": "real vectors of any length", "anchors": ["quantificationlib/metrics/multiclass.py", "quantificationlib/metrics/ordinal.py"]}
{"id": "C24", "title": "Loss values stay in their documented ranges", "statement": "On probability distributions l1<=2, mean_absolute_error<=2/n, l2<=sqrt 2, hd<=sqrt 2, 0<=bray_curtis<=1, emd<=n-1, topsoe<2 ln 2 and probsymmetric<=4/(1+epsilon). With two or more classes the extremes of the first six are attained.", "quantifier": "all pairs of distributions", "why_tests_cant": "real vectors of any length", "anchors": ["quantificationlib/metrics/multiclass.py", "quantificationlib/metrics/ordinal.py"]}
{"id": "C25", "title": "kld behaves as a divergence", "statement": "kld(p,q,eps) is at least -log2(1+n*eps) on distributions with positive true prevalences; kld is not zero on p=q for eps>0, and it is not a number as soon as a true prevalence is 0.", "quantifier": "all distributions", "why_tests_cant": "inequality over reals", "anchors": ["quantificationlib/metrics/multiclass.py:kld"]}
{"id": "C26", "title": "topsoe, jensenshannon and probsymmetric are divergences and agree", "statement": "topsoe and probsymmetric are symmetric, non-negative and zero exactly on equal vectors; jensenshannon is symmetric and non-negative; jensenshannon and topsoe/2 differ by at most n*epsilon/2.", "quantifier": "all non-negative vectors, all epsilon>0", "why_tests_cant": "inequality over reals", "anchors": ["quantificationlib/metrics/multiclass.py:topsoe", "quantificationlib/metrics/multiclass.py:jensenshannon", "quantificationlib/metrics/multiclass.py:probsymmetric"]}
{"id": "C27", "title": "emd is the optimal transport cost", "statement": "emd(p,q) is the smallest cost of moving the mass p into q when moving one unit by one class costs 1: no transport plan is cheaper and some plan attains it.", "quantifier": "all pairs of distributions, all transport plans", "why_tests_cant": "the space of plans is infinite", "anchors": ["quantificationlib/metrics/ordinal.py:emd"]}
{"id": "C28", "title": "emd_score is a score in [0,1]", "statement": "For two or more classes emd_score(p,q) is in [0,1], is 1 exactly when p=q, and no distribution is further from p than one of the two distributions concentrated in an extreme class.", "quantifier": "all pairs of distributions", "why_tests_cant": "real vectors of any length", "anchors": ["quantificationlib/metrics/ordinal.py:emd_score"]}
{"id": "C29", "title": "emd_distances agrees with emd", "statement": "emd_distances(A,B)[i,j]=emd(A[i],B[j]) whenever both rows have the same total; not in general.", "quantifier": "all matrices", "why_tests_cant": "real matrices of any size", "anchors": ["quantificationlib/metrics/ordinal.py:emd_distances"]}
{"id": "C30", "title": "geometric_mean range", "statement": "geometric_mean without correction is in [0,1]; it is 0 exactly when some class (true or predicted) is never predicted correctly, and 1 exactly when all predictions are right.", "quantifier": "all label vectors", "why_tests_cant": "unbounded label vectors", "anchors": ["quantificationlib/metrics/multiclass.py:geometric_mean"]}
{"id": "C31", "title": "Binary scores and losses", "statement": "For prevalences in [0,1], normalized_absolute_score and normalized_squared_score are in [0,1] and equal 1 exactly when the prediction is exact; absolute and squared error are zero exactly then; symmetric_absolute_percentage_error is symmetric and in [0,1]; binary_kld is finite and non-negative for p_true in (0,1) and p_pred in (0,1).", "quantifier": "all p_true, p_pred in [0,1]", "why_tests_cant": "continuum of inputs", "anchors": ["quantificationlib/metrics/binary.py"]}
{"id": "C32", "title": "Prior-shift bags are what they claim", "statement": "PriorShift_BagGenerator.generate_bags (Uniform and Dirichlet): every bag has exactly bag_size indexes, all of them valid rows, and the reported prevalence of each class is exactly the fraction of rows of that class in the bag.", "quantifier": "all label vectors, bag sizes, and all outcomes of the random generator", "why_tests_cant": "randomness: all streams", "anchors": ["quantificationlib/bag_generator.py:PriorShift_BagGenerator"]}
{"id": "C33", "title": "min_prevalence is honoured", "statement": "In every generated bag, each class has at least round(bag_size*min_prevalence) examples (binary, scalar or per class; multiclass, scalar or per class). Consequently the prevalence is at least min_prevalence up to half an example.", "quantifier": "all label vectors, bag sizes, min_prevalence values and random outcomes", "why_tests_cant": "randomness: all streams", "anchors": ["quantificationlib/bag_generator.py:PriorShift_BagGenerator._generate_uniform"]}
{"id": "C34", "title": "When bag generation terminates", "statement": "PriorShift_BagGenerator.generate_bags (Uniform) without min_prevalence always returns after one draw per bag. With a scalar min_prevalence v and three or more classes it can return if and only if n_classes*round(v*bag_size) < bag_size; otherwise (for example v=1/n_classes, which the checks accept) it loops forever whatever is drawn, unless 2*round(v*bag_size) >= bag_size, when it raises ValueError.", "quantifier": "all label vectors, bag sizes, min_prevalence values and all random streams", "why_tests_cant": "non-termination cannot be observed by a test", "anchors": ["quantificationlib/bag_generator.py:PriorShift_BagGenerator._generate_uniform"]}
{"id": "C35", "title": "Covariate-shift bags are what they claim", "statement": "CovariateShift_BagGenerator: every bag has bag_size valid indexes and the reported prevalences are the exact class fractions of the bag and sum to 1; the sampling probabilities are a distribution.", "quantifier": "all data sets and random outcomes", "why_tests_cant": "randomness", "anchors": ["quantificationlib/bag_generator.py:CovariateShift_BagGenerator"]}
{"id": "C36", "title": "Mixed-shift bags are prior bags followed by covariate bags", "statement": "PriorAndCovariateShift_BagGenerator with an explicit bag_size returns floor(n/2) prior-shift bags followed by the remaining covariate-shift bags, n in total; with bag_size=None it fails although None is the documented default.", "quantifier": "all n_bags, data sets and random outcomes", "why_tests_cant": "randomness, parity", "anchors": ["quantificationlib/bag_generator.py:PriorAndCovariateShift_BagGenerator"]}
{"id": "C37", "title": "Bag generators are write-once", "statement": "Once a generator has produced bags every later generate_bags call returns the same bags, whatever data, n_bags or bag_size are given then.", "quantifier": "all histories of calls", "why_tests_cant": "histories", "anchors": ["quantificationlib/bag_generator.py"]}
{"id": "C38", "title": "Cross-validated training predictions are out-of-fold", "statement": "CV_estimator.predict_proba on its training set: every training example receives, in every repetition, the prediction of an estimator whose training part did not contain it, and no entry stays unset, provided the splitter gives the same folds at every call. With a splitter that shuffles anew at each call this fails: examples are judged by models trained on them.", "quantifier": "all data sets, all (repeated) k-fold partitions", "why_tests_cant": "all partitions", "anchors": ["quantificationlib/estimators/cross_validation.py:CV_estimator._predict_proba"]}
{"id": "C39", "title": "Repeated predictions are aligned with repeated labels", "statement": "When CV_estimator returns several predictions per example (averaged_predictions=False), row r of predictions_train belongs to the example whose label is y_ext_[r].", "quantifier": "all data sets, repetitions", "why_tests_cant": "unbounded sizes", "anchors": ["quantificationlib/estimators/cross_validation.py", "quantificationlib/base.py:UsingClassifiers.fit"]}
{"id": "C40", "title": "CV_estimator combines votes correctly", "statement": "Averaged predict_proba rows are distributions if the estimators return distributions; hard-voting predict returns a class with the maximum number of votes (the first such), soft voting one with the maximum average probability.", "quantifier": "all estimator outputs", "why_tests_cant": "unbounded numbers of estimators", "anchors": ["quantificationlib/estimators/cross_validation.py:CV_estimator.predict"]}
{"id": "C41", "title": "Estimators are fitted at most once", "statement": "In any history of fits of quantifiers sharing estimators, each estimator is fitted at most once, with the data of the first fit that meets it; later fits with other data keep the old model.", "quantifier": "all histories of fit calls, all sharing patterns", "why_tests_cant": "histories", "anchors": ["quantificationlib/base.py:UsingClassifiers.fit"]}
{"id": "C42", "title": "Explicit predictions take precedence", "statement": "If predictions are given to fit/predict they are used whatever the estimators return; ValueError is raised exactly when neither an estimator nor predictions are available (and, for fit, are needed).", "quantifier": "all estimators, data and predictions", "why_tests_cant": "all oracles", "anchors": ["quantificationlib/base.py:UsingClassifiers"]}
{"id": "C43", "title": "Probabilities are converted to the label with the highest probability", "statement": "For crisp quantifiers, given a matrix of probabilities the used prediction of an example is the label of its first maximal column; a vector of probabilities is thresholded at 0.5 into 0/1 regardless of the labels.", "quantifier": "all matrices of probabilities and label sets", "why_tests_cant": "real matrices of any size", "anchors": ["quantificationlib/base.py:UsingClassifiers.__probs2crisps"]}
{"id": "C44", "title": "Golden-section search", "statement": "golden_section_search returns prevalences [1-p,p] with p in [a,b]; for a strictly unimodal loss with minimum m in [a,b] the returned p is within tol/2 of m, and for a convex loss within tol/2 of some minimum. An empty interval or a tolerance that is not positive raises an error.", "quantifier": "all losses, all intervals and tolerances", "why_tests_cant": "real functions, unbounded iterations", "anchors": ["quantificationlib/search.py:golden_section_search"]}
{"id": "C45", "title": "What the global search returns", "statement": "global_search returns a valid pair [1-p,p], or raises ValueError exactly when no grid point is taken for a minimum and both ends have the same loss. For a strictly unimodal loss with minimum m and tol <= 0.01, p is within 2*tol of m if m <= 0.98 or the loss at 1 is smaller than at 0. Otherwise it can be wrong by 0.97, and with several local minima it can miss the global one: the test for a local minimum accepts rising points. Stored mixtures do not change the result.", "quantifier": "all losses", "why_tests_cant": "real functions", "anchors": ["quantificationlib/search.py:global_search"]}
{"id": "C46", "title": "Quantiles preserve the mean", "statement": "compute_quantiles: the average of the quantile values is the mean of the mixture of the classes, but for at most 0.0001 times the mean score. Unless the weights of some first examples exceed a cut by 0.0001 or less, each value is the mean score of its part of the examples, so the average is exact, the values are in ascending order and between the smallest and largest score; this always holds for test sets with fewer than 10000 quantiles. In the excepted case a value can be smaller than every score.", "quantifier": "all sorted scores, n_quantiles, prevalences", "why_tests_cant": "loop over real weights", "anchors": ["quantificationlib/search.py:compute_quantiles"]}
{"id": "C47", "title": "SORD loss is the area between cumulative distributions", "statement": "The loss minimised by SORDy equals the area between the cumulative distribution of the weighted training scores and that of the test scores, does not depend on the order of tied scores, and is zero exactly when both distributions coincide. The predicted prevalence is within tol/2 of one with the smallest area, and within tol/2 of p0 if the test scores are distributed as the training mixture of prevalence p0 and the classes are not distributed alike.", "quantifier": "all scores, labels, prevalences and all sorting permutations", "why_tests_cant": "ties and permutations", "anchors": ["quantificationlib/search.py:sord", "quantificationlib/search.py:compute_sord_weights", "quantificationlib/binary/emd.py:SORDy.predict"]}
{"id": "C48", "title": "L2 quadratic program is least squares on the simplex", "statement": "For solve_l2 with the parameters of compute_l2_param_train, the quadratic objective equals the squared L2 distance between mixture and test distribution up to a constant and the constraints describe the simplex; so an exact solution minimises the L2 loss among distributions, exactly when the class distributions are linearly independent and up to half a spacing of the Gram matrix otherwise; a bag distributed as a mixture of independent classes gets exactly that mixture.", "quantifier": "all train/test distributions", "why_tests_cant": "infinite feasible set", "anchors": ["quantificationlib/optimization.py:compute_l2_param_train", "quantificationlib/optimization.py:solve_l2"]}
{"id": "C49", "title": "is_pd decides positive definiteness", "statement": "For a symmetric matrix A, is_pd(A) is true exactly when A is positive definite, and then the factor R of dpofa satisfies R^T R = A; otherwise dpofa reports the first leading minor that fails. Only the upper triangle is read: for a matrix that is not symmetric is_pd answers for the symmetric matrix with that upper triangle.", "quantifier": "all symmetric matrices of any size", "why_tests_cant": "infinite domain", "anchors": ["quantificationlib/optimization.py:dpofa", "quantificationlib/optimization.py:is_pd"]}
{"id": "C50", "title": "ED quadratic program is the energy distance", "statement": "For EDy/CvMy/EDX, the objective built by compute_ed_param_train/test equals, up to a constant, the energy distance between the mixture of the training classes and the test bag; constraints plus the appended component describe the simplex; so solve_ed returns a distribution minimising the energy distance when it separates the mixtures of the classes (up to half a spacing when it is only non-negative), and bags made of copies of the training classes get exactly their own prevalences.", "quantifier": "all training sets, bags and distance functions", "why_tests_cant": "infinite feasible set", "anchors": ["quantificationlib/optimization.py:compute_ed_param_train", "quantificationlib/optimization.py:compute_ed_param_test", "quantificationlib/optimization.py:solve_ed"]}
{"id": "C51", "title": "Histograms lose no example", "statement": "DFy/DFX with equal_width or equal_count cuts: each class column of the training distribution and the test distribution is made of one histogram per descriptor whose entries are the fractions of the examples in each bin, non-negative with sum 1, also for test values outside the training range. Not so with the normal cut points, which lose constant scores.", "quantifier": "all training/test values, numbers of bins", "why_tests_cant": "real data", "anchors": ["quantificationlib/multiclass/df.py:compute_bincuts", "quantificationlib/multiclass/df.py:DFy.fit", "quantificationlib/multiclass/df.py:DFX.fit"]}
{"id": "C52", "title": "Distribution matching is consistent", "statement": "For DFy/DFX, FriedmanME, PDFOrdinaly and ACOrdinal: if the class distributions are identifiable, the optimisers exact and the bag made of copies of the training examples of each class, then predict returns exactly the prevalences of the bag, after any earlier predictions. The distances are L1, L2 (FriedmanME: independent columns), EMD and, for PDF histograms only, HD: with FriedmanME or CDF distributions HD gives other prevalences.", "quantifier": "all training sets, prevalences", "why_tests_cant": "real data", "anchors": ["quantificationlib/multiclass/df.py", "quantificationlib/multiclass/friedman.py", "quantificationlib/ordinal/pdf.py", "quantificationlib/ordinal/ac_ordinal.py"]}
{"id": "C53", "title": "CDF distributions are cumulative per descriptor", "statement": "With distribution_function='CDF' the entries of each descriptor block are cumulative probabilities (in [0,1], ending in 1). Holds for DFX and for DFy with two classes; with more classes DFy adds the number of the previous descriptors, which changes neither the L1 nor the L2 distance.", "quantifier": "all training sets, numbers of classes", "why_tests_cant": "real data", "anchors": ["quantificationlib/multiclass/df.py:DFy.fit", "quantificationlib/multiclass/df.py:DFX.fit"]}
{"id": "C54", "title": "Bin cuts are ordered", "statement": "compute_bincuts returns n_bins+1 ascending cut points with infinite ends for equal_width, for equal_count when n_bins < 2*n_examples, and for normal quantiles with positive deviation (normal: mean and deviation with equal class weights; binormal: averages of the class means and deviations); equal_count puts the same number of distinct values in each part, up to rounding. Without that condition equal_count raises an error or returns unordered cut points.", "quantifier": "all data, n_bins", "why_tests_cant": "real data", "anchors": ["quantificationlib/multiclass/df.py:compute_bincuts"]}
{"id": "C55", "title": "Ordinal PDF scores", "statement": "PDFOrdinaly: the winner_node score of a prediction concentrated on two consecutive classes equals its expected class position, so both methods agree on such predictions; in general it is the position of the first possible class plus the probability of the next one; scores of distributions lie in [1,n] so no example is dropped from the histogram.", "quantifier": "all predictions", "why_tests_cant": "real vectors", "anchors": ["quantificationlib/ordinal/pdf.py:PDFOrdinaly"]}
{"id": "C56", "title": "ACOrdinal minimises the earth mover's distance", "statement": "The prevalences returned by ACOrdinal.predict, and by PDFOrdinaly.predict with the EMD distance, minimise over all distributions the emd between the mixture of the training class-conditional predictions (histograms of scores) and those of the bag.", "quantifier": "all confusion matrices, prevalences", "why_tests_cant": "real matrices", "anchors": ["quantificationlib/ordinal/ac_ordinal.py:ACOrdinal"]}
{"id": "C57", "title": "HD program minimises the Hellinger distance", "statement": "The objective of solve_hd and the hd metric order candidate prevalences the same way: hd^2 = 2*objective - 2 + (mass of mixture) + (mass of test); an exact solver therefore minimises hd. The tolerance feastol=1e6 that solve_hd passes does not by itself make the answer a distribution.", "quantifier": "all train/test distributions and prevalences", "why_tests_cant": "infinite feasible set", "anchors": ["quantificationlib/optimization.py:solve_hd", "quantificationlib/metrics/multiclass.py:hd"]}
{"id": "C58", "title": "EoQ combinations are distributions", "statement": "EoQ.predict combines the predictions of its members, when they are distributions, into a distribution: their average (mean); the class-wise medians divided by their sum (median; NaN when every median is 0, which needs three classes); the average of the members closest to the average prediction (prevalence_similarity) or of those whose stored distribution is closest to the test bag (distribution_similarity), as many as round(n_quantifiers * percentage), with no result when that rounds to 0; and all returns the four and their average. The strategy has no effect on fit.", "quantifier": "all ensembles, base quantifiers, bags, distances, selections", "why_tests_cant": "unbounded ensembles", "anchors": ["quantificationlib/ensembles/eoq.py:EoQ.predict"]}
{"id": "C59", "title": "distribution_similarity compares the test bag with the whole training set", "statement": "Every row of EoQ's stored distributions is the histogram of the whole training set, not of the member's bag. Therefore distribution_similarity selects the same members for every test bag.", "quantifier": "all training sets, bags, test bags, base quantifiers, distances", "why_tests_cant": "all bags", "anchors": ["quantificationlib/ensembles/eoq.py:EoQ.fit", "quantificationlib/ensembles/eoq.py:EoQ.predict"]}
{"id": "C60", "title": "EoQ objects with one bag generator share its bags", "statement": "After a successful EoQ.fit, every later fit of an EoQ with the same bag generator (also the default one, created once for all instances) uses the bags drawn for the first, whatever its own data and whatever fits happen between, and fails when it needs more members than there are bags.", "quantifier": "all histories of fits, all generators of the library", "why_tests_cant": "histories", "anchors": ["quantificationlib/ensembles/eoq.py:EoQ.__init__", "quantificationlib/ensembles/eoq.py:EoQ.fit", "quantificationlib/bag_generator.py"]}
{"id": "C61", "title": "Which models EnsembleOfClassifiers holds", "statement": "After the first fit, column i of the predictions of the ensemble comes from a model fitted on bag i if the fits run in other processes; if they run in the same process (the default), every column comes from the model of the last bag. A second fit trains nothing.", "quantifier": "all data, all numbers of bags", "why_tests_cant": "aliasing", "anchors": ["quantificationlib/estimators/ensembles.py:EnsembleOfClassifiers.fit"]}
{"id": "C62", "title": "Predictions are history independent", "statement": "For quantifiers that cache a solver problem or mixtures (AC, PAC, DFy, DFX, FriedmanME, ACOrdinal, PDFOrdinaly, PWKQuantifier, QUANTy), given their training predictions: in any history of fit and predict calls, failed ones included, the result of predict equals the result of predict right after a first fit with the last training data. With HD and L1 this holds if the answer of the convex solver does not depend on its starting point; for any exact solver all the answers are at the same, minimal distance. A quantifier that trains its own estimator is different: later fits keep the model of the first.", "quantifier": "all histories", "why_tests_cant": "histories", "anchors": ["quantificationlib/optimization.py:solve_l1", "quantificationlib/optimization.py:solve_hd", "quantificationlib/search.py:global_search", "quantificationlib/multiclass/df.py"]}
{"id": "C63", "title": "REG predictions", "statement": "Every prevalence vector returned by REGX and REGy is a probability distribution over the training classes. With two classes an estimator that predicts a number always gives [1-p, p] with p its clipped output (the documented ValueError is unreachable); with another number of classes the result is the vector of clipped outputs of the per-class estimators divided by their sum when some output is positive, and NaN when none is. The default estimator (GLM) always gives every class a positive prevalence.", "quantifier": "all training sets, bags, regressor outputs", "why_tests_cant": "real outputs", "anchors": ["quantificationlib/multiclass/regression.py:REG.predict_bag", "quantificationlib/multiclass/regression.py:REGX", "quantificationlib/multiclass/regression.py:REGy"]}
{"id": "C64", "title": "PWK predictions", "statement": "PWK.predict_proba rows are distributions when two or more classes were seen, and PWK.predict returns the first class of maximal predict_proba; neighbours of rarer classes weigh more. When a single class was seen the rows are zero and the predicted label is 0 whatever the class.", "quantifier": "all training sets and neighbour lists", "why_tests_cant": "all neighbourhoods", "anchors": ["quantificationlib/estimators/weighted_knn.py:PWK"]}
{"id": "C65", "title": "Metrics reject inconsistent prevalences and ignore class order", "statement": "The multiclass losses raise ValueError on vectors of different lengths, and (except emd) are invariant under a simultaneous permutation of the classes.", "quantifier": "all vectors and permutations", "why_tests_cant": "factorially many permutations", "anchors": ["quantificationlib/metrics/multiclass.py:check_prevalences"]}
{"id": "C66", "title": "nearest_pd returns a positive-definite matrix", "statement": "If nearest_pd returns, the result is accepted by is_pd, hence quadprog receives a positive-definite matrix; a positive-definite Gram matrix is used unchanged. The loop ends after one step when the smallest eigenvalue is known with an error below the spacing.", "quantifier": "all matrices, all outcomes of the SVD/eigenvalue routines", "why_tests_cant": "infinite domain", "anchors": ["quantificationlib/optimization.py:nearest_pd", "quantificationlib/optimization.py:compute_l2_param_train"]}
{"id": "C67", "title": "Prevalence plot segments", "statement": "plot_line_prevalences draws for each experiment consecutive segments with no gaps whose lengths are 100 times the prevalences, ending at 100 for a distribution; rows are drawn sorted when an order is given. Sorting by explicit columns sorts by the first column of the list first and keeps the order of equal rows, but it reverses the list of the caller, so that a second call with the same list sorts in another way; the default list is never changed.", "quantifier": "all prevalence matrices", "why_tests_cant": "real matrices", "anchors": ["quantificationlib/plot/qlplot.py"]}
{"id": "C68", "title": "emd of a matrix of prevalences is the sum over its rows", "statement": "For two matrices with one prevalence vector per row and equal row totals, emd(A,B) is the sum of emd(A[i],B[i]).", "quantifier": "all matrices of any size with equal row totals", "why_tests_cant": "unbounded sizes; the code flattens the matrix before the cumulative sum", "anchors": ["quantificationlib/metrics/ordinal.py:emd"]}
{"id": "C69", "title": "Squared losses and binary errors agree with each other", "statement": "mean_squared_error is l2 squared over n and zero exactly on equal vectors; brier_multi is the mean squared euclidean distance of the rows, zero exactly on equal matrices; absolute_error and squared_error are |bias| and bias^2, bias is positive exactly when the prediction is too high; relative_absolute_error times the true prevalence (times eps when it is 0) is absolute_error.", "quantifier": "all vectors and matrices of equal shape, all prevalences", "why_tests_cant": "identities over all reals and sizes", "anchors": ["quantificationlib/metrics/multiclass.py:mean_squared_error", "quantificationlib/metrics/multiclass.py:brier_multi", "quantificationlib/metrics/binary.py"]}
{"id": "C70", "title": "Misaligned training predictions are refused", "statement": "AC.fit and PAC.fit raise an error whenever the number of training predictions is not a multiple of the number of labels: predictions and labels are never paired with an offset.", "quantifier": "all label vectors, all numbers of predictions", "why_tests_cant": "unbounded lengths", "anchors": ["quantificationlib/base.py:UsingClassifiers.fit", "quantificationlib/baselines/ac.py:AC.fit", "quantificationlib/baselines/ac.py:PAC.fit"]}
{"id": "C71", "title": "Decompositions give each binary quantifier the right problem", "statement": "FrankAndHallQuantifier.fit trains its i-th binary quantifier on the same examples with label 1 exactly for the first i+1 classes, OneVsRestQuantifier.fit with label 1 exactly for class i, each with the i-th estimators and, when predictions are given, the two columns [1-p_i, p_i]; predict combines the positive prevalences of the binary quantifiers. With PCC as the binary quantifier and coherent predictions both return what PCC returns. With two classes both fit methods fail.", "quantifier": "all base quantifiers, label vectors, predictions", "why_tests_cant": "quantifies over an arbitrary base quantifier and unbounded data", "anchors": ["quantificationlib/decomposition/ordinal.py:FrankAndHallQuantifier.fit", "quantificationlib/decomposition/multiclass.py:OneVsRestQuantifier.fit"]}
{"id": "C72", "title": "Ordinal classifiers predict a most probable class", "statement": "predict of the Frank-and-Hall classifiers and of DDAGClassifier returns the label of a class with the largest probability, the first one on ties.", "quantifier": "all class lists, all probability rows", "why_tests_cant": "unbounded number of classes", "anchors": ["quantificationlib/estimators/frank_and_hall.py", "quantificationlib/estimators/ordinal_ddag.py:DDAGClassifier.predict"]}
{"id": "C73", "title": "A failed generate_bags call must not be retried", "statement": "When the uniform method raises ValueError after its checks (min_prevalence leaves no room), the generator object keeps bags of zeros: every later generate_bags call returns these zero bags, whose prevalences sum to 0, instead of raising again.", "quantifier": "all parameters, label vectors, histories", "why_tests_cant": "a history property over all parameters", "anchors": ["quantificationlib/bag_generator.py:PriorShift_BagGenerator.generate_bags", "quantificationlib/bag_generator.py:PriorShift_BagGenerator._generate_uniform"]}
{"id": "C74", "title": "Which bags are reproducible from random_state", "statement": "The bags of the uniform method depend only on the parameters, the labels and random_state, never on numpy's global random generator, which they leave untouched. The bags of the Dirichlet method do depend on the global generator: the same seed can give different bags. A seed as random_state does the same as a generator made from it, and a call that returns stores the bags, the generator and the bag size it used and leaves the other parameters alone.", "quantifier": "all parameters, labels and states of the global generator", "why_tests_cant": "quantifies over hidden global state", "anchors": ["quantificationlib/bag_generator.py:PriorShift_BagGenerator"]}
{"id": "C75", "title": "Uniform bags always contain the last class", "statement": "With two or more classes every bag of the uniform method contains at least one example of the last class, even without min_prevalence (the upper end of the draw is excluded), while every other class can be absent.", "quantifier": "all label vectors, parameters and random outcomes", "why_tests_cant": "holds for every random outcome", "anchors": ["quantificationlib/bag_generator.py:PriorShift_BagGenerator._generate_uniform"]}
{"id": "C76", "title": "Adjusted counts without an inverse minimise the chosen distance", "statement": "With three or more classes and a correction matrix that cannot be inverted, AC and PAC return a distribution that minimises the chosen distance (HD, L1, L2) between the observed and the expected prediction frequencies; PWKQuantifier always minimises the L1 distance.", "quantifier": "all confusion matrices, bags, distances", "why_tests_cant": "infinite feasible set", "anchors": ["quantificationlib/baselines/ac.py:AC.predict", "quantificationlib/baselines/ac.py:PAC.predict", "quantificationlib/nearest_neighbors/knn.py:PWKQuantifier.predict"]}
{"id": "C77", "title": "CvMy does not depend on the scale of the scores", "statement": "Applying a strictly increasing function to the scores of each class, the same for training predictions and bag, leaves the prediction of CvMy unchanged.", "quantifier": "all predictions, bags and strictly increasing functions", "why_tests_cant": "quantifies over functions", "anchors": ["quantificationlib/multiclass/energy.py:CvMy.predict"]}
{"id": "C78", "title": "Matching quantifiers see a bag as a distribution", "statement": "For DFy, DFX, FriedmanME, PDFOrdinaly and ACOrdinal, predict returns the same prevalences, and leaves the same object, when the examples of the bag are reordered or the whole bag is repeated, after any earlier predictions.", "quantifier": "all training sets, options, bags, permutations, numbers of repetitions, earlier predictions", "why_tests_cant": "bags have any size", "anchors": ["quantificationlib/multiclass/df.py", "quantificationlib/multiclass/friedman.py", "quantificationlib/ordinal/pdf.py", "quantificationlib/ordinal/ac_ordinal.py"]}
{"id": "C79", "title": "Matching quantifiers do not depend on the order of the training examples", "statement": "For DFy, DFX, FriedmanME, PDFOrdinaly and ACOrdinal, fit on the reordered training examples (with their predictions) gives the same fitted object or the same error, for every strategy, distance and number of repetitions of the estimation.", "quantifier": "all training sets, permutations, options", "why_tests_cant": "training sets have any size", "anchors": ["quantificationlib/multiclass/df.py", "quantificationlib/multiclass/friedman.py", "quantificationlib/ordinal/pdf.py", "quantificationlib/ordinal/ac_ordinal.py"]}
{"id": "C80", "title": "Matching quantifiers return one prevalence per class", "statement": "With a named distance, every result of DFy, DFX, FriedmanME, PDFOrdinaly and ACOrdinal with exact optimisers is a probability distribution over the training classes. With a function as distance the result always has two prevalences.", "quantifier": "all training sets, bags, options, earlier predictions", "why_tests_cant": "unbounded inputs", "anchors": ["quantificationlib/multiclass/df.py", "quantificationlib/multiclass/friedman.py", "quantificationlib/ordinal/pdf.py", "quantificationlib/ordinal/ac_ordinal.py"]}
{"id": "C81", "title": "Matching quantifiers return a closest mixture", "statement": "Every result of DFy, DFX, FriedmanME (L1, L2) and PDFOrdinaly minimises, over all distributions of prevalences, the chosen distance between the mixture of the training class distributions and the distribution of the bag. FriedmanME compares, for each class, the fraction of examples with at least the training prevalence as probability.", "quantifier": "all training sets, bags, options, earlier predictions", "why_tests_cant": "infinite feasible set", "anchors": ["quantificationlib/multiclass/df.py", "quantificationlib/multiclass/friedman.py", "quantificationlib/ordinal/pdf.py"]}
{"id": "C82", "title": "A function as distance finds the closest mixture of two classes", "statement": "For DFy, DFX and FriedmanME with two classes and a Python function as distance: if the distance between mixture and bag, as a function of the prevalence of the second class, has one minimum (at most 0.98, or smaller at 1 than at 0), predict returns [1-p, p] with p within twice the tolerance of that minimum, after any earlier predictions. For the sum of absolute differences and a bag made of copies of the training examples, p is within twice the tolerance of the true prevalence.", "quantifier": "all distance functions, training sets, bags, tolerances up to 0.01, earlier predictions", "why_tests_cant": "infinitely many functions and bags", "anchors": ["quantificationlib/multiclass/df.py", "quantificationlib/multiclass/friedman.py", "quantificationlib/search.py:global_search"]}
{"id": "C83", "title": "Regression quantifiers are trained with the bags they are given", "statement": "REGX.fit and REGy.fit train the regression model with one pair per bag: the bin counts of the bag's examples divided by the number of training examples, and the fractions of its labels; predict asks it with the bin counts of the bag divided by the size of the bag. The two scales agree when bag_size equals the number of training examples (the default): a training bag given to predict is then asked with its own training row. For any other bag_size no training row is the row of any test bag, and the default model multiplies the linear predictor of a training bag by n/bag_size.", "quantifier": "all training sets, honest bag generators (the three of the library on first use), bag sizes, options", "why_tests_cant": "unbounded data, any generator outcome", "anchors": ["quantificationlib/multiclass/regression.py:REG.create_training_set_of_distributions", "quantificationlib/multiclass/regression.py:REGX.predict", "quantificationlib/multiclass/regression.py:REGy.predict"]}
{"id": "C84", "title": "Regression quantifiers and the user's estimator", "statement": "With a number of classes other than two, or with the default GLM, fit leaves the user's regression estimator unchanged and later predictions do not change whatever happens afterwards to the estimator and the bag generator. With two classes the user's estimator itself is fitted and used, so that fitting a second quantifier with it changes the predictions of the first.", "quantifier": "all estimators, training sets, later histories of fits and calls", "why_tests_cant": "histories", "anchors": ["quantificationlib/multiclass/regression.py:REG.fit_regressor"]}
{"id": "C85", "title": "Quantifiers that share a bag generator share its bags", "statement": "After a successful REGX or REGy fit, every later fit with the same bag generator (any of the three of the library), after any history, is trained with the targets and example indexes drawn for the first one, applied to its own data.", "quantifier": "all generators that keep their bags, all histories", "why_tests_cant": "histories", "anchors": ["quantificationlib/multiclass/regression.py:REG.create_training_set_of_distributions", "quantificationlib/bag_generator.py"]}
{"id": "C86", "title": "Regression quantifiers see a bag as a distribution", "statement": "REGX.predict and REGy.predict return the same result when the examples of the bag are reordered or the whole bag is repeated.", "quantifier": "all fitted quantifiers, bags, permutations, numbers of repetitions", "why_tests_cant": "bags have any size", "anchors": ["quantificationlib/multiclass/regression.py:REGX.predict", "quantificationlib/multiclass/regression.py:REGy.predict"]}
{"id": "C87", "title": "An exact regression model recovers the training bags", "statement": "If the regression models have no training error and bag_size is the number of training examples, REGX.predict on the examples of any training bag returns exactly the fractions of its labels.", "quantifier": "all training sets, generators, estimators without training error", "why_tests_cant": "unbounded data", "anchors": ["quantificationlib/multiclass/regression.py:REGX"]}
{"id": "C88", "title": "REGX refuses data of the wrong shape", "statement": "REGX.fit and REGX.predict raise IndexError for one-dimensional data (the branch for it never works), fit without touching generator and estimator; predict raises IndexError for a bag with more attributes than the training data.", "quantifier": "all data, all fitted quantifiers", "why_tests_cant": "all shapes", "anchors": ["quantificationlib/multiclass/regression.py:REGX.fit", "quantificationlib/multiclass/regression.py:REGX.predict"]}
{"id": "C89", "title": "Each member of an EoQ is trained with its own bag", "statement": "EoQ.fit uses the bags given, or those drawn from the training set by one call of the generator (with an unused generator of the library: as many as members, with their true prevalences). After it member i of the ensemble is the base quantifier fitted with exactly the examples of bag i: its rows and labels for quantifiers without classifiers; its labels and predictions for quantifiers with classifiers, including all the repetitions of cross-validation predictions and, with one classifier per member, the predictions of classifier i.", "quantifier": "all training sets, bags, base quantifiers, numbers of repeated predictions", "why_tests_cant": "index arithmetic over unbounded data", "anchors": ["quantificationlib/ensembles/eoq.py:EoQ.fit"]}
{"id": "C90", "title": "An EoQ is never outside, and on average not worse than, its members", "statement": "For every class the prediction of EoQ (mean, both similarity strategies; median with two classes) is between the predictions of two members; the mean absolute error of the averaging strategies, for any true prevalences, is at most the average error of the members they average; if all members agree, all strategies return what they say; and the order of the members has no effect on mean and median.", "quantifier": "all ensembles, base quantifiers, test bags, true prevalences", "why_tests_cant": "infinite real inputs", "anchors": ["quantificationlib/ensembles/eoq.py:EoQ.predict"]}
{"id": "C91", "title": "Members of an EoQ that miss classes", "statement": "A member trained with a bag that misses classes predicts a shorter vector: EoQ.predict then raises ValueError, except when it predicts one number (a bag of one class), which counts as its prediction for every class. So the result of an ensemble of CC members with bags of one class can be wrong for all test bags.", "quantifier": "all ensembles, members, test bags", "why_tests_cant": "all bags", "anchors": ["quantificationlib/ensembles/eoq.py:EoQ.predict"]}
{"id": "C92", "title": "EoQ options that never work", "statement": "With base quantifiers without classifiers fit succeeds for 100 bins and never for another number; distribution_function='CDF' never works; labels as predictions never work with distribution_similarity or all. With classifiers that give probabilities any positive number of bins works.", "quantifier": "all training sets, bags, base quantifiers", "why_tests_cant": "all inputs", "anchors": ["quantificationlib/ensembles/eoq.py:EoQ.fit", "quantificationlib/ensembles/eoq.py:EoQ.predict"]}
{"id": "C93", "title": "Each column gets its own cut points", "statement": "DFX, DFy, REGX, REGy and EoQ fit one list of cut points for each described column, from the values of that column in the training set. With equal_width they divide the range of the values (half a unit on each side for a constant column), or [0, 1] for the probabilities in DFy and REGy, into n_bins parts of the same width; EoQ divides the range also for probabilities, and always into 100 parts of equal width when its quantifiers use no classifier.", "quantifier": "all training sets, numbers of bins, strategies", "why_tests_cant": "infinite real inputs", "anchors": ["quantificationlib/multiclass/df.py:compute_bincuts", "quantificationlib/multiclass/df.py:DFX.fit", "quantificationlib/multiclass/df.py:DFy.fit", "quantificationlib/multiclass/regression.py:REG.create_training_set_of_distributions", "quantificationlib/ensembles/eoq.py:EoQ.fit"]}
{"id": "C94", "title": "Colours of the plots", "statement": "In plot_line_prevalences a class has the same colour in all the lines, the one at its position in the list; two classes have the same colour only when there are more classes than colours (ten by default), and then the colours start again. plot_boxes gives colour i to the box of system i.", "quantifier": "all matrices, colours", "why_tests_cant": "all sizes", "anchors": ["quantificationlib/plot/qlplot.py:plot_line_prevalences", "quantificationlib/plot/qlplot.py:plot_boxes"]}
{"id": "C95", "title": "How close EM gets to the largest likelihood", "statement": "After m iterations of EM.predict the log-likelihood of a bag of N examples is at most N*ln(1/c)/(m+1) below the largest one over all prevalences, where c is the smallest training prevalence; prevalences that an iteration does not change have the largest likelihood, and if no prevalence grows by more than a factor 1+d in an iteration the log-likelihood is within N*ln(1+d) of the largest. The tolerance epsilon gives no such guarantee: for every epsilon there are a training set and a bag where EM stops after ten iterations with a prevalence of at most epsilon for a class whose only best prevalence is 1.", "quantifier": "all training sets, bags of posteriors, tolerances, iteration budgets", "why_tests_cant": "convergence over unbounded iterations and real inputs", "anchors": ["quantificationlib/multiclass/em.py:EM.predict"]}
{"id": "C96", "title": "EM is consistent under prior shift", "statement": "With a calibrated classifier and a bag whose feature frequencies are the mixture of the class-conditional ones with prevalences pi, pi has the largest likelihood and no iteration changes it; after m iterations the squared Hellinger distance between the bag and the mixture predicted by EM is at most ln(1/c)/(m+1), and when the class-conditional probabilities can be inverted (by a matrix with entries at most g) every prevalence is within 2*g*sqrt(ln(1/c)/(m+1)) of the true one.", "quantifier": "all class-conditional probabilities over finitely many values, prevalences, bags, iteration budgets", "why_tests_cant": "convergence over unbounded iterations and real inputs", "anchors": ["quantificationlib/multiclass/em.py:EM.predict"]}
{"id": "C97", "title": "The error of AC and PAC is the drift of the classifier times the amplification of the training matrix", "statement": "On any bag of known labels, with known predictions: with two classes and |tpr-fpr| > 0.001, if the probability (AC: rate; PAC: mean posterior) of the second class for the examples of each class of the bag differs by at most e from the one estimated in training, every prevalence predicted by AC or PAC is within e/|tpr-fpr| of the true one. With another number of classes and an invertible matrix, if for every class of the bag the rates differ by at most e in total, the total absolute error is at most k*e, where k is the largest absolute column sum of the inverse; clipping and normalising never make it worse.", "quantifier": "all training sets, repetitions, classifiers, bags, drifts", "why_tests_cant": "infinitely many bags and classifiers", "anchors": ["quantificationlib/baselines/ac.py:AC.predict", "quantificationlib/baselines/ac.py:PAC.predict"]}
{"id": "C98", "title": "The error of CC and PCC in terms of the classifier", "statement": "On any bag the prevalence of a class predicted by CC minus the true one is exactly (false positives - false negatives)/N of that class, and the total absolute error is at most twice the error rate. The total absolute error of PCC is at most the mean, over the examples, of the total absolute difference between the posteriors and the indicator of the true class.", "quantifier": "all bags, labels, predictions, posteriors", "why_tests_cant": "infinitely many bags", "anchors": ["quantificationlib/baselines/cc.py:CC.predict", "quantificationlib/baselines/cc.py:PCC.predict"]}
{"id": "C99", "title": "Decompositions amplify the errors of the binary quantifiers by at most a constant", "statement": "If every binary quantifier of a FrankAndHallQuantifier is within e of the true prevalence of its left group, so is every cumulated prevalence of the result (also when the estimates had to be made ascending), and the EMD to the true prevalences is at most (n-1)*e. The total absolute error of OneVsRestQuantifier is at most twice the sum of the errors of its binary quantifiers.", "quantifier": "all binary quantifiers, numbers of classes, bags, true prevalences", "why_tests_cant": "infinite real inputs", "anchors": ["quantificationlib/decomposition/ordinal.py:FrankAndHallQuantifier.predict", "quantificationlib/decomposition/multiclass.py:OneVsRestQuantifier.predict"]}
{"id": "C100", "title": "Binary AC, PWKQuantifier and PAC respond monotonically to the bag", "statement": "With two classes, for every fitted matrix: of two bags the one with the larger fraction of positive predictions (PAC: the larger mean posterior) gets the larger or the same prevalence of the second class, unless the training rates say that positives are predicted positive less often than negatives, and then the smaller or the same. A difference of d in that fraction changes the prediction by at most 1000*d.", "quantifier": "all fitted matrices (also uninformative and NaN ones), pairs of bags", "why_tests_cant": "infinitely many bags", "anchors": ["quantificationlib/baselines/ac.py:AC.predict", "quantificationlib/baselines/ac.py:PAC.predict", "quantificationlib/multiclass/knn.py:PWKQuantifier.predict"]}
{"id": "C101", "title": "What EDy and CvMy minimise with their default distance", "statement": "With the default Manhattan distance the energy distance of two samples of the same total weight is twice the sum over the columns of the integral of the squared difference of the cumulative distributions of the column. So it is never negative and is zero exactly when every column has the same distribution in both samples; samples without a row in common can have distance zero. EDy and CvMy (on ranks) minimise it, and EDy returns the exact prevalences of a bag of copies of the training examples, whenever different prevalences never give the same distributions of all the columns; with two classes it is enough that one column has different distributions in them.", "quantifier": "all numbers of columns, weighted samples, training sets, bags", "why_tests_cant": "infinite real inputs; an integral identity", "anchors": ["quantificationlib/multiclass/energy.py:EDy.predict", "quantificationlib/multiclass/energy.py:CvMy.predict", "quantificationlib/multiclass/energy.py:EDy.__init__"]}
{"id": "C102", "title": "EDX sees every difference between samples with its default distance", "statement": "With the default Euclidean distance the energy distance of two samples of the same total weight is never negative, and is zero exactly when every row has the same weight in both, in any number of dimensions. So EDX minimises the energy distance to the bag, and returns the exact prevalences of a bag of copies of the training examples, whenever different prevalences never give the same frequencies of the rows, in particular when every class has one training example that no other class has. For any classes the energy distance of the answer exceeds the minimum by at most half a spacing.", "quantifier": "all dimensions, weighted samples, training sets, bags", "why_tests_cant": "infinite real inputs in any dimension", "anchors": ["quantificationlib/multiclass/energy.py:EDX.predict", "quantificationlib/multiclass/energy.py:EDX.fit", "quantificationlib/multiclass/energy.py:EDX.__init__"]}
{"id": "C103", "title": "EDy, EDX and CvMy see samples as distributions", "statement": "EDy and EDX give the same answer, exceptions included, if the bag or the labelled training set is reordered or every example is repeated the same number of times, for every distance and solver; with the default distances two exact solvers give the same answer. CvMy does not depend on the order of the training examples or of the bag, nor on replicating both the same number of times; but replicating only the bag does change its answer, because the bag takes part in the ranks.", "quantifier": "all training sets, bags, distances, solvers, numbers of repetitions", "why_tests_cant": "infinite inputs; all permutations", "anchors": ["quantificationlib/multiclass/energy.py:EDy.predict", "quantificationlib/multiclass/energy.py:CvMy.predict", "quantificationlib/multiclass/energy.py:EDX.predict", "quantificationlib/optimization.py:compute_ed_param_train", "quantificationlib/optimization.py:compute_ed_param_test"]}
{"id": "C104", "title": "SORDy and QUANTy see samples as distributions", "statement": "The answer of SORDy depends only on the cumulative distributions of the scores of each class and of the bag: reordering or replicating the training examples or the bag, or another order of ties in the sorting algorithm, does not change it, and neither does shifting and rescaling all the scores. QUANTy does not depend on the order of the bag nor, with fewer than 10000 quantiles, on replicating it, nor on the order of the training examples if those with equal scores have equal labels.", "quantifier": "all training sets, bags, sorting algorithms, numbers of repetitions, increasing affine maps", "why_tests_cant": "infinite inputs; all permutations and all orders of ties", "anchors": ["quantificationlib/binary/emd.py:SORDy.predict", "quantificationlib/binary/quantiles.py:QUANTy.predict", "quantificationlib/search.py:golden_section_search", "quantificationlib/search.py:compute_quantiles"]}
{"id": "C105", "title": "How uniform the prevalences of the uniform method are", "statement": "Without min_prevalence, every bag composition with at least one example of the last class is drawn by (n-1)! divided by the factorials of the multiplicities of its cut points of the size^(n-1) equally likely draws: all the compositions in which no class but the first and the last one is empty are equally likely, those with an empty class in the middle are at most half as likely, and a bag without examples of the last class is never drawn, so the prevalences are not uniform over the simplex. With two classes they are uniform between the limits. With a min_prevalence that asks for at least one example of each class in the middle, the compositions that have the minimum of every class, and more than the minimum of the last one, are equally likely and no other one is ever returned.", "quantifier": "all label vectors, bag sizes, numbers of classes, min_prevalence values, bag compositions, answers of the random generator", "why_tests_cant": "the set of draws is exponential in the number of classes and a biased sampler passes any test on a sample", "anchors": ["quantificationlib/bag_generator.py:PriorShift_BagGenerator._generate_uniform", "quantificationlib/bag_generator.py:PriorShift_BagGenerator.generate_bags"]}
{"id": "C106", "title": "Renaming the labels does not change the estimates", "statement": "Replacing the labels of the training examples, and those predicted by the classifiers, by others in the same order (0/1 by -1/+1, say) changes no estimate, exception or NaN of CC, AC, PAC, PWKQuantifier, DeBias, EM, DFy, DFX, FriedmanME, PDFOrdinaly, ACOrdinal, EDy, EDX, CvMy, SORDy, QUANTy, FrankAndHallQuantifier, OneVsRestQuantifier or OrdinalQuantificationTree. A renaming that changes the order does: it permutes the vector of CC.", "quantifier": "all order-preserving renamings, label vectors, predictions, bags, parameters, solvers and sorting algorithms", "why_tests_cant": "a test tries a few sets of labels; a value of a label used as a number or as an index shows only for some", "anchors": ["quantificationlib/baselines/cc.py:CC.predict", "quantificationlib/baselines/ac.py:AC.fit", "quantificationlib/multiclass/df.py:DFy.fit", "quantificationlib/multiclass/energy.py:EDy.fit", "quantificationlib/binary/emd.py:SORDy.predict", "quantificationlib/binary/quantiles.py:QUANTy.predict", "quantificationlib/decomposition/ordinal.py", "quantificationlib/ordinal/ac_ordinal.py:ACOrdinal.fit"]}
{"id": "C107", "title": "Renaming the labels: bags, regression, ensembles and classifiers", "statement": "After a renaming of the labels that keeps their order, the three bag generators give the same bags with the same prevalences, REGX and REGy learn the same models, EoQ gives the same estimates with any base quantifier that is itself insensitive to the renaming, and the classifiers give the same probabilities and the renamed labels; except that PWK, trained with a single class, predicts label 0 whatever the class is called.", "quantifier": "all order-preserving renamings, examples, label vectors, generators (seeds and histories), regressors, base quantifiers, combination strategies, rows of neighbours", "why_tests_cant": "the property relates two executions, for every renaming and every state of the random generator", "anchors": ["quantificationlib/bag_generator.py:PriorShift_BagGenerator.generate_bags", "quantificationlib/bag_generator.py:CovariateShift_BagGenerator.generate_bags", "quantificationlib/multiclass/regression.py:REGX.fit", "quantificationlib/ensembles/eoq.py:EoQ.fit", "quantificationlib/ensembles/eoq.py:EoQ.predict", "quantificationlib/estimators/weighted_knn.py:PWK.predict"]}
{"id": "C108", "title": "How the losses bound one another", "statement": "l1 is n times mean_absolute_error and twice bray_curtis, and l2 squared is n times mean_squared_error. On prevalence vectors over n classes: l2 <= l1 <= sqrt(n) l2; hd^2 <= l1 <= 2 hd; l1/2 <= emd <= (n-1) l1/2 (equal for two classes), and the mean classes of two vectors differ by at most emd; topsoe <= probsymmetric/2 <= l1, while l1^2 <= (2+n eps) probsymmetric/2 and l1^2 <= (8+4 n eps) topsoe; and l1 is bounded by kld up to its smoothing. So a small value of one loss certifies a small value of the others.", "quantifier": "all numbers of classes, prevalence vectors and smoothing constants eps > 0", "why_tests_cant": "inequalities over a continuum of vectors, whose worst cases lie on the boundary of the simplex", "anchors": ["quantificationlib/metrics/multiclass.py:l1", "quantificationlib/metrics/multiclass.py:l2", "quantificationlib/metrics/multiclass.py:hd", "quantificationlib/metrics/multiclass.py:bray_curtis", "quantificationlib/metrics/multiclass.py:topsoe", "quantificationlib/metrics/multiclass.py:probsymmetric", "quantificationlib/metrics/multiclass.py:kld", "quantificationlib/metrics/ordinal.py:emd"]}
{"id": "C109", "title": "Averaging predictions never hurts on average", "statement": "The loss (l1, l2, mean absolute or squared error, emd, bray_curtis, probsymmetric, kld, squared hd) between the true prevalences and the average of several predictions is at most the mean of the losses of the predictions. Hence EoQ with the strategy 'mean' is never worse than its members are on average, and the strategies that select members are never worse than the selected ones on average. With the strategy 'median' EoQ can be worse than every one of its members.", "quantifier": "all truths, numbers of classes and members, predictions, base quantifiers, training sets and test bags", "why_tests_cant": "convexity must hold for every family of predictions; a test samples a few", "anchors": ["quantificationlib/ensembles/eoq.py:EoQ.predict", "quantificationlib/metrics/multiclass.py:l1", "quantificationlib/metrics/multiclass.py:l2", "quantificationlib/metrics/multiclass.py:kld", "quantificationlib/metrics/multiclass.py:hd", "quantificationlib/metrics/ordinal.py:emd"]}
{"id": "C110", "title": "In-place code computes the documented values and leaves the caller's arrays alone", "statement": "The helpers that work by writing into arrays (monotone correction, prevalences from left groups, thresholding of probabilities, the masked weights of QUANTy, SORDy and PWK, the recalls of the geometric mean, quantiles, cumulative sums, the Cholesky test) return exactly the values that the value-level description of the helper gives, terminate without an exception, and change no array that existed before the call. The array returned is a new one, except that the monotone correction returns its argument itself when it is already ascending. The 'winner_node' method of the DDAG writes into the array that the estimator returned.", "quantifier": "all heaps of arrays, all contents and lengths, all aliases among the arguments", "why_tests_cant": "a test compares a few outputs; that no other array is ever written must hold for every heap and aliasing", "anchors": ["quantificationlib/decomposition/ordinal.py:FrankAndHallQuantifier.check_and_correct_prevalences_asc", "quantificationlib/decomposition/ordinal.py:FrankAndHallQuantifier.predict", "quantificationlib/base.py:UsingClassifiers", "quantificationlib/search.py:compute_quantiles", "quantificationlib/search.py:compute_sord_weights", "quantificationlib/estimators/weighted_knn.py:PWK.fit", "quantificationlib/metrics/multiclass.py:geometric_mean", "quantificationlib/ordinal/ac_ordinal.py:ACOrdinal.predict", "quantificationlib/optimization.py:dpofa", "quantificationlib/estimators/ordinal_ddag.py:DDAGClassifier"]}
{"id": "C111", "title": "What later changes of the training arrays do", "statement": "After fit, EDy, SORDy and QUANTy answer from the data given to fit, whatever the caller later writes into its arrays. CvMy, PWK and CV_estimator do not: CvMy answers from what the arrays of predictions and labels contain when predict is called (with the classes found by fit), PWK mixes the weights computed by fit with the current labels, and CV_estimator decides whether it is asked about its training set by the current contents of the training array. A bag generator returns the very arrays it keeps, so that the next call returns what the caller has written into them.", "quantifier": "all training data, all later contents of the caller's arrays, all test bags, external routines and learners", "why_tests_cant": "the effect depends on writes made after the call, over every heap and every history of writes", "anchors": ["quantificationlib/multiclass/energy.py:EDy", "quantificationlib/multiclass/energy.py:CvMy", "quantificationlib/binary/emd.py:SORDy", "quantificationlib/binary/quantiles.py:QUANTy", "quantificationlib/estimators/weighted_knn.py:PWK", "quantificationlib/estimators/cross_validation.py:CV_estimator", "quantificationlib/bag_generator.py:PriorShift_BagGenerator.generate_bags", "quantificationlib/base.py:UsingClassifiers.fit"]}
{"id": "C112", "title": "Two-class adjusted counts computed with doubles", "statement": "Computed in IEEE double precision with numpy's summation, AC, PWKQuantifier and DeBias with two classes return two finite numbers in [0, 1] whose machine sum is exactly 1, and so does PAC whenever its rates are far enough apart for the correction to be applied; otherwise PAC's two numbers are in [0, 1] and add up to 1 up to 2^-51. AC is within 2^-40, and PAC on n examples within (n+1)*2^-38, of the exact answer, except when the two rates differ by 0.001 almost exactly: there the rounding decides whether the correction is applied and the two answers can be far apart. So, with rates further apart than that, both recover the true prevalence of a test bag up to those errors whenever the classifier errs on it at the rates it erred at in training. DeBias, fitted and applied to n examples, is within (6/V + 14)(n+7)*2^-51/(p0 p1) of the exact answer, V being the fitted variance ratio and p0, p1 the training prevalences, unless V is smaller than the rounding errors.", "quantifier": "all training and test predictions and labels up to 2^53 of them (2^40 for the accuracy of PAC), all doubles in [0, 1], all orders in which np.sum may add", "why_tests_cant": "rounding errors depend on every bit of the input; no finite set of bags covers them", "anchors": ["quantificationlib/baselines/ac.py:AC.predict", "quantificationlib/baselines/ac.py:PAC.predict", "quantificationlib/multiclass/knn.py:PWKQuantifier.predict", "quantificationlib/binary/debias.py:DeBias.predict"]}
{"id": "C113", "title": "CC and PCC computed with doubles", "statement": "CC returns for every class the double nearest to the exact fraction: classes with different counts get different prevalences in the same order, classes with equal counts get equal ones, and two classes add up to exactly 1 (three classes need not). PCC stays in [0, 1] whatever order np.sum uses, and is within (n+1)*2^-52 of the exact mean of n examples; but equal probabilities may have a different mean, and the two columns of a two-class bag need not add up to 1.", "quantifier": "all bags of fewer than 2^53 predictions (2^50 for PCC), all doubles in [0, 1], all orders of summation", "why_tests_cant": "rounding errors depend on every bit of the input and on the order of summation", "anchors": ["quantificationlib/baselines/cc.py:CC.predict", "quantificationlib/baselines/cc.py:PCC.predict"]}
{"id": "C114", "title": "Frank and Hall's prevalences computed with doubles", "statement": "The correction of left-group prevalences returns doubles in [0, 1] that do not decrease and are within 2^-52 of the exact correction. With up to eight classes, FrankAndHallQuantifier (and each row of the monotone classifier) returns prevalences in [0, 1] that add up to exactly 1 from left to right. With nine classes the last prevalence can be negative, because numpy adds eight numbers in another order. For any number k of classes and any order of summation the prevalences are within k^2*2^-50 + 2^-51 of the exact ones.", "quantifier": "all left-group prevalences in [0, 1] (any doubles), any number of classes below 2^20 and any order of summation; numpy's order of fewer than eight numbers for the exact sum", "why_tests_cant": "rounding errors depend on every bit of the input and on the order of summation", "anchors": ["quantificationlib/decomposition/ordinal.py:FrankAndHallQuantifier.predict", "quantificationlib/decomposition/ordinal.py:FrankAndHallQuantifier.check_and_correct_prevalences_asc", "quantificationlib/estimators/frank_and_hall.py:FrankAndHallMonotoneClassifier.predict_proba"]}
{"id": "C115", "title": "Dividing by the sum with doubles", "statement": "Computed in IEEE double precision, the methods that end by dividing by the sum (OneVsRestQuantifier, PDF with EMD, REG with several classes, AC and PAC with several classes, EoQ with 'mean') return numbers in [0, 1] that add up to 1 and are the exact shares up to 2^-50 per class (and member), whenever one of the numbers to be divided is positive. If none is, OneVsRestQuantifier returns zeros and REG returns NaN. An ensemble whose members all agree need not return exactly what they agree on.", "quantifier": "all finite doubles given by the solvers, regressors, inverse matrices or members, any number of classes and members up to 2^50, all orders in which np.sum may add", "why_tests_cant": "rounding errors depend on every bit of the input", "anchors": ["quantificationlib/decomposition/multiclass.py:OneVsRestQuantifier.predict", "quantificationlib/ordinal/pdf.py:PDFOrdinaly.predict", "quantificationlib/multiclass/regression.py:REG.predict", "quantificationlib/baselines/ac.py:AC.predict", "quantificationlib/ensembles/eoq.py:EoQ.predict"]}
{"id": "C116", "title": "EM computed with doubles", "statement": "However many rounds EM does and whatever its tolerance, in IEEE double precision it returns numbers in [0, 1] (never NaN) that add up to 1 up to k(n+5)*2^-52, for any posteriors of two classes of which one is at least 1/4, and for any number k of classes if the posteriors that are not 0 are at least 2^-900. Every round is within (n+4k+9)*2^-52 of the exact round applied to the same prevalences, and the loop does at least 10 rounds and stops before the limit only when the last round changed little. A class that no example can belong to gets exactly 0. With rows that are not probabilities a product can underflow and the answer is NaN.", "quantifier": "all training labels up to 2^40, all bags up to 2^50 rows, all tolerances and iteration limits, all orders of summation", "why_tests_cant": "the loop is unbounded and rounding errors depend on every bit of the input", "anchors": ["quantificationlib/multiclass/em.py:EM.fit", "quantificationlib/multiclass/em.py:EM.predict"]}
{"id": "C117", "title": "Distances between prevalences with doubles", "statement": "In IEEE double precision l1, mean_absolute_error, mean_squared_error, l2, hd, bray_curtis and probsymmetric give the same double when their two arguments are exchanged, whatever the doubles. For prevalences in [0, 1], l1, mean_absolute_error, mean_squared_error, l2 and hd of a vector and itself are exactly 0, the results are finite and not negative, and differ from the exact distance by at most a few units of the last place per class (relative to the distance itself, except for underflow and for hd); so do bray_curtis (which is NaN only if all prevalences are 0) and probsymmetric. l1 is 0 only for equal vectors; mean_absolute_error, mean_squared_error, l2 and hd are 0 for some different ones, and l1 does not satisfy the triangle inequality exactly.", "quantifier": "all pairs of vectors of doubles, all orders in which np.sum may add, up to 2^49 classes", "why_tests_cant": "rounding errors depend on every bit of the input", "anchors": ["quantificationlib/metrics/multiclass.py:l1", "quantificationlib/metrics/multiclass.py:mean_absolute_error", "quantificationlib/metrics/multiclass.py:mean_squared_error", "quantificationlib/metrics/multiclass.py:l2", "quantificationlib/metrics/multiclass.py:hd", "quantificationlib/metrics/multiclass.py:bray_curtis", "quantificationlib/metrics/multiclass.py:probsymmetric"]}
{"id": "C118", "title": "Searching for the prevalence with doubles", "statement": "In IEEE double precision golden section search on [a, b] within [0, 1] returns a pair of prevalences in [0, 1] that add up to exactly 1, the second one in [a, b], whatever the loss does, including NaN and exceptions after the first two evaluations, and the loss it reports was found at a point of [a, b]; with a loss that has one minimum the result is as near to it as in exact arithmetic, up to 2^-43. global_search raises, or returns such a pair taken from the searched interval with the smallest loss, provided that the losses are finite; with infinite losses it can return the number 2.", "quantifier": "all losses from doubles to doubles, all intervals and all numbers of steps that leave an interval of at least 2^-40", "why_tests_cant": "the loop compares rounded losses and updates rounded points: whether the points stay in order depends on every bit", "anchors": ["quantificationlib/search.py:golden_section_search", "quantificationlib/search.py:global_search"]}
{"id": "C119", "title": "Mixtures of distributions with doubles", "statement": "In IEEE double precision a mixture of two distributions with entries in [0, 1] has entries in [0, 1], each within 2^-51 of the exact mixture, a total of 1 if theirs are 1 (up to 2^-51 per entry), is exactly the negative distribution at prevalence 0 and the positive one at prevalence 1, and is in ascending order if both are. Mixing a distribution with itself can change it by a rounding error.", "quantifier": "all prevalences in [0, 1] and all pairs of distributions of doubles of the same length", "why_tests_cant": "rounding errors depend on every bit of the input", "anchors": ["quantificationlib/search.py:mixture_of_pdfs"]}
{"id": "C120", "title": "FrankAndHall classifiers: what fit trains and leaves behind", "statement": "After fit of FrankAndHallClassifier (or its tree variant) returns, binary estimator i is a new copy of the user's estimator, with the i-th parameters, trained to tell labels up to the i-th class from larger ones. The order in which joblib runs the problems and all earlier calls do not matter; no existing object changes and later changes to other objects do not change the answers. Fit returns exactly when there are labels, not of two classes, check_X_y accepts the data and every binary problem can be trained. An object none of whose fits returned never answers. A fit that fails while training makes the object unable to answer; one refused by check_X_y leaves the old binary estimators and the labels of the refused data, so later predictions carry wrong labels. The tree of the tree variant has every binary problem once, best one first.", "quantifier": "all estimators (set_params, fit, predict and predict_proba arbitrary, may raise), data, parameters, orders of the parallel jobs and histories of calls", "why_tests_cant": "schedules, histories of failing calls and user estimators cannot be enumerated", "anchors": ["quantificationlib/estimators/frank_and_hall.py:FrankAndHallClassifier", "quantificationlib/estimators/frank_and_hall.py:FrankAndHallTreeClassifier"]}
{"id": "C121", "title": "EnsembleOfClassifiers: predictions and fits that fail", "statement": "If the members are trained in other processes, column i of predict is the answer of a copy of the base estimator trained with bag i, in any order of the jobs; if they are trained in the same process all columns are equal, from the base estimator as last trained. A fit refused at the start changes nothing. After a fit that fails while training a member, every later fit of the object returns normally without training anything, and every prediction raises.", "quantifier": "all estimators, data, bags, schedules and histories of later calls", "why_tests_cant": "schedules and histories cannot be enumerated; the broken retry needs a failure in the middle of a fit", "anchors": ["quantificationlib/estimators/ensembles.py:EnsembleOfClassifiers"]}
{"id": "C122", "title": "AC after failing fits", "statement": "An AC quantifier none of whose fits returned never answers. A fit that raises does not change the answers of a fitted AC if the training labels have the classes it had. With other classes it can: the old confusion matrix is then applied to the frequencies of the new classes.", "quantifier": "all classifiers, data, predictions given or computed, numeric routines and histories of failing calls", "why_tests_cant": "histories of failing calls cannot be enumerated", "anchors": ["quantificationlib/baselines/ac.py:AC", "quantificationlib/base.py:UsingClassifiers"]}
{"id": "C123", "title": "normalize and load_data", "statement": "normalize gives every training feature mean 0 and variance 1 (a constant one becomes 0), changes the test features with the statistics of the training set only, and treats equal examples of both sets equally: what it does to the training set and to a test example does not depend on the other test examples. load_data returns exactly the examples and labels written one per line with the label last; labels with decimals are cut towards 0.", "quantifier": "all non-empty tables with the same number of columns", "why_tests_cant": "leaks from the test set and wrong statistics show only on some tables", "anchors": ["quantificationlib/data_utils.py:normalize", "quantificationlib/data_utils.py:load_data"]}
{"id": "C124", "title": "Earth mover's distances with doubles", "statement": "In IEEE double precision emd and emd_distances give the same double when their arguments are exchanged, and exactly 0 for a vector and itself. For prevalences in [0, 1], emd is finite, not negative, and 0 only for equal vectors. For n prevalences that add up to about 1, emd is within 5 n^2 2^-52 of the exact distance, emd_distances within 8 n^2 2^-52, and emd_score is at most 1, exactly 1 for the truth itself and within n 2^-42 of the exact score. emd_distances gives 0, and emd_score gives 1, for some different vectors.", "quantifier": "all pairs of vectors of doubles (symmetry) or of doubles in [0, 1], all orders in which np.sum may add, up to 2^40 classes (2^53 for the zero)", "why_tests_cant": "rounding errors depend on every bit of the input; those of cumulative sums depend on all earlier entries", "anchors": ["quantificationlib/metrics/ordinal.py:emd", "quantificationlib/metrics/ordinal.py:emd_score", "quantificationlib/metrics/ordinal.py:emd_distances"]}
{"id": "C125", "title": "Failing fits of CC, PCC, PAC, DeBias and EM", "statement": "After a fit that returned, PAC, DeBias and EM answer as fitted once with the same data, whatever calls came before; with two classes PAC needs only the training probabilities of the second class. CC answers for the classes of the labels in the last call of fit, also if that call raised. PCC answers the means of the predictions it gets, also if it was never fitted. A DeBias or EM none of whose fits returned never answers; DeBias refuses labels without exactly two classes before it changes anything. A fit that raises does not change the answers of a fitted EM if the number of classes is the same (with another number it then raises), nor those of a fitted DeBias if the share of the second class is the same; with another share it can, because the new prevalences are used with the old variance. A fit of PAC with two classes that raises although predictions were given leaves a PAC that answers without correction, even if it was never fitted, and even if it was fitted with the same labels.", "quantifier": "all classifiers, data, predictions and histories of calls that return or raise", "why_tests_cant": "histories of failing calls cannot be enumerated", "anchors": ["quantificationlib/baselines/cc.py:CC", "quantificationlib/baselines/cc.py:PCC", "quantificationlib/baselines/ac.py:PAC", "quantificationlib/binary/debias.py:DeBias", "quantificationlib/multiclass/em.py:EM", "quantificationlib/base.py:UsingClassifiers"]}
{"id": "C126", "title": "Constructors, get_params, set_params and clone", "statement": "For every class but EM, EDX, PWKQuantifier, PWK and OrdinalQuantificationTree: get_params of a new object returns each constructor parameter with the argument it got or its default; no method changes it (except cv in CV_estimator, which fit overwrites); set_params changes exactly the parameters it gets, and refuses other names; clone returns a new object made with copies of the current parameters and nothing that was learnt. EM, EDX, PWKQuantifier and PWK keep parameters under other names: get_params, set_params and clone always raise AttributeError. An OrdinalQuantificationTree can never be cloned, and set_params removes its tree. A single positional classifier is the one for training in AC, EM, DFy and others, but the one for testing in PAC, DeBias and FriedmanME. Whether a quantifier needs training predictions and uses probabilities depends on its class only; so do the representation and the distance of HDy, MMy and HDX.", "quantifier": "all arguments, positional or by keyword, and all objects reachable by calls of methods and set_params", "why_tests_cant": "parameters, values and histories of calls cannot be enumerated", "anchors": ["quantificationlib/base.py:UsingClassifiers", "quantificationlib/base.py:WithoutClassifiers", "quantificationlib/multiclass/em.py:EM", "quantificationlib/multiclass/energy.py:EDX", "quantificationlib/multiclass/knn.py:PWKQuantifier", "quantificationlib/estimators/weighted_knn.py:PWK", "quantificationlib/ordinal/trees.py:OrdinalQuantificationTree", "quantificationlib/estimators/cross_validation.py:CV_estimator", "quantificationlib/baselines/ac.py:PAC"]}
{"id": "C127", "title": "Changing the distance of a fitted quantifier", "statement": "DFy, DFX and FriedmanME objects whose distance and tol are changed (set_params or assignment) at any moments answer as a new object with the current distance and tol that was fitted once with the data of the last fit, provided that L2 was already set at that fit and that no prediction since that fit was made with the other one of HD and L1. Otherwise they do not: after a prediction with HD or L1 a change to the other one has no effect (a DFy answers (0, 1) where a new one answers (1/2, 1/2)), also in AC and PAC when they solve the optimisation problem; L2 set after a fit with another distance gives no answer, or uses the quadratic form of an earlier training set. The distance and tolerance it has are those it was given last; a new object fitted once answers as the models of DFy, DFX and FriedmanME.", "quantifier": "all histories of fits (also failing ones), predictions and changes of distance and tol, all data", "why_tests_cant": "histories of calls and changes cannot be enumerated", "anchors": ["quantificationlib/multiclass/df.py:DFy", "quantificationlib/multiclass/df.py:DFX", "quantificationlib/multiclass/friedman.py:FriedmanME", "quantificationlib/baselines/ac.py:AC", "quantificationlib/baselines/ac.py:PAC", "quantificationlib/optimization.py:solve_hd", "quantificationlib/optimization.py:solve_l1"]}
{"id": "C128", "title": "Ordinal classifiers in double precision", "statement": "In IEEE double precision the rows of FrankAndHallClassifier and FrankAndHallTreeClassifier are in [0, 1]; the entries of the former are within 2^-53 of the exact formula, those of the latter within 2^-54 per estimator on the path of the exact product, and the row adds up to 1 within n^2 2^-52 when the machine finds that the columns of every estimator add up to 1. OrdinalQuantificationTree inherits this for every order of summation. DDAGClassifier with 'full_probabilistic' is never negative and within 4^n 2^-53 of the exact probability; with 'winner_node' it makes no rounding error when every pairwise row has one winner, as when its first column is computed as one minus the second. When the second is computed as one minus the first, 'winner_node' can give a row of zeros.", "quantifier": "all doubles in [0, 1], all numbers of classes (up to the stated limits), all trees, all orders of summation", "why_tests_cant": "the doubles and the trees cannot be enumerated", "anchors": ["quantificationlib/estimators/frank_and_hall.py:FrankAndHallClassifier", "quantificationlib/estimators/frank_and_hall.py:FrankAndHallTreeClassifier", "quantificationlib/estimators/ordinal_ddag.py:DDAGClassifier", "quantificationlib/ordinal/trees.py:OrdinalQuantificationTree"]}
{"id": "C129", "title": "DFX after calls of fit that raise", "statement": "A fit of DFX that returns makes the object answer as a new one, whatever calls returned or raised before. Data refused by check_X_y change nothing. A DFX none of whose fits returned never answers, unless bin_strategy is 'equal_count' and n_bins is 2, 6, 10, ...: then two raising fits can be enough for an answer. A fit that raises on accepted data loses the cut points of the fit before: afterwards all the bags without a value that is exactly 0 get the same answer, HD and L1 do not answer if the number of classes changed and the object had not answered since its last fit (if it had, the data of the raising fit do not matter), and nothing is answered if equal_count raised ValueError. So a fit that raises can change the answer from (1, 0) to (0, 1).", "quantifier": "all sequences of fit and predict calls that return or raise, all data, all strategies, all distances, all external solvers", "why_tests_cant": "the histories, the data and the solvers cannot be enumerated", "anchors": ["quantificationlib/multiclass/df.py:DFX", "quantificationlib/multiclass/df.py:compute_bincuts", "quantificationlib/base.py:WithoutClassifiers"]}
{"id": "C130", "title": "Changing the histograms of a fitted DFy or DFX", "statement": "If n_bins, bin_strategy or distribution_function of a fitted DFy or DFX are changed and predictions are made in any order, and n_bins and distribution_function are put back, the object answers as a new one fitted once with the same data, whatever bin_strategy it has. While n_bins is not what it was at the last fit, every prediction raises ValueError and leaves the object as it is. While distribution_function is not what it was, predictions are returned but can be reversed: (0, 1) instead of (1, 0).", "quantifier": "all sequences of predictions and changes of the three parameters after a fit, all data, all distances, all external solvers", "why_tests_cant": "the histories, the data and the solvers cannot be enumerated", "anchors": ["quantificationlib/multiclass/df.py:DFy", "quantificationlib/multiclass/df.py:DFX", "quantificationlib/multiclass/df.py:compute_bincuts"]}
{"id": "C131", "title": "EoQ after calls of fit that raise and after changes of its parameters", "statement": "After a fit that returned, EoQ answers as a new ensemble fitted once with the same data, whatever happened before. After any calls of fit, returning or raising, an answer uses the members of a single call, each a copy of the base quantifier fitted with examples of that call; only the last member may be a copy whose training did not end. If the bag generator or an estimator raises, the ensemble answers as before when the number of classes did not change and raises ValueError when it did. If the training of a member other than the last raises, predict raises afterwards. With cumulative distributions fit always raises, but predict then answers as after the fit with densities. When n_quantifiers grows predict raises; when it shrinks, the mean uses the first members. That predict raises after every fit that raised is refuted.", "quantifier": "all sequences of calls of fit, all base quantifier classes, parameters, bags and data", "why_tests_cant": "the histories, the classes and the data cannot be enumerated", "anchors": ["quantificationlib/ensembles/eoq.py:EoQ.fit", "quantificationlib/ensembles/eoq.py:EoQ.predict"]}
{"id": "C132", "title": "DFy after calls of fit that raise", "statement": "After a fit that returned, DFy answers as if that were its only call, whatever calls of fit and predict returned or raised before; without estimators, fit returns on exactly the data on which the fit of a new object does. If fit raises in the base class (predictions missing, estimators that cannot be trained), the answers stay the same when the number of classes did not change, and predict raises when the number of columns it uses did. If fit raises because the number of predictions does not match the labels (equal_width), then with HD or L1 an object that had answered since its last fit keeps its answers, while one that had not forgets what it was fitted with: it answers as a new object on which only the failing fit was called; with L2 it then gives every bag the same answer. That an object none of whose fits returned never answers is refuted: after such a fit predict answers.", "quantifier": "all sequences of calls of fit and predict, all labels, predictions, estimators and parameters", "why_tests_cant": "the histories and the data cannot be enumerated", "anchors": ["quantificationlib/multiclass/df.py:DFy.fit", "quantificationlib/multiclass/df.py:DFy.predict"]}
{"id": "C133", "title": "FriedmanME after calls of fit that raise", "statement": "After a fit that returned, FriedmanME answers as if that were its only call, whatever calls of fit and predict returned or raised before; without estimators, fit returns on exactly the data on which the fit of a new object does. If fit raises in the base class (predictions missing, estimators that cannot be trained), the answers stay the same when the number of classes did not change, and predict raises when it did. If fit raises because the predictions have fewer columns than there are classes, the object afterwards compares bags, with the thresholds (class shares) of the labels of the failed fit, to the distributions of the last fit that returned. The same happens after a wrong number of predictions with HD or L1 if the object had answered since its last fit; if it had not, it forgets what it was fitted with and answers as a new object on which only the failing fit was called; with L2 it then gives every bag the same answer. That an object none of whose fits returned never answers is refuted: after such a fit predict answers.", "quantifier": "all sequences of calls of fit and predict, all labels, predictions, estimators and parameters", "why_tests_cant": "the histories and the data cannot be enumerated", "anchors": ["quantificationlib/multiclass/friedman.py:FriedmanME.fit", "quantificationlib/multiclass/friedman.py:FriedmanME.predict"]}
{"id": "C134", "title": "PDFOrdinaly after calls of fit that raise", "statement": "After a fit that returned, PDFOrdinaly answers as if that were its only call, whatever calls of fit and predict returned or raised before; without estimators, fit returns on exactly the data on which the fit of a new object does. If fit raises in the base class, or because the predictions have the wrong number of columns ('full_probabilistic'), the answers stay the same when the number of classes did not change, and predict raises when it did; after a fit with labels of at most two classes, which raises, predict raises on every bag. After a wrong number of predictions with HD or EMD an object that had answered since its last fit keeps its answers, while one that had not forgets what it was fitted with and answers as a new object on which only the failing fit was called; with L2 it then gives every bag the same answer. That an object none of whose fits returned never answers is refuted: after such a fit predict answers.", "quantifier": "all sequences of calls of fit and predict, all labels, predictions, estimators and parameters", "why_tests_cant": "the histories and the data cannot be enumerated", "anchors": ["quantificationlib/ordinal/pdf.py:PDFOrdinaly.fit", "quantificationlib/ordinal/pdf.py:PDFOrdinaly.predict"]}
{"id": "C135", "title": "ACOrdinal after calls of fit that raise", "statement": "After a fit that returned, ACOrdinal answers as if that were its only call, whatever calls of fit and predict returned or raised before; without estimators, fit returns if and only if the number of predictions is that of the labels or a multiple of it. While every fit has raised, predict raises. After a fit that raised (for any reason) following one that returned: with labels of the same classes the answers stay the same; with as many other classes the object takes the i-th new label for the i-th old one, its answers for probabilities (two or more columns) stay the same, and all bags without any of the new labels are answered alike; with another number of classes predict raises. That a fit that raises leaves the answers as they were is refuted.", "quantifier": "all sequences of calls of fit and predict, all labels, predictions and estimators", "why_tests_cant": "the histories and the data cannot be enumerated", "anchors": ["quantificationlib/ordinal/ac_ordinal.py:ACOrdinal.fit", "quantificationlib/ordinal/ac_ordinal.py:ACOrdinal.predict"]}
{"id": "C136", "title": "SORDy after calls of fit that raise", "statement": "After a fit that returned, SORDy answers as if that were its only call, whatever calls of fit and predict returned or raised before; without estimators, fit returns if and only if there are at most two classes, the predictions have two or more columns, and their number is that of the labels or a multiple of it. While every fit has raised, predict raises. After a fit that raised anything but IndexError following one that returned: if the two smallest of its labels are the classes of the object (as when a third class is added), the answers stay the same. After any fit that raised with labels none of which were known, all bags are answered alike. A fit with a wrong number of predictions raises IndexError, but the object then answers from the new scores with the old labels. That a fit that raises leaves the answers as they were is refuted.", "quantifier": "all sequences of calls of fit and predict, all labels, predictions and estimators, all orders of ties in np.argsort", "why_tests_cant": "the histories and the data cannot be enumerated", "anchors": ["quantificationlib/binary/emd.py:SORDy.fit", "quantificationlib/binary/emd.py:SORDy.predict", "quantificationlib/search.py:compute_sord_weights"]}
{"id": "C137", "title": "QUANTy after calls of fit that raise", "statement": "After a fit that returned, and any predictions since, QUANTy answers as if that fit and this prediction were its only calls, whatever calls of fit and predict returned or raised before; without estimators, fit returns if and only if there are at most two classes, the predictions have two or more columns, and their number is that of the labels or a multiple of it. While every fit has raised, predict raises. After a fit that raised anything but IndexError following one that returned: if the two smallest of its labels are the classes of the object (as when a third class is added), the answers stay the same; if it comes right after the fit that returned and shares no label with it, predict raises for every bag. A fit with a wrong number of predictions right after one that returned raises IndexError; if there are as many predictions as before, the object then answers from the new scores with the old labels, otherwise predict raises.", "quantifier": "all sequences of calls of fit and predict, all labels, predictions, estimators, distances, tolerances and numbers of quantiles, all orders of ties in np.argsort", "why_tests_cant": "the histories and the data cannot be enumerated", "anchors": ["quantificationlib/binary/quantiles.py:QUANTy.fit", "quantificationlib/binary/quantiles.py:QUANTy.predict", "quantificationlib/search.py:global_search"]}
