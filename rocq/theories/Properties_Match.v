(** * Properties of the quantifiers that match distributions: DFy, DFX, FriedmanME, PDFOrdinaly and
    ACOrdinal (C51-C56, C78-C81).

    [after_predictions N cvx crit tol m bags] is the fitted object [m] after predictions for [bags];
    [matching_predict], [PDFO_predict] and [ACOrdinal_predict] return the new object and the result. *)

From Coq Require Import Reals List ZArith Lra Lia Permutation.
From Verif Require Import Num Spec M_Baselines M_Metrics M_Search Spec_Search M_Optim Spec_Optim M_Match Spec_Match
  L_Optim5 L_Match3 L_Match4 L_Match5 L_Match6 L_Match7 L_Match8 L_Match9 L_Match10 L_Match11
  L_Match12 L_Match13.
Import ListNotations.
Open Scope R_scope.

(** ** C51 *)

(** Fit with equal_width or equal_count cut points succeeds on predictions for one or more
    repetitions of the training examples. *)
Theorem C51_DFy_fit : forall ppf N fuel kind nb strat crit y r preds, y <> [] -> (0 < r)%nat ->
  length preds = (r * length y)%nat -> (0 < nb)%nat ->
  strat = EqualWidth \/ (strat = EqualCount /\ (nb < 2 * length preds)%nat) ->
  exists m, DFy_fit ppf N fuel kind nb strat crit y preds = Val m.
Proof.
  intros ppf N fuel kind nb strat crit y r preds Hy Hr L Hn Hs.
  destruct (DFy_fit_val ppf N fuel kind nb strat crit y r preds Hy Hr L Hn Hs) as (cuts & m & _ & E & _).
  exists m. exact E.
Qed.
Print Assumptions C51_DFy_fit.

Theorem C51_DFX_fit : forall ppf N fuel kind nb strat crit y k X, y <> [] ->
  length X = length y -> (0 < nb)%nat ->
  strat = EqualWidth \/ (strat = EqualCount /\ (nb < 2 * length X)%nat) ->
  exists m, DFX_fit ppf N fuel kind nb strat crit y k X = Val m.
Proof.
  intros ppf N fuel kind nb strat crit y k X Hy L Hn Hs.
  destruct (DFX_fit_val ppf N fuel kind nb strat crit y k X Hy L Hn Hs) as (cuts & m & _ & E & _).
  exists m. exact E.
Qed.
Print Assumptions C51_DFX_fit.

(** Every training column and every test distribution is made of complete histograms. *)
Theorem C51_DFy_histograms : forall ppf N fuel nb strat crit y preds m, y <> [] ->
  strat = EqualWidth \/ strat = EqualCount ->
  DFy_fit ppf N fuel PDF nb strat crit y preds = Val m ->
  exists cuts, DFy_cuts ppf nb strat y preds = Val cuts /\
    length cuts = n_descriptors (length (np_unique y)) /\ Forall (covering_cuts nb) cuts /\
    (forall c, (c < length (np_unique y))%nat ->
       histograms nb cuts (select (nth c (np_unique y) 0%Z) (y_ext y (length preds)) preds)
         (fun r => mt_T m r c)) /\
    forall cvx tol bags bag, bag <> [] ->
      exists t, mt_represent (after_predictions N cvx crit tol m bags) bag = Val t /\
        length t = (nb * length cuts)%nat /\ histograms nb cuts bag (fun r => nth r t 0).
Proof. exact DFy_histograms. Qed.
Print Assumptions C51_DFy_histograms.

Theorem C51_DFX_histograms : forall ppf N fuel nb strat crit y k X m, y <> [] -> (0 < k)%nat ->
  strat = EqualWidth \/ strat = EqualCount ->
  DFX_fit ppf N fuel PDF nb strat crit y k X = Val m ->
  exists cuts, DFX_cuts ppf nb strat y k X = Val cuts /\
    length cuts = k /\ Forall (covering_cuts nb) cuts /\
    (forall c, (c < length (np_unique y))%nat ->
       histograms nb cuts (select (nth c (np_unique y) 0%Z) y X) (fun r => mt_T m r c)) /\
    forall cvx tol bags bag, bag <> [] ->
      exists t, mt_represent (after_predictions N cvx crit tol m bags) bag = Val t /\
        length t = (nb * length cuts)%nat /\ histograms nb cuts bag (fun r => nth r t 0).
Proof. exact DFX_histograms. Qed.
Print Assumptions C51_DFX_histograms.

Example C51_hypotheses : forall ppf N fuel crit,
  DFy_fit ppf N fuel PDF 2 EqualWidth crit [0; 1]%Z [[9/10; 1/10]; [1/5; 4/5]] =
    Val (new_matcher N fuel crit 2 (dfy_represent PDF [[NegInf; Fin (1/2); PosInf]]) [[0; 1]; [1; 0]]) /\
  DFX_fit ppf N fuel PDF 2 EqualWidth crit [0; 1]%Z 1 [[1]; [0]] =
    Val (new_matcher N fuel crit 2 (dfx_represent PDF [[NegInf; Fin (1/2); PosInf]]) [[0; 1]; [1; 0]]).
Proof. intros. split; [apply (ex_fit ppf N fuel PDF)|apply (ex_fit_X ppf N fuel PDF)]. Qed.

(** With the normal cut points, constant scores fall outside every bin. *)
Theorem C51_normal_refuted : forall ppf N fuel crit, exists m,
  DFy_fit ppf N fuel PDF 2 Normal crit [0; 1]%Z [[9/10; 1/10]; [9/10; 1/10]] = Val m /\
  mt_bins m = 2%nat /\ mt_classes m = 2%nat /\
  (forall r c, (r < 2)%nat -> (c < 2)%nat -> mt_T m r c = 0) /\
  mt_represent m [[9/10; 1/10]; [9/10; 1/10]] = Val [0; 0].
Proof. exact normal_loses. Qed.
Print Assumptions C51_normal_refuted.

(** ** C52 *)

Theorem C52_DFy : forall ppf N fuel cvx kind nb strat dist tol y preds m bags ks bag,
  exact_cvx cvx -> exact_qp (solve_qp N) ->
  dist <> OtherDistance -> (dist = HD -> kind = PDF) ->
  y <> [] -> strat = EqualWidth \/ strat = EqualCount ->
  DFy_fit ppf N fuel kind nb strat (Named dist) y preds = Val m ->
  identifiable (mt_bins m) (mt_classes m) (mt_T m) ->
  let samples := class_samples (np_unique y) (y_ext y (length preds)) preds in
  copies_of ks samples bag -> bag <> [] ->
  only_result N cvx (snd (matching_predict N cvx (Named dist) tol
         (after_predictions N cvx (Named dist) tol m bags) bag)) (copies_prevalences ks samples bag).
Proof. exact DFy_consistent. Qed.
Print Assumptions C52_DFy.

Theorem C52_DFX : forall ppf N fuel cvx kind nb strat dist tol y k X m bags ks bag,
  exact_cvx cvx -> exact_qp (solve_qp N) ->
  dist <> OtherDistance -> (dist = HD -> kind = PDF) ->
  y <> [] -> (0 < k)%nat -> strat = EqualWidth \/ strat = EqualCount ->
  DFX_fit ppf N fuel kind nb strat (Named dist) y k X = Val m ->
  identifiable (mt_bins m) (mt_classes m) (mt_T m) ->
  let samples := class_samples (np_unique y) y X in
  copies_of ks samples bag -> bag <> [] ->
  only_result N cvx (snd (matching_predict N cvx (Named dist) tol
         (after_predictions N cvx (Named dist) tol m bags) bag)) (copies_prevalences ks samples bag).
Proof. exact DFX_consistent. Qed.
Print Assumptions C52_DFX.

Theorem C52_FriedmanME : forall N fuel cvx dist tol y preds m bags ks bag,
  exact_cvx cvx -> exact_qp (solve_qp N) -> dist = L1 \/ dist = L2 ->
  FriedmanME_fit N fuel (Named dist) y preds = Val m ->
  independent_columns (mt_bins m) (mt_classes m) (mt_T m) \/
    (dist = L1 /\ identifiable (mt_bins m) (mt_classes m) (mt_T m)) ->
  let samples := class_samples (np_unique y) (y_ext y (length preds)) preds in
  copies_of ks samples bag -> bag <> [] ->
  only_result N cvx (snd (matching_predict N cvx (Named dist) tol
         (after_predictions N cvx (Named dist) tol m bags) bag)) (copies_prevalences ks samples bag).
Proof. exact Friedman_consistent. Qed.
Print Assumptions C52_FriedmanME.

Theorem C52_PDFOrdinaly : forall N fuel cvx n_bins d meth y preds m bags ks bag,
  exact_cvx cvx -> exact_qp (solve_qp N) -> d <> OtherOrdinalDistance ->
  PDFO_fit N fuel n_bins d meth y preds = Val m ->
  distributions (length (np_unique y)) preds ->
  identifiable (mt_bins m) (mt_classes m) (mt_T m) ->
  let samples := class_samples (np_unique y) (y_ext y (length preds)) preds in
  copies_of ks samples bag -> bag <> [] ->
  let result := snd (PDFO_predict N cvx d (after_predictions N cvx (pdfo_criterion d) 0 m bags) bag) in
  (forall q, result = Val q -> q = Some (copies_prevalences ks samples bag)) /\
  (answering_cvx cvx -> answering_qp (solve_qp N) ->
   result = Val (Some (copies_prevalences ks samples bag))).
Proof. exact PDFO_recovers. Qed.
Print Assumptions C52_PDFOrdinaly.

Theorem C52_ACOrdinal : forall N fuel cvx y preds m bags ks bag,
  exact_cvx cvx -> exact_qp (solve_qp N) -> y <> [] -> (forall z, In z preds -> In z y) ->
  ACOrdinal_fit N fuel y preds = Val m ->
  identifiable (mt_bins m) (mt_classes m) (mt_T m) ->
  let samples := class_samples (np_unique y) (y_ext y (length preds)) preds in
  copies_of ks samples bag -> bag <> [] ->
  only_result N cvx (snd (ACOrdinal_predict N cvx (after_predictions N cvx (Named L1) 0 m bags) bag))
    (copies_prevalences ks samples bag).
Proof. exact ACOrdinal_consistent. Qed.
Print Assumptions C52_ACOrdinal.

Example C52_hypotheses :
  exact_cvx ideal_cvx /\ answering_cvx ideal_cvx /\
  exact_qp (solve_qp example_numerics) /\ answering_qp (solve_qp example_numerics) /\
  (exists m, DFy_fit (fun p => p) example_numerics 1 PDF 2 EqualWidth (Named HD) [0; 1]%Z
      [[9/10; 1/10]; [1/5; 4/5]] = Val m /\ identifiable (mt_bins m) (mt_classes m) (mt_T m)) /\
  (exists m, DFX_fit (fun p => p) example_numerics 1 CDF 2 EqualWidth (Named L2) [0; 1]%Z 1
      [[1]; [0]] = Val m /\ identifiable (mt_bins m) (mt_classes m) (mt_T m)) /\
  (exists m, FriedmanME_fit example_numerics 1 (Named L1) [0; 1]%Z
      [[9/10; 1/10]; [1/2; 1/2]] = Val m /\ identifiable (mt_bins m) (mt_classes m) (mt_T m)) /\
  (forall d, exists m, PDFO_fit example_numerics 1 2 d WinnerNode [0; 1; 2]%Z
      [[1; 0; 0]; [0; 1; 0]; [0; 0; 1]] = Val m /\ identifiable (mt_bins m) (mt_classes m) (mt_T m)) /\
  (exists m, ACOrdinal_fit example_numerics 1 [0; 1; 2]%Z [0; 1; 2]%Z = Val m /\
     identifiable (mt_bins m) (mt_classes m) (mt_T m)) /\
  copies_of [1%nat; 2%nat; 1%nat] (class_samples (np_unique [0; 1; 2]%Z) [0; 1; 2]%Z [0; 1; 2]%Z) [0; 1; 1; 2]%Z /\
  copies_prevalences [1%nat; 2%nat; 1%nat] (class_samples (np_unique [0; 1; 2]%Z) [0; 1; 2]%Z [0; 1; 2]%Z) [0; 1; 1; 2]%Z
    = [1/4; 1/2; 1/4].
Proof.
  split; [apply ideal_cvx_exact|]. split; [intros w n f x; apply ideal_cvx_answers|].
  split; [apply ideal_qp_exact|]. split; [intros n m G a C b meq; apply ideal_qp_answers|].
  split; [eexists; split; [apply (ex_fit (fun p => p) example_numerics 1 PDF (Named HD))|apply (ex_identifiable 0 1); lra]|].
  split; [eexists; split; [apply (ex_fit_X (fun p => p) example_numerics 1 CDF (Named L2))|apply (ex_identifiable 0 1); lra]|].
  split; [eexists; split; [apply (fr_fit example_numerics 1 (Named L1))|apply (ex_identifiable 0 1); lra]|].
  split; [intros d; apply or_facts; discriminate|].
  split; [apply aco_facts|]. exact aco_copies.
Qed.

(** The Hellinger distance does not recover the prevalences from distributions of different masses:
    FriedmanME, and DFy and DFX with cumulative distributions. *)
Theorem C52_FriedmanME_HD_refuted : forall N fuel cvx tol, exact_cvx cvx ->
  let y := [0; 1]%Z in
  let preds := [[9/10; 1/10]; [1/2; 1/2]] in
  let samples := class_samples (np_unique y) (y_ext y (length preds)) preds in
  copies_of [1%nat; 1%nat] samples preds /\
  copies_prevalences [1%nat; 1%nat] samples preds = [1/2; 1/2] /\
  exists m, FriedmanME_fit N fuel (Named HD) y preds = Val m /\
    identifiable (mt_bins m) (mt_classes m) (mt_T m) /\
    only_result N cvx (snd (matching_predict N cvx (Named HD) tol m preds)) [0; 1].
Proof.
  intros N fuel cvx tol HX. split; [apply fr_copies|]. split; [apply fr_copies|].
  exact (Friedman_HD_wrong N fuel cvx tol HX).
Qed.
Print Assumptions C52_FriedmanME_HD_refuted.

Theorem C52_DFy_CDF_HD_refuted : forall ppf N fuel cvx tol, exact_cvx cvx ->
  let y := [0; 1]%Z in
  let preds := [[9/10; 1/10]; [1/5; 4/5]] in
  let samples := class_samples (np_unique y) (y_ext y (length preds)) preds in
  copies_of [1%nat; 1%nat] samples preds /\
  copies_prevalences [1%nat; 1%nat] samples preds = [1/2; 1/2] /\
  exists m, DFy_fit ppf N fuel CDF 2 EqualWidth (Named HD) y preds = Val m /\
    identifiable (mt_bins m) (mt_classes m) (mt_T m) /\
    only_result N cvx (snd (matching_predict N cvx (Named HD) tol m preds)) [0; 1].
Proof.
  intros ppf N fuel cvx tol HX. split; [apply ex_copies|]. split; [apply ex_copies|].
  exact (DFy_CDF_HD_wrong ppf N fuel cvx tol HX).
Qed.
Print Assumptions C52_DFy_CDF_HD_refuted.

Theorem C52_DFX_CDF_HD_refuted : forall ppf N fuel cvx tol, exact_cvx cvx ->
  let y := [0; 1]%Z in
  let X := [[1]; [0]] in
  let samples := class_samples (np_unique y) y X in
  copies_of [1%nat; 1%nat] samples X /\
  copies_prevalences [1%nat; 1%nat] samples X = [1/2; 1/2] /\
  exists m, DFX_fit ppf N fuel CDF 2 EqualWidth (Named HD) y 1 X = Val m /\
    identifiable (mt_bins m) (mt_classes m) (mt_T m) /\
    only_result N cvx (snd (matching_predict N cvx (Named HD) tol m X)) [0; 1].
Proof.
  intros ppf N fuel cvx tol HX. split; [apply ex_X_copies|]. split; [apply ex_X_copies|].
  exact (DFX_CDF_HD_wrong ppf N fuel cvx tol HX).
Qed.
Print Assumptions C52_DFX_CDF_HD_refuted.

(** ** C53 *)

Theorem C53_DFX : forall ppf N fuel nb strat crit y k X m, y <> [] -> (0 < k)%nat ->
  strat = EqualWidth \/ strat = EqualCount ->
  DFX_fit ppf N fuel CDF nb strat crit y k X = Val m ->
  exists cuts, DFX_cuts ppf nb strat y k X = Val cuts /\
    length cuts = k /\ Forall (covering_cuts nb) cuts /\
    (forall c, (c < length (np_unique y))%nat ->
       cumulative_histograms nb cuts (select (nth c (np_unique y) 0%Z) y X) (fun _ => 0)
         (fun r => mt_T m r c)) /\
    forall cvx tol bags bag, bag <> [] ->
      exists t, mt_represent (after_predictions N cvx crit tol m bags) bag = Val t /\
        length t = (nb * length cuts)%nat /\
        cumulative_histograms nb cuts bag (fun _ => 0) (fun r => nth r t 0).
Proof. exact DFX_cumulative. Qed.
Print Assumptions C53_DFX.

(** DFy adds the number of the descriptor to each block. *)
Theorem C53_DFy : forall ppf N fuel nb strat crit y preds m, y <> [] ->
  strat = EqualWidth \/ strat = EqualCount ->
  DFy_fit ppf N fuel CDF nb strat crit y preds = Val m ->
  exists cuts, DFy_cuts ppf nb strat y preds = Val cuts /\
    length cuts = n_descriptors (length (np_unique y)) /\ Forall (covering_cuts nb) cuts /\
    (forall c, (c < length (np_unique y))%nat ->
       cumulative_histograms nb cuts (select (nth c (np_unique y) 0%Z) (y_ext y (length preds)) preds)
         INR (fun r => mt_T m r c)) /\
    forall cvx tol bags bag, bag <> [] ->
      exists t, mt_represent (after_predictions N cvx crit tol m bags) bag = Val t /\
        length t = (nb * length cuts)%nat /\
        cumulative_histograms nb cuts bag INR (fun r => nth r t 0).
Proof. exact DFy_cumulative. Qed.
Print Assumptions C53_DFy.

(** That changes neither the L1 nor the L2 distance. *)
Theorem C53_same_distances : forall d n T t (s : nat -> R) p, length t = d -> distribution_over n p ->
  l1_distance d n (fun r c => T r c - s r) (tabulate d (fun r => nth r t 0 - s r)) p =
    l1_distance d n T t p /\
  squared_l2 d n (fun r c => T r c - s r) (tabulate d (fun r => nth r t 0 - s r)) p =
    squared_l2 d n T t p.
Proof. exact shifted_distances. Qed.
Print Assumptions C53_same_distances.

(** With three classes or more, the entries of DFy are not probabilities: the last one is the number
    of classes. *)
Theorem C53_DFy_refuted : forall ppf N fuel nb strat crit y preds m, (3 <= length (np_unique y))%nat ->
  strat = EqualWidth \/ strat = EqualCount ->
  DFy_fit ppf N fuel CDF nb strat crit y preds = Val m ->
  forall c, (c < length (np_unique y))%nat ->
    mt_T m (nb * length (np_unique y) - 1)%nat c = INR (length (np_unique y)).
Proof. exact DFy_cdf_above. Qed.
Print Assumptions C53_DFy_refuted.

Example C53_hypotheses : forall ppf N fuel crit,
  DFX_fit ppf N fuel CDF 2 EqualWidth crit [0; 1]%Z 1 [[1]; [0]] =
    Val (new_matcher N fuel crit 2 (dfx_represent CDF [[NegInf; Fin (1/2); PosInf]]) [[0; 1]; [1; 1]]) /\
  exists m, DFy_fit ppf N fuel CDF 4 EqualCount crit [0; 1; 2]%Z [[1; 0; 0]; [0; 1; 0]; [0; 0; 1]] = Val m.
Proof.
  intros. split; [apply (ex_fit_X ppf N fuel CDF)|].
  apply (C51_DFy_fit ppf N fuel CDF 4 EqualCount crit _ 1); try discriminate; simpl; try lia.
  right. split; [reflexivity|lia].
Qed.

(** ** C54 *)

Theorem C54_equal_width : forall ppf x y classes n range, (0 < n)%nat ->
  match range with None => x <> [] | Some (a, b) => a <= b end ->
  exists cuts, compute_bincuts ppf x y classes n EqualWidth range = Val cuts /\ covering_cuts n cuts.
Proof. exact equal_width_cuts. Qed.
Print Assumptions C54_equal_width.

Theorem C54_equal_count : forall ppf x y classes n range, (0 < n)%nat -> (n < 2 * length x)%nat ->
  exists cuts, compute_bincuts ppf x y classes n EqualCount range = Val cuts /\ covering_cuts n cuts.
Proof. exact equal_count_cuts. Qed.
Print Assumptions C54_equal_count.

(** The parts of equal_count are equal up to half an example on each side when the values differ. *)
Theorem C54_equal_count_balanced : forall ppf x y classes n range i,
  NoDup x -> (n < 2 * length x)%nat -> (0 < i < n)%nat ->
  exists cuts k, compute_bincuts ppf x y classes n EqualCount range = Val cuts /\
    how_many (fun v => value_below v (nth i cuts PosInf)) x k /\
    Rabs (INR k - INR (length x * i) / INR n) <= 1/2.
Proof. exact equal_count_balanced. Qed.
Print Assumptions C54_equal_count_balanced.

(** Cut points at the quantiles of a normal distribution. *)
Theorem C54_gaussian : forall ppf n mu std, (0 < n)%nat -> 0 < std ->
  (forall u v, 0 < u -> u <= v -> v < 1 -> ppf u <= ppf v) ->
  exists cuts, gaussian_cuts ppf n mu std = Val cuts /\ covering_cuts n cuts.
Proof. exact gaussian_covering. Qed.
Print Assumptions C54_gaussian.

(** The normal strategy: mean and deviation of all the values, every class weighing the same. *)
Theorem C54_normal : forall ppf x y n range, y <> [] -> length y = length x -> (0 < n)%nat ->
  let mu := class_average (fun v => v) (np_unique y) y x in
  let std := sqrt (class_average (fun v => (v - mu) ^ 2) (np_unique y) y x) in
  0 < std ->
  exists cuts, compute_bincuts ppf x y (np_unique y) n Normal range = Val cuts /\ length cuts = S n /\
    nth 0 cuts PosInf = NegInf /\ nth n cuts NegInf = PosInf /\
    forall i, (0 < i < n)%nat -> nth i cuts PosInf = Fin (mu + std * ppf (INR i / INR n)).
Proof. exact normal_values. Qed.
Print Assumptions C54_normal.

(** The binormal strategy: the averages of the means and of the deviations of the two classes. *)
Theorem C54_binormal : forall ppf x y n range, length (np_unique y) = 2%nat -> length y = length x -> (0 < n)%nat ->
  let mu := class_average (fun v => v) (np_unique y) y x in
  let class_std c := sqrt (average (map (fun v => (v - average (select c y x)) ^ 2) (select c y x))) in
  let std := average (map class_std (np_unique y)) in
  0 < std ->
  exists cuts, compute_bincuts ppf x y (np_unique y) n Binormal range = Val cuts /\ length cuts = S n /\
    nth 0 cuts PosInf = NegInf /\ nth n cuts NegInf = PosInf /\
    forall i, (0 < i < n)%nat -> nth i cuts PosInf = Fin (mu + std * ppf (INR i / INR n)).
Proof. exact binormal_values. Qed.
Print Assumptions C54_binormal.

Example C54_normal_hypotheses :
  0 < sqrt (class_average (fun v => (v - class_average (fun v => v) [0; 1]%Z [0; 1; 1]%Z [0; 1; 3]) ^ 2)
              [0; 1]%Z [0; 1; 1]%Z [0; 1; 3]) /\
  class_average (fun v => v) [0; 1]%Z [0; 1; 1]%Z [0; 1; 3] = 1 /\
  0 < average (map (fun c => sqrt (average (map (fun v => (v - average (select c [0; 1; 1]%Z [0; 1; 3])) ^ 2)
                                             (select c [0; 1; 1]%Z [0; 1; 3])))) [0; 1]%Z).
Proof.
  unfold class_average, select, average. cbn -[sqrt]. split; [apply sqrt_lt_R0; lra|]. split; [lra|].
  apply Rmult_lt_0_compat; [|lra]. apply Rplus_le_lt_0_compat; [apply sqrt_pos|].
  rewrite Rplus_0_r. apply sqrt_lt_R0. lra.
Qed.

(** equal_count with more than two bins per value fails, and with exactly two its cut points may
    decrease. *)
Theorem C54_equal_count_few_refuted : forall ppf x y classes n range, (2 <= n)%nat -> (2 * length x < n)%nat ->
  compute_bincuts ppf x y classes n EqualCount range = Err IndexError.
Proof. exact equal_count_few. Qed.
Print Assumptions C54_equal_count_few_refuted.

Theorem C54_equal_count_order_refuted : exists cuts,
  compute_bincuts (fun p => p) [0; 0; 1] [] [] 6 EqualCount None = Val cuts /\ ~ ascending_edges cuts.
Proof. exact equal_count_unordered. Qed.
Print Assumptions C54_equal_count_order_refuted.

Example C54_hypotheses : NoDup [3; 1; 2] /\ (2 < 2 * length [3; 1; 2])%nat /\
  compute_bincuts (fun p => p) [3; 1; 2] [] [] 2 EqualWidth (Some (0, 1)) = Val [NegInf; Fin (1/2); PosInf].
Proof.
  split; [|split; [simpl; lia|apply two_cuts]].
  constructor; [simpl; intros [|[|[]]]; lra|]. constructor; [simpl; intros [|[]]; lra|].
  constructor; [simpl; tauto|constructor].
Qed.

(** ** C55 *)

Theorem C55_two_neighbours : forall n k r, (2 <= n)%nat -> (k < n)%nat -> distribution_over n r ->
  on_two_neighbours k r ->
  pdfo_score WinnerNode n r = sumn n (fun i => nth i r 0 * INR (i + 1)) /\
  pdfo_score FullProbabilistic n r = sumn n (fun i => nth i r 0 * INR (i + 1)).
Proof. exact neighbours_agree. Qed.
Print Assumptions C55_two_neighbours.

(** In general winner_node looks at the first class with a positive probability and the next one. *)
Theorem C55_winner : forall n k r, (2 <= n)%nat -> (S k < n)%nat ->
  (forall i, (i < k)%nat -> nth i r 0 = 0) -> 0 < nth k r 0 ->
  pdfo_score WinnerNode n r = INR (S k) + nth (S k) r 0.
Proof. exact winner_value. Qed.
Print Assumptions C55_winner.

Theorem C55_winner_last : forall n r, (2 <= n)%nat ->
  (forall i, (i < n - 1)%nat -> nth i r 0 = 0) -> 0 < nth (n - 1) r 0 ->
  pdfo_score WinnerNode n r = INR (n - 1) + nth (n - 1) r 0.
Proof. exact winner_last. Qed.
Print Assumptions C55_winner_last.

Theorem C55_range : forall m n r, (2 <= n)%nat -> distribution_over n r -> 1 <= pdfo_score m n r <= INR n.
Proof. exact score_range. Qed.
Print Assumptions C55_range.

(** No example is lost, in the training columns and in the test distribution. *)
Theorem C55_histograms : forall N fuel n_bins d meth y preds m, d <> OEMD ->
  PDFO_fit N fuel n_bins d meth y preds = Val m ->
  let n := length (np_unique y) in
  let bins := (n_bins * (n - 1))%nat in
  mt_bins m = bins /\
  (distributions n preds -> forall c, (c < n)%nat ->
     distribution (tabulate bins (fun k => mt_T m k c)) /\
     forall k, (k < bins)%nat ->
       fraction_in (in_bin (score_edges n_bins n) k)
         (map (pdfo_score meth n) (select (nth c (np_unique y) 0%Z) (y_ext y (length preds)) preds)) (mt_T m k c)) /\
  forall cvx bags bag, distributions n bag -> bag <> [] ->
    exists t, mt_represent (after_predictions N cvx (pdfo_criterion d) 0 m bags) bag = Val t /\
      length t = bins /\ distribution t /\
      forall k, (k < bins)%nat ->
        fraction_in (in_bin (score_edges n_bins n) k) (map (pdfo_score meth n) bag) (nth k t 0).
Proof. exact PDFO_histogram. Qed.
Print Assumptions C55_histograms.

Example C55_hypotheses : distribution_over 3 [0; 1/4; 3/4] /\ on_two_neighbours 1 [0; 1/4; 3/4] /\
  pdfo_score WinnerNode 3 [0; 1/4; 3/4] = 11/4 /\ pdfo_score WinnerNode 3 [1/2; 0; 1/2] = 1 /\
  (exists m, PDFO_fit example_numerics 1 2 OHD WinnerNode [0; 1; 2]%Z [[1; 0; 0]; [0; 1; 0]; [0; 0; 1]] = Val m) /\
  distributions 3 [[1; 0; 0]; [0; 1; 0]; [0; 0; 1]].
Proof.
  assert (D : distribution_over 3 [0; 1/4; 3/4]).
  { split; [reflexivity|]. split; [|simpl; lra]. repeat (apply Forall_cons; [lra|]). apply Forall_nil. }
  assert (T : on_two_neighbours 1 [0; 1/4; 3/4]).
  { split; [simpl; lra|]. intros [|[|[|[|i]]]] H1 H2; simpl; auto; congruence. }
  split; [exact D|]. split; [exact T|].
  split; [rewrite (proj1 (C55_two_neighbours 3 1 _ ltac:(lia) ltac:(lia) D T)); simpl; lra|].
  split; [rewrite (C55_winner 3 0); [simpl; lra|lia|lia|lia|simpl; lra]|].
  split; [|exact or_distributions]. eexists. apply or_fit. discriminate.
Qed.

(** ** C56 *)

Theorem C56_ACOrdinal : forall N fuel cvx y preds m bags bag p,
  exact_cvx cvx -> y <> [] -> (forall z, In z preds -> In z y) ->
  ACOrdinal_fit N fuel y preds = Val m -> bag <> [] ->
  snd (ACOrdinal_predict N cvx (after_predictions N cvx (Named L1) 0 m bags) bag) = Val p ->
  let classes := np_unique y in
  let n := length classes in
  emd_best n
    (mixture n n (fun k c => rate (nth c classes 0%Z) (nth k classes 0%Z) (y_ext y (length preds)) preds))
    (map (fun c => fraction c bag) classes) p.
Proof. exact ACOrdinal_emd. Qed.
Print Assumptions C56_ACOrdinal.

Theorem C56_PDFOrdinaly : forall N fuel cvx n_bins meth y preds m bags bag (F : nat -> nat -> R) t p,
  exact_cvx cvx -> PDFO_fit N fuel n_bins OEMD meth y preds = Val m ->
  let classes := np_unique y in
  let n := length classes in
  let bins := (n_bins * (n - 1))%nat in
  distributions n preds -> distributions n bag -> bag <> [] ->
  (forall k c, (k < bins)%nat -> (c < n)%nat ->
     fraction_in (in_bin (score_edges n_bins n) k)
       (map (pdfo_score meth n) (select (nth c classes 0%Z) (y_ext y (length preds)) preds)) (F k c)) ->
  length t = bins ->
  (forall k, (k < bins)%nat ->
     fraction_in (in_bin (score_edges n_bins n) k) (map (pdfo_score meth n) bag) (nth k t 0)) ->
  snd (PDFO_predict N cvx OEMD (after_predictions N cvx (Named L1) 0 m bags) bag) = Val (Some p) ->
  emd_best n (mixture bins n F) t p.
Proof. exact PDFO_emd. Qed.
Print Assumptions C56_PDFOrdinaly.

(** The fractions that the last theorem takes always exist: [C55_histograms].  A prediction exists: *)
Example C56_hypotheses : exists m m',
  ACOrdinal_fit example_numerics 1 [0; 1; 2]%Z [0; 1; 2]%Z = Val m /\
  snd (ACOrdinal_predict example_numerics ideal_cvx m [0; 1; 1; 2]%Z) = Val [1/4; 1/2; 1/4] /\
  PDFO_fit example_numerics 1 2 OEMD WinnerNode [0; 1; 2]%Z [[1; 0; 0]; [0; 1; 0]; [0; 0; 1]] = Val m' /\
  snd (PDFO_predict example_numerics ideal_cvx OEMD m' [[1; 0; 0]; [0; 1; 0]; [0; 1; 0]; [0; 0; 1]]) =
    Val (Some [1/4; 1/2; 1/4]).
Proof.
  destruct (aco_facts example_numerics 1) as (m & Hm & Im).
  destruct (or_facts example_numerics 1 OEMD WinnerNode ltac:(discriminate)) as (m' & Hm' & Im').
  assert (QE : exact_qp (solve_qp example_numerics)) by apply ideal_qp_exact.
  assert (QA : answering_qp (solve_qp example_numerics)) by (intros n m0 G a C b meq; apply ideal_qp_answers).
  assert (CA : answering_cvx ideal_cvx) by (intros w n f x; apply ideal_cvx_answers).
  exists m, m'. split; [exact Hm|]. split; [|split; [exact Hm'|]].
  - rewrite <- (proj2 aco_copies).
    apply (C52_ACOrdinal example_numerics 1 ideal_cvx _ _ m [] _ _ ideal_cvx_exact QE); auto.
    + discriminate.
    + apply aco_copies.
    + discriminate.
  - rewrite <- (proj2 or_copies).
    apply (C52_PDFOrdinaly example_numerics 1 ideal_cvx 2 OEMD WinnerNode _ _ m' [] _ _ ideal_cvx_exact QE); auto.
    + discriminate.
    + apply or_distributions.
    + apply or_copies.
    + discriminate.
Qed.

(** ** C78 *)

Theorem C78_DFy : forall ppf N fuel cvx kind nb strat crit tol y preds m bags bag bag',
  DFy_fit ppf N fuel kind nb strat crit y preds = Val m ->
  Permutation bag bag' \/ (exists k, (0 < k)%nat /\ bag' = repeated k bag) ->
  matching_predict N cvx crit tol (after_predictions N cvx crit tol m bags) bag' =
  matching_predict N cvx crit tol (after_predictions N cvx crit tol m bags) bag.
Proof. exact DFy_same_bag. Qed.
Print Assumptions C78_DFy.

Theorem C78_DFX : forall ppf N fuel cvx kind nb strat crit tol y k X m bags bag bag',
  DFX_fit ppf N fuel kind nb strat crit y k X = Val m ->
  Permutation bag bag' \/ (exists k, (0 < k)%nat /\ bag' = repeated k bag) ->
  matching_predict N cvx crit tol (after_predictions N cvx crit tol m bags) bag' =
  matching_predict N cvx crit tol (after_predictions N cvx crit tol m bags) bag.
Proof. exact DFX_same_bag. Qed.
Print Assumptions C78_DFX.

Theorem C78_FriedmanME : forall N fuel cvx crit tol y preds m bags bag bag',
  FriedmanME_fit N fuel crit y preds = Val m ->
  Permutation bag bag' \/ (exists k, (0 < k)%nat /\ bag' = repeated k bag) ->
  matching_predict N cvx crit tol (after_predictions N cvx crit tol m bags) bag' =
  matching_predict N cvx crit tol (after_predictions N cvx crit tol m bags) bag.
Proof. exact Friedman_same_bag. Qed.
Print Assumptions C78_FriedmanME.

Theorem C78_PDFOrdinaly : forall N fuel cvx n_bins d meth y preds m bags bag bag',
  PDFO_fit N fuel n_bins d meth y preds = Val m ->
  Permutation bag bag' \/ (exists k, (0 < k)%nat /\ bag' = repeated k bag) ->
  let m' := after_predictions N cvx (pdfo_criterion d) 0 m bags in
  PDFO_predict N cvx d m' bag' = PDFO_predict N cvx d m' bag.
Proof. exact PDFO_same_bag. Qed.
Print Assumptions C78_PDFOrdinaly.

Theorem C78_ACOrdinal : forall N fuel cvx y preds m bags bag bag',
  ACOrdinal_fit N fuel y preds = Val m ->
  Permutation bag bag' \/ (exists k, (0 < k)%nat /\ bag' = repeated k bag) ->
  let m' := after_predictions N cvx (Named L1) 0 m bags in
  ACOrdinal_predict N cvx m' bag' = ACOrdinal_predict N cvx m' bag.
Proof. exact ACOrdinal_same_bag. Qed.
Print Assumptions C78_ACOrdinal.

(** The fits of [C51_hypotheses] and [C52_hypotheses] succeed; two bags: *)
Example C78_hypotheses :
  Permutation [[1; 0; 0]; [0; 1; 0]; [0; 0; 1]] [[0; 0; 1]; [1; 0; 0]; [0; 1; 0]] /\
  repeated 2 [0; 1]%Z = [0; 0; 1; 1]%Z.
Proof.
  split; [|reflexivity].
  apply (Permutation_app_comm [[1; 0; 0]; [0; 1; 0]] [[0; 0; 1]]).
Qed.

(** ** C79 *)

(** A training set with the predictions of [r] repetitions, as a list of labels with their
    predictions. *)
Theorem C79_DFy : forall ppf N fuel kind nb strat crit r (tr tr' : list (Z * (nat -> list R))),
  Permutation tr tr' ->
  DFy_fit ppf N fuel kind nb strat crit (labels_of tr) (predictions_of r tr) =
  DFy_fit ppf N fuel kind nb strat crit (labels_of tr') (predictions_of r tr').
Proof. exact DFy_fit_perm. Qed.
Print Assumptions C79_DFy.

Theorem C79_DFX : forall ppf N fuel kind nb strat crit k (tr tr' : list (Z * list R)),
  Permutation tr tr' ->
  DFX_fit ppf N fuel kind nb strat crit (map fst tr) k (map snd tr) =
  DFX_fit ppf N fuel kind nb strat crit (map fst tr') k (map snd tr').
Proof. exact DFX_fit_perm. Qed.
Print Assumptions C79_DFX.

Theorem C79_FriedmanME : forall N fuel crit r (tr tr' : list (Z * (nat -> list R))), Permutation tr tr' ->
  FriedmanME_fit N fuel crit (labels_of tr) (predictions_of r tr) =
  FriedmanME_fit N fuel crit (labels_of tr') (predictions_of r tr').
Proof. exact Friedman_fit_perm. Qed.
Print Assumptions C79_FriedmanME.

Theorem C79_PDFOrdinaly : forall N fuel nb d meth r (tr tr' : list (Z * (nat -> list R))), Permutation tr tr' ->
  PDFO_fit N fuel nb d meth (labels_of tr) (predictions_of r tr) =
  PDFO_fit N fuel nb d meth (labels_of tr') (predictions_of r tr').
Proof. exact PDFO_fit_perm. Qed.
Print Assumptions C79_PDFOrdinaly.

Theorem C79_ACOrdinal : forall N fuel r (tr tr' : list (Z * (nat -> Z))), Permutation tr tr' ->
  ACOrdinal_fit N fuel (labels_of tr) (predictions_of r tr) =
  ACOrdinal_fit N fuel (labels_of tr') (predictions_of r tr').
Proof. exact ACOrdinal_fit_perm. Qed.
Print Assumptions C79_ACOrdinal.

Example C79_hypotheses :
  let a := (0%Z, fun _ : nat => [9/10; 1/10]) in
  let b := (1%Z, fun _ : nat => [1/5; 4/5]) in
  Permutation [a; b] [b; a] /\ labels_of [a; b] = [0; 1]%Z /\
  predictions_of 1 [a; b] = [[9/10; 1/10]; [1/5; 4/5]].
Proof. cbn zeta. split; [apply perm_swap|]. split; reflexivity. Qed.

(** ** C80 *)

Theorem C80_DFy : forall ppf N fuel cvx kind nb strat dist tol y preds m bags bag p,
  exact_cvx cvx -> exact_qp (solve_qp N) ->
  DFy_fit ppf N fuel kind nb strat (Named dist) y preds = Val m ->
  snd (matching_predict N cvx (Named dist) tol (after_predictions N cvx (Named dist) tol m bags) bag) = Val p ->
  distribution_over (length (np_unique y)) p.
Proof. exact DFy_one_each. Qed.
Print Assumptions C80_DFy.

Theorem C80_DFX : forall ppf N fuel cvx kind nb strat dist tol y k X m bags bag p,
  exact_cvx cvx -> exact_qp (solve_qp N) ->
  DFX_fit ppf N fuel kind nb strat (Named dist) y k X = Val m ->
  snd (matching_predict N cvx (Named dist) tol (after_predictions N cvx (Named dist) tol m bags) bag) = Val p ->
  distribution_over (length (np_unique y)) p.
Proof. exact DFX_one_each. Qed.
Print Assumptions C80_DFX.

Theorem C80_FriedmanME : forall N fuel cvx dist tol y preds m bags bag p,
  exact_cvx cvx -> exact_qp (solve_qp N) ->
  FriedmanME_fit N fuel (Named dist) y preds = Val m ->
  snd (matching_predict N cvx (Named dist) tol (after_predictions N cvx (Named dist) tol m bags) bag) = Val p ->
  distribution_over (length (np_unique y)) p.
Proof. exact Friedman_one_each. Qed.
Print Assumptions C80_FriedmanME.

Theorem C80_PDFOrdinaly : forall N fuel cvx n_bins d meth y preds m bags bag p,
  exact_cvx cvx -> exact_qp (solve_qp N) -> d <> OtherOrdinalDistance ->
  PDFO_fit N fuel n_bins d meth y preds = Val m ->
  snd (PDFO_predict N cvx d (after_predictions N cvx (pdfo_criterion d) 0 m bags) bag) = Val (Some p) ->
  distribution_over (length (np_unique y)) p.
Proof. exact PDFO_one_each. Qed.
Print Assumptions C80_PDFOrdinaly.

Theorem C80_ACOrdinal : forall N fuel cvx y preds m bags bag p,
  exact_cvx cvx -> exact_qp (solve_qp N) -> y <> [] -> (forall z, In z preds -> In z y) ->
  ACOrdinal_fit N fuel y preds = Val m ->
  snd (ACOrdinal_predict N cvx (after_predictions N cvx (Named L1) 0 m bags) bag) = Val p ->
  distribution_over (length (np_unique y)) p.
Proof. exact ACOrdinal_one_each. Qed.
Print Assumptions C80_ACOrdinal.

(** With a function as distance the result has two prevalences, however many classes there are. *)
Theorem C80_function_refuted : forall N cvx f tol (m : matcher (list (list R))) bag p, 0 < tol ->
  snd (matching_predict N cvx (Callable f) tol m bag) = Val p -> distribution_over 2 p.
Proof. exact callable_two. Qed.
Print Assumptions C80_function_refuted.

(** A distance that PDFOrdinaly does not know gives None. *)
Theorem C80_unknown_refuted : forall N fuel cvx n_bins meth y preds m bag t,
  PDFO_fit N fuel n_bins OtherOrdinalDistance meth y preds = Val m -> mt_represent m bag = Val t ->
  snd (PDFO_predict N cvx OtherOrdinalDistance m bag) = Val None.
Proof. exact PDFO_unknown. Qed.
Print Assumptions C80_unknown_refuted.

(** The result of [C56_hypotheses] is a distribution over three classes. *)
Example C80_hypotheses : distribution_over (length (np_unique [0; 1; 2]%Z)) [1/4; 1/2; 1/4].
Proof.
  split; [reflexivity|]. split; [|simpl; lra]. repeat (apply Forall_cons; [lra|]). apply Forall_nil.
Qed.

(** ** C81 *)

Theorem C81_DFy : forall ppf N fuel cvx kind nb strat dist tol y preds m bags bag p,
  exact_cvx cvx -> exact_qp (solve_qp N) -> (dist = HD -> kind = PDF) ->
  (dist = L2 -> independent_columns (mt_bins m) (mt_classes m) (mt_T m)) ->
  y <> [] -> strat = EqualWidth \/ strat = EqualCount ->
  DFy_fit ppf N fuel kind nb strat (Named dist) y preds = Val m ->
  snd (matching_predict N cvx (Named dist) tol (after_predictions N cvx (Named dist) tol m bags) bag) = Val p ->
  exists t, mt_represent m bag = Val t /\ best_for dist (mt_bins m) (mt_classes m) (mt_T m) t p.
Proof. exact DFy_best. Qed.
Print Assumptions C81_DFy.

Theorem C81_DFX : forall ppf N fuel cvx kind nb strat dist tol y k X m bags bag p,
  exact_cvx cvx -> exact_qp (solve_qp N) -> (dist = HD -> kind = PDF) ->
  (dist = L2 -> independent_columns (mt_bins m) (mt_classes m) (mt_T m)) ->
  y <> [] -> (0 < k)%nat -> strat = EqualWidth \/ strat = EqualCount ->
  DFX_fit ppf N fuel kind nb strat (Named dist) y k X = Val m ->
  snd (matching_predict N cvx (Named dist) tol (after_predictions N cvx (Named dist) tol m bags) bag) = Val p ->
  exists t, mt_represent m bag = Val t /\ best_for dist (mt_bins m) (mt_classes m) (mt_T m) t p.
Proof. exact DFX_best. Qed.
Print Assumptions C81_DFX.

Theorem C81_FriedmanME : forall N fuel cvx dist tol y preds m bags bag p,
  exact_cvx cvx -> exact_qp (solve_qp N) -> dist <> HD ->
  (dist = L2 -> independent_columns (mt_bins m) (mt_classes m) (mt_T m)) ->
  FriedmanME_fit N fuel (Named dist) y preds = Val m ->
  snd (matching_predict N cvx (Named dist) tol (after_predictions N cvx (Named dist) tol m bags) bag) = Val p ->
  exists t, mt_represent m bag = Val t /\ best_for dist (mt_bins m) (mt_classes m) (mt_T m) t p.
Proof. exact Friedman_best. Qed.
Print Assumptions C81_FriedmanME.

(** What FriedmanME compares: for each class, the fraction of the examples to which the classifier
    gives at least the prevalence that the class has in the training set. *)
Theorem C81_FriedmanME_fractions : forall N fuel crit y preds m,
  FriedmanME_fit N fuel crit y preds = Val m ->
  let classes := np_unique y in
  let n := length classes in
  mt_bins m = n /\
  (forall r c, (r < n)%nat -> (c < n)%nat ->
     fraction_in (fun row => fraction (nth r classes 0%Z) y <= nth r row 0)
       (select (nth c classes 0%Z) (y_ext y (length preds)) preds) (mt_T m r c)) /\
  forall cvx tol bags bag, bag <> [] ->
    exists t, mt_represent (after_predictions N cvx crit tol m bags) bag = Val t /\ length t = n /\
      forall r, (r < n)%nat ->
        fraction_in (fun row => fraction (nth r classes 0%Z) y <= nth r row 0) bag (nth r t 0).
Proof. exact Friedman_columns. Qed.
Print Assumptions C81_FriedmanME_fractions.

Theorem C81_PDFOrdinaly : forall N fuel cvx n_bins d meth y preds m bags bag p,
  exact_cvx cvx -> exact_qp (solve_qp N) -> d <> OtherOrdinalDistance ->
  distributions (length (np_unique y)) preds ->
  (d = OL2 -> independent_columns (mt_bins m) (mt_classes m) (mt_T m)) ->
  PDFO_fit N fuel n_bins d meth y preds = Val m ->
  snd (PDFO_predict N cvx d (after_predictions N cvx (pdfo_criterion d) 0 m bags) bag) = Val (Some p) ->
  exists t dist, pdfo_criterion d = Named dist /\
    mt_represent m bag = Val t /\ best_for dist (mt_bins m) (mt_classes m) (mt_T m) t p.
Proof. exact PDFO_best. Qed.
Print Assumptions C81_PDFOrdinaly.

(** A prediction by DFy with the Hellinger distance exists. *)
Example C81_hypotheses : exists m,
  DFy_fit (fun p => p) example_numerics 1 PDF 2 EqualWidth (Named HD) [0; 1]%Z [[9/10; 1/10]; [1/5; 4/5]] = Val m /\
  snd (matching_predict example_numerics ideal_cvx (Named HD) 0 m [[9/10; 1/10]; [1/5; 4/5]]) = Val [1/2; 1/2].
Proof.
  destruct C52_hypotheses as (CX & CA & QX & QA & (m & Hm & Im) & _).
  exists m. split; [exact Hm|]. rewrite <- (proj2 ex_copies).
  apply (C52_DFy (fun p => p) example_numerics 1 ideal_cvx PDF 2 EqualWidth HD 0 [0; 1]%Z ex_preds m []
    [1%nat; 1%nat] ex_preds CX QX); auto.
  - discriminate.
  - discriminate.
  - apply ex_copies.
  - discriminate.
Qed.

(** ** C82 *)

(** Two classes and a function as distance whose loss has one minimum. *)
Theorem C82_DFy : forall ppf N fuel cvx kind nb strat f tol y preds m bags bag t best,
  DFy_fit ppf N fuel kind nb strat (Callable f) y preds = Val m -> length (np_unique y) = 2%nat ->
  mt_represent m bag = Val t -> 0 < tol <= 1/100 ->
  strictly_unimodal (two_class_loss f m t) 0 1 best ->
  best <= 98/100 \/ two_class_loss f m t 1 < two_class_loss f m t 0 ->
  exists p, snd (matching_predict N cvx (Callable f) tol
                   (after_predictions N cvx (Callable f) tol m bags) bag) = Val [1 - p; p] /\
    Rabs (p - best) <= 2 * tol.
Proof. exact DFy_function_best. Qed.
Print Assumptions C82_DFy.

Theorem C82_DFX : forall ppf N fuel cvx kind nb strat f tol y k X m bags bag t best,
  DFX_fit ppf N fuel kind nb strat (Callable f) y k X = Val m -> length (np_unique y) = 2%nat ->
  mt_represent m bag = Val t -> 0 < tol <= 1/100 ->
  strictly_unimodal (two_class_loss f m t) 0 1 best ->
  best <= 98/100 \/ two_class_loss f m t 1 < two_class_loss f m t 0 ->
  exists p, snd (matching_predict N cvx (Callable f) tol
                   (after_predictions N cvx (Callable f) tol m bags) bag) = Val [1 - p; p] /\
    Rabs (p - best) <= 2 * tol.
Proof. exact DFX_function_best. Qed.
Print Assumptions C82_DFX.

Theorem C82_FriedmanME : forall N fuel cvx f tol y preds m bags bag t best,
  FriedmanME_fit N fuel (Callable f) y preds = Val m -> length (np_unique y) = 2%nat ->
  mt_represent m bag = Val t -> 0 < tol <= 1/100 ->
  strictly_unimodal (two_class_loss f m t) 0 1 best ->
  best <= 98/100 \/ two_class_loss f m t 1 < two_class_loss f m t 0 ->
  exists p, snd (matching_predict N cvx (Callable f) tol
                   (after_predictions N cvx (Callable f) tol m bags) bag) = Val [1 - p; p] /\
    Rabs (p - best) <= 2 * tol.
Proof. exact Friedman_function_best. Qed.
Print Assumptions C82_FriedmanME.

(** The sum of the absolute differences is such a function for a bag made of training examples. *)
Theorem C82_DFy_recovers : forall ppf N fuel cvx kind nb strat tol y preds m bags ks bag,
  y <> [] -> strat = EqualWidth \/ strat = EqualCount ->
  DFy_fit ppf N fuel kind nb strat (Callable sum_of_differences) y preds = Val m ->
  length (np_unique y) = 2%nat -> identifiable (mt_bins m) (mt_classes m) (mt_T m) -> 0 < tol <= 1/100 ->
  let samples := class_samples (np_unique y) (y_ext y (length preds)) preds in
  copies_of ks samples bag -> bag <> [] ->
  exists p, snd (matching_predict N cvx (Callable sum_of_differences) tol
                   (after_predictions N cvx (Callable sum_of_differences) tol m bags) bag) = Val [1 - p; p] /\
    Rabs (p - nth 1 (copies_prevalences ks samples bag) 0) <= 2 * tol.
Proof. exact DFy_function_recovers. Qed.
Print Assumptions C82_DFy_recovers.

Theorem C82_DFX_recovers : forall ppf N fuel cvx kind nb strat tol y k X m bags ks bag,
  y <> [] -> (0 < k)%nat -> strat = EqualWidth \/ strat = EqualCount ->
  DFX_fit ppf N fuel kind nb strat (Callable sum_of_differences) y k X = Val m ->
  length (np_unique y) = 2%nat -> identifiable (mt_bins m) (mt_classes m) (mt_T m) -> 0 < tol <= 1/100 ->
  let samples := class_samples (np_unique y) y X in
  copies_of ks samples bag -> bag <> [] ->
  exists p, snd (matching_predict N cvx (Callable sum_of_differences) tol
                   (after_predictions N cvx (Callable sum_of_differences) tol m bags) bag) = Val [1 - p; p] /\
    Rabs (p - nth 1 (copies_prevalences ks samples bag) 0) <= 2 * tol.
Proof. exact DFX_function_recovers. Qed.
Print Assumptions C82_DFX_recovers.

Theorem C82_FriedmanME_recovers : forall N fuel cvx tol y preds m bags ks bag,
  FriedmanME_fit N fuel (Callable sum_of_differences) y preds = Val m ->
  length (np_unique y) = 2%nat -> identifiable (mt_bins m) (mt_classes m) (mt_T m) -> 0 < tol <= 1/100 ->
  let samples := class_samples (np_unique y) (y_ext y (length preds)) preds in
  copies_of ks samples bag -> bag <> [] ->
  exists p, snd (matching_predict N cvx (Callable sum_of_differences) tol
                   (after_predictions N cvx (Callable sum_of_differences) tol m bags) bag) = Val [1 - p; p] /\
    Rabs (p - nth 1 (copies_prevalences ks samples bag) 0) <= 2 * tol.
Proof. exact Friedman_function_recovers. Qed.
Print Assumptions C82_FriedmanME_recovers.

(** Fits with that function and a bag with prevalences 1/2. *)
Example C82_hypotheses :
  (exists m, DFy_fit (fun p => p) example_numerics 1 CDF 2 EqualWidth (Callable sum_of_differences) [0; 1]%Z
      [[9/10; 1/10]; [1/5; 4/5]] = Val m /\ identifiable (mt_bins m) (mt_classes m) (mt_T m)) /\
  (exists m, DFX_fit (fun p => p) example_numerics 1 PDF 2 EqualWidth (Callable sum_of_differences) [0; 1]%Z 1
      [[1]; [0]] = Val m /\ identifiable (mt_bins m) (mt_classes m) (mt_T m)) /\
  (exists m, FriedmanME_fit example_numerics 1 (Callable sum_of_differences) [0; 1]%Z
      [[9/10; 1/10]; [1/2; 1/2]] = Val m /\ identifiable (mt_bins m) (mt_classes m) (mt_T m)) /\
  let samples := class_samples (np_unique [0; 1]%Z) [0; 1]%Z [[1]; [0]] in
  copies_of [1%nat; 1%nat] samples [[1]; [0]] /\ copies_prevalences [1%nat; 1%nat] samples [[1]; [0]] = [1/2; 1/2].
Proof.
  split; [eexists; split; [apply (ex_fit (fun p => p) example_numerics 1 CDF)|apply (ex_identifiable 0 1); lra]|].
  split; [eexists; split; [apply (ex_fit_X (fun p => p) example_numerics 1 PDF)|apply (ex_identifiable 0 1); lra]|].
  split; [eexists; split; [apply (fr_fit example_numerics 1)|apply (ex_identifiable 0 1); lra]|].
  exact ex_X_copies.
Qed.
