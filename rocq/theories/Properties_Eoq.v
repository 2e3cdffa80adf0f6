(** * Properties of the ensembles of quantifiers EoQ (C58-C60, C89-C92).

    [trained b p X y preds q]: [q] is an ensemble of base quantifiers [b] with parameters [p] after
    fit(X, y, predictions_train=preds).  [members_answer b q X' preds' answers]: for the test bag, member [i]
    predicts row [i] of [answers].  [argsort] and [distance] are numpy's argsort and the metric. *)

From Coq Require Import Reals List ZArith Lra Lia Permutation.
From Verif Require Import Num Spec L_Num M_Bags Spec_Bags L_Bags2 L_Bags3 M_Match Spec_Match L_Match10 M_Reg Spec_Reg L_Reg6
  M_Eoq Spec_Eoq L_Eoq3 L_Eoq4 L_Eoq5 L_Eoq6 L_Eoq7 L_Eoq8 L_Cuts.
Import ListNotations.
Open Scope R_scope.

(** ** C58 *)

Theorem C58_mean : forall Q argsort distance (b : base Q) p X y preds q k' X' preds' answers,
  trained b p X y preds q -> members_answer b q X' preds' answers -> distributions (length (np_unique y)) answers ->
  (0 < ep_n p)%nat -> ep_combination p = CMean ->
  exists r, EoQ_predict argsort distance b p q k' X' preds' = Val (Vector r) /\
    average_answer (length (np_unique y)) answers (seq 0 (ep_n p)) r /\ distribution_over (length (np_unique y)) r.
Proof. exact mean_after_fit. Qed.
Print Assumptions C58_mean.

(** The medians divided by their sum; NaN when all the medians are 0. *)
Theorem C58_median : forall Q argsort distance (b : base Q) p X y preds q k' X' preds' answers,
  trained b p X y preds q -> members_answer b q X' preds' answers -> distributions (length (np_unique y)) answers ->
  forall m, (0 < ep_n p)%nat -> ep_combination p = CMedian -> medians (length (np_unique y)) answers m ->
  (rsum m = 0 -> EoQ_predict argsort distance b p q k' X' preds' = NotANumber) /\
  (rsum m <> 0 -> EoQ_predict argsort distance b p q k' X' preds' = Val (Vector (vdiv m (rsum m))) /\
                  distribution_over (length (np_unique y)) (vdiv m (rsum m))).
Proof. exact median_after_fit. Qed.
Print Assumptions C58_median.

(** With two classes the medians are already a distribution. *)
Theorem C58_median_two : forall Q argsort distance (b : base Q) p X y preds q k' X' preds' answers,
  trained b p X y preds q -> members_answer b q X' preds' answers -> distributions (length (np_unique y)) answers ->
  forall m, (0 < ep_n p)%nat -> ep_combination p = CMedian -> length (np_unique y) = 2%nat -> medians 2 answers m ->
  EoQ_predict argsort distance b p q k' X' preds' = Val (Vector m) /\ distribution_over 2 m.
Proof. exact median_two_after_fit. Qed.
Print Assumptions C58_median_two.

(** Three members that answer the three corners: the median strategy returns NaN. *)
Theorem C58_median_always_refuted : exists q,
  trained (prior_using 3) (ep3 CMedian) [] [0; 1; 2]%Z (Crisp [0; 1; 2]%Z) q /\
  (forall X ps, members_answer (prior_using 3) q X (Crisp ps) [[1; 0; 0]; [0; 1; 0]; [0; 0; 1]]) /\
  distributions 3 [[1; 0; 0]; [0; 1; 0]; [0; 0; 1]] /\
  forall argsort distance k X ps, EoQ_predict argsort distance (prior_using 3) (ep3 CMedian) q k X (Crisp ps) = NotANumber.
Proof.
  exists corner_q. split; [exact (corner_trained CMedian)|]. split; [exact corner_answers|]. split; [exact corner_distributions|exact corner_nan].
Qed.
Print Assumptions C58_median_always_refuted.

(** prevalence_similarity: the average of the members closest to the average prediction. *)
Theorem C58_prevalence_similarity : forall Q argsort distance (b : base Q) p X y preds q k' X' preds' answers,
  trained b p X y preds q -> members_answer b q X' preds' answers -> distributions (length (np_unique y)) answers ->
  forall avg, sorts argsort -> ep_combination p = PrevalenceSimilarity ->
  1 / 2 < INR (ep_n p) * ep_percentage p ->
  average_answer (length (np_unique y)) answers (seq 0 (ep_n p)) avg ->
  exists n_sel sel r, EoQ_predict argsort distance b p q k' X' preds' = Val (Vector r) /\
    Rabs (INR n_sel - INR (ep_n p) * ep_percentage p) <= 1 / 2 /\ (1 <= n_sel)%nat /\
    closest (fun i => mae (length (np_unique y)) (nth i answers []) avg) (ep_n p) (Nat.min (ep_n p) n_sel) sel /\
    average_answer (length (np_unique y)) answers sel r /\ distribution_over (length (np_unique y)) r.
Proof. exact prevalence_after_fit. Qed.
Print Assumptions C58_prevalence_similarity.

(** distribution_similarity: the average of the members whose stored distribution is closest to the
    histogram of the test bag. *)
Theorem C58_distribution_similarity : forall Q argsort distance (b : base Q) p X y preds q k' X' preds' answers,
  trained b p X y preds q -> members_answer b q X' preds' answers -> distributions (length (np_unique y)) answers ->
  forall rows, sorts argsort ->
  match b with Using _ _ => (forall l, preds <> Crisp l) | _ => True end ->
  ep_combination p = DistributionSimilarity -> 1 / 2 < INR (ep_n p) * ep_percentage p ->
  test_bag b q k' X' preds' rows ->
  exists t n_sel sel r, EoQ_predict argsort distance b p q k' X' preds' = Val (Vector r) /\
    bin_counts (ep_bins p) (eq_cuts q) (length rows) rows t /\
    Rabs (INR n_sel - INR (ep_n p) * ep_percentage p) <= 1 / 2 /\ (1 <= n_sel)%nat /\
    closest (fun i => distance t (nth i (eq_distributions q) [])) (ep_n p) (Nat.min (ep_n p) n_sel) sel /\
    average_answer (length (np_unique y)) answers sel r /\ distribution_over (length (np_unique y)) r.
Proof. exact distribution_after_fit. Qed.
Print Assumptions C58_distribution_similarity.

(** When the number of members times the percentage is at most 1/2 none is selected: there is no result. *)
Theorem C58_none_selected : forall Q argsort distance (b : base Q) p X y preds q k' X' preds' answers,
  trained b p X y preds q -> members_answer b q X' preds' answers -> distributions (length (np_unique y)) answers ->
  sorts argsort -> ep_combination p = PrevalenceSimilarity \/ ep_combination p = DistributionSimilarity ->
  (0 < ep_n p)%nat -> 0 <= INR (ep_n p) * ep_percentage p <= 1 / 2 ->
  forall r, EoQ_predict argsort distance b p q k' X' preds' <> Val r.
Proof. exact nothing_after_fit. Qed.
Print Assumptions C58_none_selected.

(** 'all' returns the four results and their average, and the strategy has no effect on fit. *)
Theorem C58_all : forall Q argsort distance (b : base Q) p X y preds q k X' preds' m0 m1 m2 m3,
  trained b p X y preds q ->
  EoQ_predict argsort distance b (with_strategy CMean p) q k X' preds' = Val (Vector m0) ->
  EoQ_predict argsort distance b (with_strategy CMedian p) q k X' preds' = Val (Vector m1) ->
  EoQ_predict argsort distance b (with_strategy PrevalenceSimilarity p) q k X' preds' = Val (Vector m2) ->
  EoQ_predict argsort distance b (with_strategy DistributionSimilarity p) q k X' preds' = Val (Vector m3) ->
  distribution_over (length (np_unique y)) m0 -> distribution_over (length (np_unique y)) m1 ->
  distribution_over (length (np_unique y)) m2 -> distribution_over (length (np_unique y)) m3 ->
  exists m, EoQ_predict argsort distance b (with_strategy AllStrategies p) q k X' preds' =
              Val (Dictionary (Val m0) (Val m1) (Val m2) (Val m3) (Val m)) /\
    (forall c, (c < length (np_unique y))%nat -> nth c m 0 = (nth c m0 0 + nth c m1 0 + nth c m2 0 + nth c m3 0) / 4) /\
    distribution_over (length (np_unique y)) m.
Proof. intros Q. exact all_after_fit. Qed.
Print Assumptions C58_all.

Theorem C58_strategy_at_fit : forall Q (b : base Q) c p X y preds q,
  trained b (with_strategy c p) X y preds q <-> trained b p X y preds q.
Proof. intros Q. exact trained_any_strategy. Qed.
Print Assumptions C58_strategy_at_fit.

(** Two classes and two members with bags of one class each. *)
Example C58_hypotheses : forall c,
  trained (prior_using 2) (ep2 c (1/2)) [] [0; 1]%Z (Soft [[1; 0]; [0; 1]]) pair_q /\
  (forall X rows, members_answer (prior_using 2) pair_q X (Soft rows) [[1; 0]; [0; 1]]) /\
  distributions (length (np_unique [0; 1]%Z)) [[1; 0]; [0; 1]] /\ (0 < ep_n (ep2 c (1/2)))%nat /\
  medians 2 [[1; 0]; [0; 1]] [1/2; 1/2] /\ average_answer 2 [[1; 0]; [0; 1]] (seq 0 2) [1/2; 1/2] /\
  sorts insertion_argsort /\ 1 / 2 < INR (ep_n (ep2 c (1/2))) * ep_percentage (ep2 c (1/2)) /\
  test_bag (prior_using 2) pair_q 0 [] (Soft [[0; 1]]) [[0; 1]].
Proof.
  intros c. split; [apply pair_trained|]. split; [apply pair_answers|]. split; [apply pair_distributions|]. split; [cbn; lia|].
  split; [apply pair_medians|]. split; [apply pair_average|]. split; [apply insertion_sorts|]. split; [cbn; lra|]. apply pair_test.
Qed.

(** ** C59 *)

(** Every stored distribution describes the whole training set, whatever the bags. *)
Theorem C59_whole_without : forall S Q (B : settable S) ppf fit predict p k X y preds given g (q : eoq Q) g',
  EoQ_fit B ppf (Without fit predict) p k X y preds given g = Some (Val q, g') ->
  length (eq_distributions q) = ep_n p /\
  Forall (bin_counts (ep_bins p) (eq_cuts q) (length X) X) (eq_distributions q).
Proof. intros S Q. exact without_whole. Qed.
Print Assumptions C59_whole_without.

Theorem C59_whole_using : forall S Q (B : settable S) ppf fit predict p k X y preds given g (q : eoq Q) g' rows,
  EoQ_fit B ppf (Using fit predict) p k X y preds given g = Some (Val q, g') ->
  describes (length (np_unique y)) preds rows ->
  length (eq_distributions q) = ep_n p /\
  Forall (bin_counts (ep_bins p) (eq_cuts q) (length rows) rows) (eq_distributions q).
Proof. intros S Q. exact using_whole. Qed.
Print Assumptions C59_whole_using.

(** So the same members are selected for every test bag. *)
Theorem C59_same_selection : forall Q argsort distance (b : base Q) p X y preds q, sorts argsort -> only_compares argsort ->
  match b with Using _ _ => (forall l, preds <> Crisp l) | _ => True end ->
  trained b p X y preds q ->
  ep_combination p = DistributionSimilarity -> 1 / 2 < INR (ep_n p) * ep_percentage p ->
  exists sel, sel <> [] /\ NoDup sel /\ Forall (fun i => (i < ep_n p)%nat) sel /\
    forall k' X' preds' rows answers, test_bag b q k' X' preds' rows -> members_answer b q X' preds' answers ->
      distributions (length (np_unique y)) answers ->
      exists r, EoQ_predict argsort distance b p q k' X' preds' = Val (Vector r) /\
        average_answer (length (np_unique y)) answers sel r.
Proof. intros Q. exact same_selection. Qed.
Print Assumptions C59_same_selection.

(** A row that does not describe its bag; and for a test bag equal to the second training bag, the member
    of the first bag is selected, whatever the distance. *)
Theorem C59_bags_refuted : exists q : eoq (list R),
  trained (prior_using 2) (ep2 DistributionSimilarity (1/2)) [] [0; 1]%Z (Soft [[1; 0]; [0; 1]]) q /\
  map snd (eq_bags q) = [[0; 0]; [1; 1]]%nat /\
  (exists i row, nth_error (eq_distributions q) i = Some row /\
     ~ bin_counts 2 (eq_cuts q) 2 (examples [[1; 0]; [0; 1]] [1; 1]%nat) row /\
     nth_error (map snd (eq_bags q)) i = Some [1; 1]%nat) /\
  members_answer (prior_using 2) q [] (Soft (examples [[1; 0]; [0; 1]] [1; 1]%nat)) [[1; 0]; [0; 1]] /\
  forall distance,
    EoQ_predict insertion_argsort distance (prior_using 2) (ep2 DistributionSimilarity (1/2)) q 0 []
      (Soft (examples [[1; 0]; [0; 1]] [1; 1]%nat)) = Val (Vector [1; 0]).
Proof.
  exists pair_q. split; [apply pair_trained|]. split; [reflexivity|]. split; [exact bags_not_described|].
  split; [apply pair_answers|exact far_bag_selected].
Qed.
Print Assumptions C59_bags_refuted.

Example C59_hypotheses : sorts insertion_argsort /\ only_compares insertion_argsort /\
  (forall l, Soft [[1; 0]; [0; 1]] <> Crisp l) /\ describes 2 (Soft [[1; 0]; [0; 1]]) [[1; 0]; [0; 1]] /\
  (exists q : eoq (list R), EoQ_fit no_generator (fun x => x) (prior_using 2) (ep2 CMean 1) 0 [] [0; 1]%Z
     (Soft [[1; 0]; [0; 1]]) (Some two_bags) tt = Some (Val q, tt)) /\
  exists q : eoq (list R), EoQ_fit no_generator (fun x => x) (prior_base 2)
     {| ep_n := 2; ep_combination := CMean; ep_function := PDF; ep_bins := 100; ep_strategy := EqualWidth; ep_percentage := 1 |}
     1 [[0]; [1]] [0; 1]%Z (Soft []) (Some two_bags) tt = Some (Val q, tt).
Proof.
  split; [exact insertion_sorts|]. split; [exact insertion_compares|]. split; [discriminate|]. split; [reflexivity|].
  split; [eexists; exact (pair_fit CMean 1 (fun x => x))|].
  apply (without_works no_generator); try reflexivity; try discriminate.
  - repeat (apply Forall_cons; [repeat (apply Forall_cons; [cbn; lia|]); apply Forall_nil|]); apply Forall_nil.
  - intros Xi yi. eexists. reflexivity.
Qed.

(** ** C60 *)

(** After a successful fit every other fit with the same generator uses the same bags, whatever its data and
    whatever happens between; it fails when it needs more members than there are bags. *)
Theorem C60_shared_bags : forall S Q Q' (B : settable S) ppf (b : base Q) (b' : base Q') p k X y preds g q g1 calls g2
    p2 k2 X2 y2 preds2 o g3, keeps_bags B ->
  EoQ_fit B ppf b p k X y preds None g = Some (Val q, g1) -> eoq_history B ppf b' calls g1 = Some g2 ->
  EoQ_fit B ppf b p2 k2 X2 y2 preds2 None g2 = Some (o, g3) ->
  (forall q2, o = Val q2 -> eq_bags q2 = eq_bags q) /\
  ((length (eq_bags q) < ep_n p2)%nat -> n_predictions preds2 = length y2 -> forall q2, o <> Val q2).
Proof. intros S Q Q'. exact shared_bags. Qed.
Print Assumptions C60_shared_bags.

(** The three generators of the library are such generators. *)
Theorem C60_generators : forall G (RG : rng G) fuel,
  keeps_bags (settable_prior RG fuel) /\ keeps_bags (settable_covariate RG) /\ keeps_bags (settable_mixed RG fuel).
Proof. intros G RG fuel. split; [apply prior_keeps|]. split; [apply covariate_keeps|apply mixed_keeps]. Qed.
Print Assumptions C60_generators.

(** Two ensembles with the default generator: the bags of the second do not have the prevalences of its data. *)
Theorem C60_own_data_refuted : exists q1 g1 q2 g2,
  EoQ_fit (settable_prior lowest_rng 1) (fun x => x) (prior_using 2) ep1 0 [] [0; 1]%Z (Crisp [0; 1]%Z) None (lazy_ps, tt) = Some (Val q1, g1) /\
  EoQ_fit (settable_prior lowest_rng 1) (fun x => x) (prior_using 2) ep1 0 [] [1; 0]%Z (Crisp [1; 0]%Z) None g1 = Some (Val q2, g2) /\
  Forall (honest_bag [0; 1]%Z 2) (eq_bags q1) /\ eq_bags q2 = eq_bags q1 /\ ~ Forall (honest_bag [1; 0]%Z 2) (eq_bags q2).
Proof. exact default_shared. Qed.
Print Assumptions C60_own_data_refuted.

(** ** C89 *)

Theorem C89_without : forall S Q (B : settable S) ppf fit predict p k X y preds given g (q : eoq Q) g',
  EoQ_fit B ppf (Without fit predict) p k X y preds given g = Some (Val q, g') ->
  length (eq_quantifiers q) = ep_n p /\ trained_with_bags fit X y q.
Proof. intros S Q. exact without_trained. Qed.
Print Assumptions C89_without.

(** [tr]: the training set with [r] predictions for each example ([r] > 1: cross-validation). *)
Theorem C89_using_soft : forall S Q (B : settable S) ppf fit predict p k X r tr given g (q : eoq Q) g',
  (0 < r)%nat -> tr <> [] -> (r = 1%nat \/ length (eq_bags q) = ep_n p) ->
  EoQ_fit B ppf (Using fit predict) p k X (labels_of tr) (Soft (predictions_of r tr)) given g = Some (Val q, g') ->
  length (eq_quantifiers q) = ep_n p /\
  forall i m, nth_error (eq_quantifiers q) i = Some m ->
    exists b, nth_error (eq_bags q) i = Some b /\ Forall (fun j => (j < length tr)%nat) (snd b) /\
      (r = 1%nat \/ length (snd b) = length tr) /\
      fit (repeated_labels r (part [] (snd b) tr)) (Soft (predictions_of r (part [] (snd b) tr))) = Val m.
Proof. intros S Q. exact using_trained_soft. Qed.
Print Assumptions C89_using_soft.

Theorem C89_using_crisp : forall S Q (B : settable S) ppf fit predict p k X r tr given g (q : eoq Q) g',
  (0 < r)%nat -> tr <> [] -> (r = 1%nat \/ length (eq_bags q) = ep_n p) ->
  EoQ_fit B ppf (Using fit predict) p k X (labels_of tr) (Crisp (predictions_of r tr)) given g = Some (Val q, g') ->
  length (eq_quantifiers q) = ep_n p /\
  forall i m, nth_error (eq_quantifiers q) i = Some m ->
    exists b, nth_error (eq_bags q) i = Some b /\ Forall (fun j => (j < length tr)%nat) (snd b) /\
      (r = 1%nat \/ length (snd b) = length tr) /\
      fit (repeated_labels r (part 0%Z (snd b) tr)) (Crisp (predictions_of r (part 0%Z (snd b) tr))) = Val m.
Proof. intros S Q. exact using_trained_crisp. Qed.
Print Assumptions C89_using_crisp.

(** One classifier for each member: member [i] gets the predictions of classifier [i]. *)
Theorem C89_using_models : forall S Q (B : settable S) ppf fit predict p k X y ps given g (q : eoq Q) g',
  length ps = length y ->
  EoQ_fit B ppf (Using fit predict) p k X y (PerModel ps) given g = Some (Val q, g') ->
  length (eq_quantifiers q) = ep_n p /\
  forall i m, nth_error (eq_quantifiers q) i = Some m ->
    exists b, nth_error (eq_bags q) i = Some b /\
      Forall (fun j => (j < length y)%nat /\ (i < length (nth j ps []))%nat) (snd b) /\
      fit (bag_labels y (snd b)) (Soft (map (fun j => nth i (nth j ps []) []) (snd b))) = Val m.
Proof. intros S Q. exact using_trained_models. Qed.
Print Assumptions C89_using_models.

Example C89_hypotheses :
  (exists q : eoq (list Z), EoQ_fit no_generator (fun x => x) counting_base (ep2 CMean 1) 0 []
     (labels_of [(0%Z, fun _ => 0%Z); (1%Z, fun _ => 1%Z)]) (Crisp (predictions_of 3 [(0%Z, fun _ => 0%Z); (1%Z, fun _ => 1%Z)]))
     (Some two_bags) tt = Some (Val q, tt) /\ length (eq_bags q) = ep_n (ep2 CMean 1)) /\
  (exists q : eoq (list R), EoQ_fit no_generator (fun x => x) (prior_using 2) (ep2 CMean 1) 0 []
     (labels_of [(0%Z, fun _ : nat => [1; 0]); (1%Z, fun _ => [0; 1])]) (Soft (predictions_of 1 [(0%Z, fun _ => [1; 0]); (1%Z, fun _ => [0; 1])]))
     (Some two_bags) tt = Some (Val q, tt)) /\
  exists q : eoq (list R), EoQ_fit no_generator (fun x => x) (prior_using 2) (ep2 CMean 1) 0 [] [0; 1]%Z
     (PerModel [[[1; 0]; [3/4; 1/4]]; [[0; 1]; [1/2; 1/2]]]) (Some two_bags) tt = Some (Val q, tt).
Proof.
  split; [eexists; split; reflexivity|]. split; [eexists; exact (pair_fit CMean 1 (fun x => x))|].
  apply (using_models_works no_generator); try reflexivity; try discriminate.
  - cbn; lia.
  - repeat (apply Forall_cons; [cbn; lia|]); apply Forall_nil.
  - repeat (apply Forall_cons; [repeat (apply Forall_cons; [cbn; lia|]); apply Forall_nil|]); apply Forall_nil.
  - intros Xi yi. eexists. reflexivity.
Qed.

(** The bags are those given, or those of one call of the generator, with n_bags set and the data of fit. *)
Theorem C89_bags : forall S Q (B : settable S) ppf (b : base Q) p k X y preds given g (q : eoq Q) g',
  EoQ_fit B ppf b p k X y preds given g = Some (Val q, g') ->
  match given with
  | Some bags => eq_bags q = bags /\ g' = g
  | None => bs_generate (se_source B) X y (se_set B (ep_n p) g) = Some (Val (eq_bags q), g')
  end.
Proof. intros S Q. exact eoq_bags_source. Qed.
Print Assumptions C89_bags.

(** With a generator of the library that has not been used: as many bags as members, made of examples of the
    training set, with their true prevalences. *)
Theorem C89_fresh_prior : forall Q (b : base Q) ppf p k X y preds q (G : Type) (RG : rng G) fuel s global g',
  rng_ok RG -> y <> [] -> ps_bags s = None -> (0 < bag_size_of s y)%nat -> one_per_class (ps_min s) (length (np_unique y)) ->
  EoQ_fit (settable_prior RG fuel) ppf b p k X y preds None (s, global) = Some (Val q, g') ->
  length (eq_bags q) = ep_n p /\ Forall (honest_bag y (bag_size_of s y)) (eq_bags q).
Proof. intros Q. exact eoq_fresh_prior. Qed.
Print Assumptions C89_fresh_prior.

Theorem C89_fresh_covariate : forall Q (b : base Q) ppf p k X y preds q (G : Type) (RG : rng G) s g',
  rng_ok RG -> cs_bags s = None -> (0 < cs_size_of s y)%nat ->
  EoQ_fit (settable_covariate RG) ppf b p k X y preds None s = Some (Val q, g') ->
  length (eq_bags q) = ep_n p /\ Forall (honest_bag y (cs_size_of s y)) (eq_bags q).
Proof. intros Q. exact eoq_fresh_covariate. Qed.
Print Assumptions C89_fresh_covariate.

Theorem C89_fresh_mixed : forall Q (b : base Q) ppf p k X y preds q (G : Type) (RG : rng G) fuel s global size g',
  rng_ok RG -> ms_bags s = None -> ms_bag_size s = Some size -> (0 < size)%nat ->
  one_per_class (ms_min s) (length (np_unique y)) ->
  EoQ_fit (settable_mixed RG fuel) ppf b p k X y preds None (s, global) = Some (Val q, g') ->
  length (eq_bags q) = ep_n p /\ Forall (honest_bag y size) (eq_bags q).
Proof. intros Q. exact eoq_fresh_mixed. Qed.
Print Assumptions C89_fresh_mixed.

Example C89_fresh_hypotheses : rng_ok lowest_rng /\ ps_bags lazy_ps = None /\ (0 < bag_size_of lazy_ps [0; 1]%Z)%nat /\
  one_per_class (ps_min lazy_ps) 2 /\
  exists q1 g1, EoQ_fit (settable_prior lowest_rng 1) (fun x => x) (prior_using 2) ep1 0 [] [0; 1]%Z (Crisp [0; 1]%Z)
    None (lazy_ps, tt) = Some (Val q1, g1).
Proof.
  split; [apply lowest_rng_ok|]. split; [reflexivity|]. split; [cbn; lia|]. split; [exact I|].
  destruct default_shared as (q1 & g1 & _ & _ & H & _). eauto.
Qed.

(** ** C90 *)

Theorem C90_between : forall Q argsort distance (b : base Q) p X y preds q k' X' preds' answers r,
  sorts argsort -> trained b p X y preds q -> one_vector (ep_combination p) ->
  (ep_combination p = CMedian -> length (np_unique y) = 2%nat) ->
  members_answer b q X' preds' answers -> distributions (length (np_unique y)) answers ->
  EoQ_predict argsort distance b p q k' X' preds' = Val (Vector r) ->
  forall c, (c < length (np_unique y))%nat -> exists i j, (i < ep_n p)%nat /\ (j < ep_n p)%nat /\
    nth c (nth i answers []) 0 <= nth c r 0 <= nth c (nth j answers []) 0.
Proof. intros Q. exact between_after_fit. Qed.
Print Assumptions C90_between.

(** For every vector [t] (the true prevalences). *)
Theorem C90_mean_error : forall Q argsort distance (b : base Q) p X y preds q k' X' preds' answers r t,
  trained b p X y preds q -> ep_combination p = CMean ->
  members_answer b q X' preds' answers -> distributions (length (np_unique y)) answers ->
  EoQ_predict argsort distance b p q k' X' preds' = Val (Vector r) ->
  mae (length (np_unique y)) r t <= rmean (map (fun a => mae (length (np_unique y)) a t) answers).
Proof. intros Q. exact mean_error_after_fit. Qed.
Print Assumptions C90_mean_error.

Theorem C90_selected_error : forall Q argsort distance (b : base Q) p X y preds q k' X' preds' answers r t,
  sorts argsort -> trained b p X y preds q ->
  (ep_combination p = CMean \/ ep_combination p = PrevalenceSimilarity \/ ep_combination p = DistributionSimilarity) ->
  members_answer b q X' preds' answers -> distributions (length (np_unique y)) answers ->
  EoQ_predict argsort distance b p q k' X' preds' = Val (Vector r) ->
  exists sel, sel <> [] /\ Forall (fun i => (i < ep_n p)%nat) sel /\ (ep_combination p = CMean -> sel = seq 0 (ep_n p)) /\
    mae (length (np_unique y)) r t <= rmean (map (fun i => mae (length (np_unique y)) (nth i answers []) t) sel).
Proof. intros Q. exact error_after_fit. Qed.
Print Assumptions C90_selected_error.

Theorem C90_unanimous : forall Q argsort distance (b : base Q) p X y preds q k' X' preds' answers a r,
  sorts argsort -> trained b p X y preds q -> one_vector (ep_combination p) ->
  members_answer b q X' preds' answers -> Forall (fun r => r = a) answers -> distribution_over (length (np_unique y)) a ->
  EoQ_predict argsort distance b p q k' X' preds' = Val (Vector r) -> r = a.
Proof. intros Q. exact unanimous_after_fit. Qed.
Print Assumptions C90_unanimous.

(** The order of the members has no effect on mean and median. *)
Theorem C90_order : forall Q Q' argsort argsort' distance distance' (b : base Q) (b' : base Q') p p' X y preds X1 y1 preds1
    q q' k2 X2 preds2 k3 X3 preds3 answers answers',
  (ep_combination p = CMean \/ ep_combination p = CMedian) -> ep_combination p' = ep_combination p ->
  trained b p X y preds q -> trained b' p' X1 y1 preds1 q' -> length (np_unique y1) = length (np_unique y) ->
  members_answer b q X2 preds2 answers -> members_answer b' q' X3 preds3 answers' -> Permutation answers answers' ->
  distributions (length (np_unique y)) answers ->
  EoQ_predict argsort distance b p q k2 X2 preds2 = EoQ_predict argsort' distance' b' p' q' k3 X3 preds3.
Proof. intros Q Q'. exact order_after_fit. Qed.
Print Assumptions C90_order.

Example C90_hypotheses : forall c distance,
  sorts insertion_argsort /\ trained (prior_using 2) (ep2 c (1/2)) [] [0; 1]%Z (Soft [[1; 0]; [0; 1]]) pair_q /\
  (forall X rows, members_answer (prior_using 2) pair_q X (Soft rows) [[1; 0]; [0; 1]]) /\
  distributions (length (np_unique [0; 1]%Z)) [[1; 0]; [0; 1]] /\
  EoQ_predict insertion_argsort distance (prior_using 2) (ep2 DistributionSimilarity (1/2)) pair_q 0 []
      (Soft (examples [[1; 0]; [0; 1]] [1; 1]%nat)) = Val (Vector [1; 0]).
Proof.
  intros c distance. split; [exact insertion_sorts|]. split; [apply pair_trained|]. split; [apply pair_answers|].
  split; [exact pair_distributions|exact (far_bag_selected distance)].
Qed.

(** ** C91 *)

(** A member whose prediction has another length makes predict fail ... *)
Theorem C91_wrong_length : forall Q argsort distance (b : base Q) p X y preds q k' X' preds' answers i,
  trained b p X y preds q -> members_answer b q X' preds' answers -> (i < ep_n p)%nat ->
  length (nth i answers []) <> length (np_unique y) -> length (nth i answers []) <> 1%nat ->
  EoQ_predict argsort distance b p q k' X' preds' = Err ValueError.
Proof. intros Q. exact wrong_length_after_fit. Qed.
Print Assumptions C91_wrong_length.

(** ... except that a prediction with one number (one class in the bag) counts for every class. *)
Theorem C91_one_class : forall Q argsort distance (b : base Q) p X y preds q k' X' preds' answers answers' r,
  trained b p X y preds q -> members_answer b q X' preds' answers ->
  widened (length (np_unique y)) answers answers' -> ep_combination p = CMean ->
  EoQ_predict argsort distance b p q k' X' preds' = Val (Vector r) ->
  exists avg, average_answer (length (np_unique y)) answers' (seq 0 (ep_n p)) avg /\
    forall c, (c < length (np_unique y))%nat -> nth c r 0 = nth c avg 0 / rsum avg.
Proof. intros Q. exact copied_after_fit. Qed.
Print Assumptions C91_one_class.

(** An ensemble of CC, each trained with a bag of one class: a test bag of predictions 1 gets [1/2, 1/2]. *)
Theorem C91_aligned_refuted : exists q,
  trained counting_base (ep2 CMean 1) [] [0; 1]%Z (Crisp [0; 1]%Z) q /\
  (forall X, members_answer counting_base q X (Crisp [1; 1]%Z) [[0]; [1]]) /\
  widened 2 [[0]; [1]] [[0; 0]; [1; 1]] /\
  forall argsort distance k X,
    EoQ_predict argsort distance counting_base (ep2 CMean 1) q k X (Crisp [1; 1]%Z) = Val (Vector [1/2; 1/2]).
Proof.
  exists missing_q. split; [apply missing_trained|]. split; [exact missing_answers|]. split; [exact missing_widened|].
  intros argsort distance k X. apply missing_predict.
Qed.
Print Assumptions C91_aligned_refuted.

(** ** C92 *)

(** With base quantifiers without classifiers, only 100 bins work. *)
Theorem C92_bins : forall S Q (B : settable S) ppf fit predict p k X y preds given g (q : eoq Q) g',
  ep_bins p <> 100%nat -> (0 < k)%nat ->
  EoQ_fit B ppf (Without fit predict) p k X y preds given g <> Some (Val q, g').
Proof. intros S Q. exact other_bins_fail. Qed.
Print Assumptions C92_bins.

Theorem C92_hundred_bins : forall S Q (B : settable S) ppf fit predict p k X y preds (bags : list bag) g,
  ep_bins p = 100%nat -> ep_function p = PDF -> X <> [] -> length y = length X ->
  (ep_n p <= length bags)%nat -> Forall (fun b : bag => Forall (fun i => (i < length y)%nat) (snd b)) bags ->
  (forall Xi yi, exists m : Q, fit Xi yi = Val m) ->
  exists q, EoQ_fit B ppf (Without fit predict) p k X y preds (Some bags) g = Some (Val q, g).
Proof. intros S Q. exact without_works. Qed.
Print Assumptions C92_hundred_bins.

(** With classifiers any number of bins works. *)
Theorem C92_using_bins : forall S Q (B : settable S) ppf fit predict p k X y rows (bags : list bag) g,
  (0 < ep_bins p)%nat -> ep_function p = PDF -> ep_strategy p = EqualWidth -> y <> [] -> length rows = length y ->
  (ep_n p <= length bags)%nat -> Forall (fun b : bag => Forall (fun i => (i < length y)%nat) (snd b)) bags ->
  (forall yi pi, exists m : Q, fit yi pi = Val m) ->
  exists q, EoQ_fit B ppf (Using fit predict) p k X y (Soft rows) (Some bags) g = Some (Val q, g).
Proof. intros S Q. exact using_works. Qed.
Print Assumptions C92_using_bins.

(** Cumulative distributions never work. *)
Theorem C92_cdf : forall S Q (B : settable S) ppf (b : base Q) p k X y preds given g q g',
  ep_function p = CDF -> (0 < ep_n p)%nat -> (0 < k)%nat -> y <> [] ->
  EoQ_fit B ppf b p k X y preds given g <> Some (Val q, g').
Proof. intros S Q. exact cdf_fails. Qed.
Print Assumptions C92_cdf.

(** Predictions without probabilities do not work with the strategies that compare distributions. *)
Theorem C92_crisp : forall Q argsort distance fit predict p X y preds (q : eoq Q) k' X' l answers, sorts argsort ->
  trained (Using fit predict) p X y preds q ->
  (ep_combination p = DistributionSimilarity \/ ep_combination p = AllStrategies) -> (0 < ep_n p)%nat ->
  members_answer (Using fit predict) q X' (Crisp l) answers -> distributions (length (np_unique y)) answers ->
  EoQ_predict argsort distance (Using fit predict) p q k' X' (Crisp l) = Err ValueError.
Proof. intros Q. exact crisp_after_fit. Qed.
Print Assumptions C92_crisp.

(** CDF and one attribute, with bags, on two examples: AxisError; labels as predictions can be trained with. *)
Example C92_hypotheses :
  (exists q, trained (prior_using 3) (ep3 AllStrategies) [] [0; 1; 2]%Z (Crisp [0; 1; 2]%Z) q /\
     members_answer (prior_using 3) q [] (Crisp [0]%Z) [[1; 0; 0]; [0; 1; 0]; [0; 0; 1]] /\
     distributions 3 [[1; 0; 0]; [0; 1; 0]; [0; 0; 1]]) /\
  EoQ_fit no_generator (fun x => x) (prior_using 2)
    {| ep_n := 2; ep_combination := CMean; ep_function := CDF; ep_bins := 2; ep_strategy := EqualWidth; ep_percentage := 1 |}
    1 [[0]; [1]] [0; 1]%Z (Crisp [0; 1]%Z) (Some two_bags) tt = Some (Err AxisError, tt).
Proof.
  split; [|reflexivity]. exists corner_q. split; [apply corner_trained|]. split; [apply corner_answers|exact corner_distributions].
Qed.
