(** * Property theorems: the searches, the quantiles and SORD (C44-C47). *)

From Coq Require Import Reals List ZArith Lia Lra Bool.
From Coquelicot Require Import Hierarchy RInt.
From Verif Require Import Num Spec M_Estimators M_Search Spec_Search L_Num L_Search L_Search2 L_Search3 L_Quantiles L_Quantiles2 L_Sord.
Import ListNotations.
Open Scope R_scope.

(** C44, any loss: the prevalence is inside the interval and the reported loss is the loss at some point of the interval. *)
Theorem C44_inside : forall f tol a b, a < b -> 0 < tol ->
  exists loss p z, golden_section_search f tol a b = Val (loss, p) /\ a < p < b /\ a < z < b /\ loss = f z.
Proof. exact golden_inside. Qed.
Print Assumptions C44_inside.

(** C44, a loss with one minimum. *)
Theorem C44_unimodal : forall f tol a b m, a < b -> 0 < tol -> strictly_unimodal f a b m ->
  exists loss p, golden_section_search f tol a b = Val (loss, p) /\ Rabs (p - m) <= tol / 2.
Proof. exact golden_unimodal. Qed.
Print Assumptions C44_unimodal.

(** C44, a convex loss, which may have many minima. *)
Theorem C44_convex : forall f tol a b m, a < b -> 0 < tol -> convex_on f a b -> minimises f a b m ->
  exists loss p best, golden_section_search f tol a b = Val (loss, p) /\ minimises f a b best /\ Rabs (p - best) <= tol / 2.
Proof. exact golden_convex. Qed.
Print Assumptions C44_convex.

(** C44, an empty interval or a tolerance that is not positive. *)
Theorem C44_errors : forall f tol a b,
  (a = b -> golden_section_search f tol a b = Err ZeroDivisionError) /\
  (a <> b -> tol / (b - a) <= 0 -> golden_section_search f tol a b = Err ValueError).
Proof. exact golden_errors. Qed.
Print Assumptions C44_errors.

Example C44_hypotheses : 0 < 1 /\ 0 < 1/1000 /\ strictly_unimodal (fun p => (p - 1/3) * (p - 1/3)) 0 1 (1/3) /\
  convex_on (fun p => (p - 1/3) * (p - 1/3)) 0 1.
Proof.
  split; [lra|]. split; [lra|]. split.
  - split; [lra|]. split; intros x y H1 H2 H3; apply Rminus_gt_0_lt.
    + replace ((x - 1/3) * (x - 1/3) - (y - 1/3) * (y - 1/3)) with ((y - x) * ((1/3 - x) + (1/3 - y))) by field. apply Rmult_lt_0_compat; lra.
    + replace ((y - 1/3) * (y - 1/3) - (x - 1/3) * (x - 1/3)) with ((y - x) * ((y - 1/3) + (x - 1/3))) by field. apply Rmult_lt_0_compat; lra.
  - intros x y t _ _ H. apply Rminus_le.
    replace ((t * x + (1 - t) * y - 1/3) * (t * x + (1 - t) * y - 1/3) - (t * ((x - 1/3) * (x - 1/3)) + (1 - t) * ((y - 1/3) * (y - 1/3))))
      with (- (t * (1 - t) * ((x - y) * (x - y)))) by ring.
    assert (0 <= t * (1 - t) * ((x - y) * (x - y))); [|lra]. apply Rmult_le_pos; [apply Rmult_le_pos; lra|]. pose proof (Rle_0_sqr (x - y)) as Q. exact Q.
Qed.

(** C45: the result is a prevalence, or the search gives up because both ends have the same loss and no point of the grid was taken
    for a minimum. *)
Theorem C45_valid : forall f tol, 0 < tol ->
  let losses := fun i => f (INR i / 100) in
  (exists p, global_search_from f tol losses = Val p /\ 0 < p < 1) \/
  (global_search_from f tol losses = Err ValueError /\ losses O = losses 100%nat /\
   forall i, (1 <= i <= 99)%nat -> ~ (losses (i - 1)%nat < losses i /\ losses i < losses (i + 1)%nat)).
Proof. intros f tol H losses. exact (global_valid f tol losses H). Qed.
Print Assumptions C45_valid.

(** C45, a loss with one minimum, at most 0.98, or a smaller loss at 1 than at 0. *)
Theorem C45_unimodal : forall f tol m, 0 < tol <= 1/100 -> strictly_unimodal f 0 1 m -> m <= 98/100 \/ f 1 < f 0 ->
  exists p, global_search_from f tol (fun i => f (INR i / 100)) = Val p /\ Rabs (p - m) <= 2 * tol.
Proof. exact global_unimodal. Qed.
Print Assumptions C45_unimodal.

Example C45_hypotheses : strictly_unimodal (fun p => (p - 1/3) * (p - 1/3)) 0 1 (1/3) /\ 1/3 <= 98/100.
Proof. split; [apply C44_hypotheses|lra]. Qed.

(** C45: storing the mixtures on the grid, or using stored ones, does not change the result. *)
Theorem C45_mixtures : forall {M T : Type} (distance : M -> T -> R) (mixture : R -> M) (test : T) tol,
  let ms := map (fun i => mixture (INR i / 100)) (seq 0 101) in
  let p := global_search_from (fun p => distance (mixture p) test) tol (fun i => distance (mixture (INR i / 100)) test) in
  global_search distance mixture test tol None true = omap (fun p => (Some ms, p)) p /\
  global_search distance mixture test tol (Some ms) true = omap (fun p => (Some ms, p)) p /\
  global_search distance mixture test tol None false = omap (fun p => (None, p)) p.
Proof. exact @global_search_stored. Qed.
Print Assumptions C45_mixtures.

(** Otherwise one minimum can be missed by far, *)
Theorem C45_single_minimum_refuted : forall tol, 0 < tol -> exists f m, strictly_unimodal f 0 1 m /\ m = 99/100 /\
  exists p, global_search_from f tol (fun i => f (INR i / 100)) = Val p /\ p < 2/100.
Proof. exact global_unimodal_fails. Qed.
Print Assumptions C45_single_minimum_refuted.

(** and so can the smallest of several local minima, however deep. *)
Theorem C45_global_minimum_refuted : forall tol, 0 < tol -> exists f m,
  minimises f 0 1 m /\ (forall x, 0 <= x <= 1 -> x <> m -> f m + 5 < f x) /\ m = 1/2 /\
  exists p, global_search_from f tol (fun i => f (INR i / 100)) = Val p /\ p < 2/100.
Proof. exact global_minimum_missed. Qed.
Print Assumptions C45_global_minimum_refuted.

(** C46, training scores, any weights: the average of the values is the mean of the mixture but for a ten-thousandth of the mean of
    the scores. *)
Theorem C46_training_mean : forall prev scores q y c0 c1, (0 < q)%nat -> length y = length scores -> binary_labels y c0 c1 ->
  0 <= prev <= 1 -> Forall (fun s => 0 <= s) scores ->
  let mix := (1 - prev) * rmean (select c0 y scores) + prev * rmean (select c1 y scores) in
  mix - 1/10000 * rmean scores <= rmean (compute_quantiles (Some prev) scores q y c0 c1) <= mix.
Proof. exact train_quantiles_mean. Qed.
Print Assumptions C46_training_mean.

(** C46, training scores, when no example ends just after a cut: each value is the mean of its part, so their average is exact, they
    are between the smallest and the largest score, and in ascending order. *)
Theorem C46_training_values : forall prev scores q y c0 c1, (0 < q)%nat -> length y = length scores -> binary_labels y c0 c1 ->
  0 <= prev <= 1 -> clean_cuts q (class_weights prev y c0 c1) (INR (length scores)) ->
  forall t, (t < q)%nat -> nth t (compute_quantiles (Some prev) scores q y c0 c1) 0 =
    mean_between scores (class_weights prev y c0 c1) (INR t / INR q * INR (length scores)) (INR (S t) / INR q * INR (length scores)).
Proof. exact train_quantiles_values. Qed.
Print Assumptions C46_training_values.

Theorem C46_training_mean_exact : forall prev scores q y c0 c1, (0 < q)%nat -> length y = length scores -> binary_labels y c0 c1 ->
  0 <= prev <= 1 -> clean_cuts q (class_weights prev y c0 c1) (INR (length scores)) ->
  rmean (compute_quantiles (Some prev) scores q y c0 c1) = (1 - prev) * rmean (select c0 y scores) + prev * rmean (select c1 y scores).
Proof. exact train_quantiles_mean_exact. Qed.
Print Assumptions C46_training_mean_exact.

Theorem C46_training_range : forall prev scores q y c0 c1, (0 < q)%nat -> length y = length scores -> binary_labels y c0 c1 ->
  0 <= prev <= 1 -> clean_cuts q (class_weights prev y c0 c1) (INR (length scores)) ->
  forall lo hi, Forall (fun s => lo <= s <= hi) scores ->
    Forall (fun v => lo <= v <= hi) (compute_quantiles (Some prev) scores q y c0 c1).
Proof. exact train_quantiles_range. Qed.
Print Assumptions C46_training_range.

Theorem C46_training_ascending : forall prev scores q y c0 c1, (0 < q)%nat -> length y = length scores -> binary_labels y c0 c1 ->
  0 <= prev <= 1 -> clean_cuts q (class_weights prev y c0 c1) (INR (length scores)) ->
  ascending scores -> ascending (compute_quantiles (Some prev) scores q y c0 c1).
Proof. exact train_quantiles_ascending. Qed.
Print Assumptions C46_training_ascending.

(** Three examples weighing 9/10, 9/10 and 6/5, cut at 3/2. *)
Example C46_hypotheses : binary_labels [0; 0; 1]%Z 0 1 /\ clean_cuts 2 (class_weights (2/5) [0; 0; 1]%Z 0 1) (INR 3) /\ ascending [1/10; 2/10; 9/10].
Proof.
  split; [|split].
  - split; [lia|]. split; [simpl; auto|]. split; [simpl; auto|]. intros c H. simpl in H. intuition.
  - intros i j Hi Hj. unfold class_weights in *. change (zcount 0 [0; 0; 1]%Z) with 2%nat. change (zcount 1 [0; 0; 1]%Z) with 1%nat. simpl map in *. simpl length in *.
    destruct j as [|[|j]]; [| |lia]; destruct i as [|[|[|[|i]]]]; try lia; unfold begins; simpl; lra.
  - intros [|[|i]] H; simpl in *; try lra; lia.
Qed.

(** C46, test scores (fewer than 10000 quantiles). *)
Theorem C46_test_values : forall scores q, (0 < q)%nat -> INR q < 10000 -> scores <> [] ->
  forall y c0 c1 t, (t < q)%nat -> nth t (compute_quantiles None scores q y c0 c1) 0 =
    mean_between scores (repeat 1 (length scores)) (INR t / INR q * INR (length scores)) (INR (S t) / INR q * INR (length scores)).
Proof. exact test_quantiles_values. Qed.
Print Assumptions C46_test_values.

Theorem C46_test_mean : forall scores q, (0 < q)%nat -> INR q < 10000 -> scores <> [] ->
  forall y c0 c1, rmean (compute_quantiles None scores q y c0 c1) = rmean scores.
Proof. exact test_quantiles_mean. Qed.
Print Assumptions C46_test_mean.

Theorem C46_test_range : forall scores q, (0 < q)%nat -> INR q < 10000 -> scores <> [] ->
  forall y c0 c1 lo hi, Forall (fun s => lo <= s <= hi) scores ->
    Forall (fun v => lo <= v <= hi) (compute_quantiles None scores q y c0 c1).
Proof. exact test_quantiles_range. Qed.
Print Assumptions C46_test_range.

Theorem C46_test_ascending : forall scores q, (0 < q)%nat -> INR q < 10000 -> scores <> [] ->
  forall y c0 c1, ascending scores -> ascending (compute_quantiles None scores q y c0 c1).
Proof. exact test_quantiles_ascending. Qed.
Print Assumptions C46_test_ascending.

Example C46_test_hypotheses : (0 < 8)%nat /\ INR 8 < 10000 /\ [1/2; 3/4] <> [].
Proof. split; [lia|]. split; [simpl; lra|discriminate]. Qed.

(** In general a value can be below every score: negative although all scores are between 0 and 1. *)
Theorem C46_range_refuted : exists prev scores q y c0 c1, 0 <= prev <= 1 /\ (0 < q)%nat /\ length y = length scores /\ binary_labels y c0 c1 /\
  ascending scores /\ Forall (fun s => 0 <= s <= 1) scores /\
  nth 0 (compute_quantiles (Some prev) scores q y c0 c1) 0 < 0.
Proof. exact negative_quantile. Qed.
Print Assumptions C46_range_refuted.

(** C47: the loss is the area between the cumulative distributions. *)
Theorem C47_area : forall argsort y scores test c0 c1 s, sorts argsort pick -> length y = length scores ->
  np_unique y = [c0; c1] -> test <> [] -> sorted_fit argsort (np_unique y) y scores = Val s ->
  forall p a b, (forall v, In v (scores ++ test) -> a <= v <= b) ->
  is_RInt (fun x => Rabs (mixed_fraction_upto p y scores c0 c1 x - fraction_upto test x)) a b (SORDy_loss argsort s test p).
Proof. exact sordy_loss_area. Qed.
Print Assumptions C47_area.

Theorem C47_zero : forall argsort y scores test c0 c1 s, sorts argsort pick -> length y = length scores ->
  np_unique y = [c0; c1] -> test <> [] -> sorted_fit argsort (np_unique y) y scores = Val s ->
  forall p, SORDy_loss argsort s test p = 0 <-> forall x, mixed_fraction_upto p y scores c0 c1 x = fraction_upto test x.
Proof. exact sordy_loss_zero. Qed.
Print Assumptions C47_zero.

Theorem C47_ties : forall argsort argsort' y scores test c0 c1 s s', sorts argsort pick -> sorts argsort' pick -> length y = length scores ->
  np_unique y = [c0; c1] -> test <> [] -> sorted_fit argsort (np_unique y) y scores = Val s -> sorted_fit argsort' (np_unique y) y scores = Val s' ->
  forall p, SORDy_loss argsort s test p = SORDy_loss argsort' s' test p.
Proof. exact sordy_ties. Qed.
Print Assumptions C47_ties.

(** C47: SORDy predicts within half the tolerance of a prevalence with the smallest area. *)
Theorem C47_prediction : forall argsort tol y scores test c0 c1 s, sorts argsort pick -> 0 < tol -> length y = length scores ->
  np_unique y = [c0; c1] -> test <> [] -> sorted_fit argsort (np_unique y) y scores = Val s ->
  forall a b, (forall v, In v (scores ++ test) -> a <= v <= b) ->
  exists p m, SORDy_predict argsort tol s test = Val p /\ 0 < p < 1 /\
    minimises (fun q => RInt (V := R_CompleteNormedModule) (fun x => Rabs (mixed_fraction_upto q y scores c0 c1 x - fraction_upto test x)) a b) 0 1 m /\ Rabs (p - m) <= tol / 2.
Proof. exact sordy_best. Qed.
Print Assumptions C47_prediction.

(** C47: a bag whose scores are distributed as the training mixture of prevalence p0. *)
Theorem C47_consistent : forall argsort tol y scores test c0 c1 s p0, sorts argsort pick -> 0 < tol -> length y = length scores ->
  np_unique y = [c0; c1] -> test <> [] -> sorted_fit argsort (np_unique y) y scores = Val s ->
  0 <= p0 <= 1 -> (forall x, fraction_upto test x = mixed_fraction_upto p0 y scores c0 c1 x) ->
  (exists x, fraction_upto (select c0 y scores) x <> fraction_upto (select c1 y scores) x) ->
  exists p, SORDy_predict argsort tol s test = Val p /\ Rabs (p - p0) <= tol / 2.
Proof. exact sordy_consistent. Qed.
Print Assumptions C47_consistent.

Example C47_hypotheses : sorts some_argsort pick /\ np_unique [0; 1]%Z = [0; 1]%Z /\
  (exists s, sorted_fit some_argsort (np_unique [0; 1]%Z) [0; 1]%Z [1/4; 3/4] = Val s) /\
  (forall x, fraction_upto [1/4; 1/4; 3/4] x = mixed_fraction_upto (1/3) [0; 1]%Z [1/4; 3/4] 0 1 x) /\
  (exists x, fraction_upto (select 0 [0; 1]%Z [1/4; 3/4]) x <> fraction_upto (select 1 [0; 1]%Z [1/4; 3/4]) x).
Proof.
  split; [exact some_argsort_sorts|]. split; [reflexivity|]. split; [eexists; reflexivity|]. split.
  - intros x. unfold mixed_fraction_upto, fraction_upto, select. simpl. destruct (Rle_dec (1/4) x), (Rle_dec (3/4) x); lra.
  - exists (1/2). unfold fraction_upto, select. simpl. destruct (Rle_dec (1/4) (1/2)), (Rle_dec (3/4) (1/2)); lra.
Qed.
