(** * AC and PAC recover the prevalence in double precision. *)

From Coq Require Import Reals ZArith List Bool Lia Lra.
From Flocq Require Import Core BinarySingleNaN.
From Verif Require Import Num Spec M_Baselines M_Float Spec_Float L_Num L_Baselines L_Float7.
Import ListNotations.
Open Scope R_scope.

Definition no_solvers : solvers := {| inv := fun _ _ => None; solve := fun _ _ _ _ => NotANumber |}.

Lemma gap_far x d : 0 < d -> 1/1000 + d < Rabs x -> d < Rabs (Rabs x - 1/1000).
Proof. intros. rewrite (Rabs_right (Rabs x - 1/1000)) by lra. lra. Qed.

Theorem AC_recovers_double np_sum r (tr : list (Z * (nat -> Z))) c0 c1 ytest ptest : adds_in_some_order np_sum -> (0 < r)%nat ->
  np_unique (labels_of tr) = [c0; c1] ->
  let trained := fun c d => rate c d (repeated_labels r tr) (predictions_of r tr) in
  (forall x, In x (predictions_of r tr) -> x = c0 \/ x = c1) ->
  length ytest = length ptest -> ytest <> [] -> (forall x, In x ytest -> x = c0 \/ x = c1) -> (forall x, In x ptest -> x = c0 \/ x = c1) ->
  (forall c d, In c ytest -> d = c0 \/ d = c1 -> rate c d ytest ptest = trained c d) ->
  1/1000 + bpow radix2 (-51) < Rabs (trained c1 c1 - trained c0 c1) ->
  (Z.of_nat (length (predictions_of r tr)) <= 2 ^ 53)%Z -> (Z.of_nat (length ptest) <= 2 ^ 53)%Z ->
  within (bpow radix2 (-40)) (AC_float np_sum c0 c1 (repeated_labels r tr) (predictions_of r tr) ptest) [fraction c0 ytest; fraction c1 ytest].
Proof.
  intros Hs Hr Hu trained Hp Hl Hne Hy Hpt Hrate Hgap L1 L2.
  assert (In2 : forall x, In x [c0; c1] <-> x = c0 \/ x = c1) by (intros x; cbn; intuition congruence).
  assert (K : forall x, In x (predictions_of r tr) -> In x (np_unique (labels_of tr))) by (intros x Hx; rewrite Hu; apply In2; auto).
  pose proof (fit_AC_rates r tr Hr K) as F. cbv zeta in F.
  pose proof (bpow_gt_0 radix2 (-51)) as BP.
  assert (PNE : ptest <> []) by (intros ->; destruct ytest; [congruence|discriminate]).
  destruct (AC_float_close np_sum no_solvers HD c0 c1 (labels_of tr) (predictions_of r tr) ptest _ Hs Hu F L1 L2 PNE Hpt) as (p & Hp1 & W).
  { intros r0 r1. rewrite Hu. cbn [map]. intros [= <- <-]. cbn [nth]. apply gap_far; auto. }
  rewrite y_ext_predictions in W by auto.
  assert (O : oracle_inverts no_solvers) by (intros n A M H; discriminate).
  pose proof (AC_recovers no_solvers HD r tr _ ytest ptest O Hr K F Hl Hne) as R.
  rewrite <- Hu in Hp1 at 1. rewrite R in Hp1.
  - rewrite Hu in Hp1. injection Hp1 as <-. exact W.
  - intros x Hx. rewrite Hu. apply In2. auto.
  - intros c d Hc Hd. rewrite Hu in Hd. apply Hrate; auto. now apply In2.
  - rewrite Hu. intros d0 d1 [= <- <-]. fold (trained c1 c1) (trained c0 c1). lra.
  - rewrite Hu. cbn. lia.
Qed.

Theorem PAC_recovers_double np_sum r (tr : list (Z * (nat -> list float))) c0 c1 ytest ptest n : adds_in_some_order np_sum -> (0 < r)%nat ->
  np_unique (labels_of tr) = [c0; c1] ->
  let mean_of := fun j rows => rmean (map (fun row => val (nth j row f0)) rows) in
  let trained := fun c j => mean_of j (select c (repeated_labels r tr) (predictions_of r tr)) in
  Forall (Forall in_unit) (predictions_of r tr) -> Forall (Forall in_unit) ptest ->
  length ytest = length ptest -> ytest <> [] -> (forall x, In x ytest -> x = c0 \/ x = c1) ->
  (forall c j, In c ytest -> (j < 2)%nat -> mean_of j (select c ytest ptest) = trained c j) ->
  Forall (fun row => 3/4 <= val (nth 0 row f0) + val (nth 1 row f0)) ptest ->
  (length (predictions_of r tr) <= n)%nat -> (length ptest <= n)%nat -> (Z.of_nat n <= 2 ^ 40)%Z ->
  1/1000 + INR (n + 1) * bpow radix2 (-49) < Rabs (trained c1 1%nat - trained c0 1%nat) ->
  within (INR (n + 1) * bpow radix2 (-38)) (PAC_float np_sum c0 c1 (repeated_labels r tr) (predictions_of r tr) ptest)
    [fraction c0 ytest; fraction c1 ytest].
Proof.
  intros Hs Hr Hu mean_of trained Up Ut Hl Hne Hy Hrate H34 L1 L2 L3 Hgap.
  set (tr' := map (fun e => (fst e, fun j => map val (snd e j))) tr).
  assert (E1 : labels_of tr' = labels_of tr) by (unfold tr', labels_of; rewrite map_map; reflexivity).
  assert (E2 : predictions_of r tr' = map (map val) (predictions_of r tr)).
  { unfold tr', predictions_of. rewrite concat_map, map_map. f_equal. apply map_ext. intros j. rewrite !map_map. reflexivity. }
  assert (E3 : repeated_labels r tr' = repeated_labels r tr) by (unfold repeated_labels; now rewrite E1).
  assert (SM : forall c y (rows : list (list float)), select c y (map (map val) rows) = map (map val) (select c y rows)).
  { intros c y rows. unfold select. revert rows. induction y as [|v y IH]; intros [|row rows]; cbn; auto. destruct (v =? c)%Z; cbn; now rewrite ?IH. }
  assert (CM : forall j rows, rmean (col j (map (map val) rows)) = mean_of j rows).
  { intros j rows. unfold mean_of, col. rewrite map_map. f_equal. apply map_ext. intros row. change 0 with (val f0) at 1. now rewrite map_nth. }
  pose proof (fit_PAC_means r tr' Hr) as F. cbv zeta in F. rewrite E1, E2, E3 in F.
  assert (BP : 0 < INR (n + 1) * bpow radix2 (-49)).
  { apply Rmult_lt_0_compat; [apply lt_0_INR; lia|apply bpow_gt_0]. }
  assert (PNE : ptest <> []) by (intros ->; destruct ytest; [congruence|discriminate]).
  destruct (PAC_float_close np_sum no_solvers HD c0 c1 (labels_of tr) (predictions_of r tr) ptest _ n Hs Hu F Up Ut PNE L1 L2 L3 H34) as (p & Hp1 & W).
  { intros r0 r1. rewrite Hu. cbn [map length]. intros [= <- <-]. apply gap_far; [exact BP|]. cbn [col_means seq map nth].
    rewrite !SM, !CM. exact Hgap. }
  rewrite y_ext_predictions in W by auto.
  assert (O : oracle_inverts no_solvers) by (intros m A M H; discriminate).
  pose proof (fun cm => PAC_recovers no_solvers HD r tr' cm ytest (map (map val) ptest) O Hr) as R. cbv zeta in R. rewrite E1, E2, E3 in R.
  rewrite <- Hu in Hp1 at 1. rewrite (R _ F) in Hp1; auto.
  - rewrite Hu in Hp1. injection Hp1 as <-. exact W.
  - now rewrite map_length.
  - intros x Hx. rewrite Hu. cbn. destruct (Hy x Hx); auto.
  - rewrite Hu. intros c j Hc Hj. rewrite !SM, !CM. now apply Hrate.
  - rewrite Hu. intros d0 d1 [= <- <-]. rewrite !SM, !CM. fold (trained c1 1%nat) (trained c0 1%nat). lra.
  - rewrite Hu. cbn. lia.
Qed.
