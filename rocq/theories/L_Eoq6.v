(** * Ensembles of quantifiers: the lemmas for ensembles after fit. *)

From Coq Require Import Reals List ZArith Lra Lia Permutation Bool.
From Verif Require Import Num Spec L_Num M_Baselines M_Metrics M_Bags Spec_Bags M_Match Spec_Match
  L_Match M_Reg Spec_Reg L_Reg L_Reg2 M_Eoq Spec_Eoq L_Eoq L_Eoq2 L_Eoq3 L_Eoq4 L_Eoq5.
Import ListNotations.
Open Scope R_scope.

Lemma trained_size : forall {Q} (b : base Q) p X y preds q, trained b p X y preds q ->
  length (eq_quantifiers q) = ep_n p /\ eq_classes q = np_unique y /\ length (eq_distributions q) = ep_n p.
Proof.
  intros Q b p X y preds q (S & B & ppf & k & given & g & g' & H).
  destruct (fitted_size _ _ _ _ _ _ _ _ _ _ _ _ H) as [H1 H2]. split; [auto|]. split; [auto|].
  exact (fitted_rows _ _ _ _ _ _ _ _ _ _ _ _ H).
Qed.

Section After_fit.
  Variables (Q : Type) (argsort : list R -> list nat) (distance : list R -> list R -> R) (b : base Q) (p : eoq_params)
    (X : list (list R)) (y : list Z) (preds : predictions) (q : eoq Q) (k' : nat) (X' : list (list R)) (preds' : predictions)
    (answers : list (list R)).
  Hypothesis HF : trained b p X y preds q.
  Hypothesis HM : members_answer b q X' preds' answers.
  Hypothesis HD : distributions (length (np_unique y)) answers.

  Lemma mean_after_fit : (0 < ep_n p)%nat -> ep_combination p = CMean ->
    exists r, EoQ_predict argsort distance b p q k' X' preds' = Val (Vector r) /\
      average_answer (length (np_unique y)) answers (seq 0 (ep_n p)) r /\ distribution_over (length (np_unique y)) r.
  Proof.
    intros Hn HC. destruct (trained_size _ _ _ _ _ _ HF) as (HN & HK & _). rewrite <- HK in *. now apply mean_strategy.
  Qed.

  Lemma median_after_fit : forall m, (0 < ep_n p)%nat -> ep_combination p = CMedian -> medians (length (np_unique y)) answers m ->
    (rsum m = 0 -> EoQ_predict argsort distance b p q k' X' preds' = NotANumber) /\
    (rsum m <> 0 -> EoQ_predict argsort distance b p q k' X' preds' = Val (Vector (vdiv m (rsum m))) /\
                    distribution_over (length (np_unique y)) (vdiv m (rsum m))).
  Proof.
    intros m Hn HC HMd. destruct (trained_size _ _ _ _ _ _ HF) as (HN & HK & _). rewrite <- HK in *. now apply (median_strategy _ _ _ _ _ _ _ _ answers m).
  Qed.

  Lemma median_two_after_fit : forall m, (0 < ep_n p)%nat -> ep_combination p = CMedian -> length (np_unique y) = 2%nat ->
    medians 2 answers m ->
    EoQ_predict argsort distance b p q k' X' preds' = Val (Vector m) /\ distribution_over 2 m.
  Proof.
    intros m Hn HC H2 HMd. destruct (trained_size _ _ _ _ _ _ HF) as (HN & HK & _). rewrite H2 in HD. rewrite <- HK in H2.
    now apply (median_two _ _ _ _ _ _ _ _ answers m).
  Qed.

  Lemma prevalence_after_fit : forall avg, sorts argsort -> ep_combination p = PrevalenceSimilarity ->
    1 / 2 < INR (ep_n p) * ep_percentage p ->
    average_answer (length (np_unique y)) answers (seq 0 (ep_n p)) avg ->
    exists n_sel sel r, EoQ_predict argsort distance b p q k' X' preds' = Val (Vector r) /\
      Rabs (INR n_sel - INR (ep_n p) * ep_percentage p) <= 1 / 2 /\ (1 <= n_sel)%nat /\
      closest (fun i => mae (length (np_unique y)) (nth i answers []) avg) (ep_n p) (Nat.min (ep_n p) n_sel) sel /\
      average_answer (length (np_unique y)) answers sel r /\ distribution_over (length (np_unique y)) r.
  Proof.
    intros avg HS HC HP HA. destruct (trained_size _ _ _ _ _ _ HF) as (HN & HK & _). rewrite <- HK in *. now apply prevalence_strategy.
  Qed.

  Lemma nothing_after_fit : sorts argsort -> ep_combination p = PrevalenceSimilarity \/ ep_combination p = DistributionSimilarity ->
    (0 < ep_n p)%nat -> 0 <= INR (ep_n p) * ep_percentage p <= 1 / 2 ->
    forall r, EoQ_predict argsort distance b p q k' X' preds' <> Val r.
  Proof.
    intros HS HC Hn HP r. destruct (trained_size _ _ _ _ _ _ HF) as (HN & HK & _). rewrite <- HK in *. destruct HC as [HC|HC].
    - rewrite (nothing_selected argsort distance b p q k' X' preds' answers); auto. discriminate.
    - intros H. unfold EoQ_predict in H.
      rewrite (members_prevalences _ _ _ _ _ answers HN HM (arrays_distributions _ _ HD)) in H. cbn [obind] in H.
      unfold combine_members in H. rewrite HC in H. apply obind_inv in H. destruct H as (sel & ES & H).
      apply obind_inv in ES. destruct ES as (t & _ & ES). unfold distribution_selected in ES.
      apply omap_inv in ES. destruct ES as (ds & _ & ->). rewrite (n_selected_none _ HP) in H. discriminate.
  Qed.

  Lemma distribution_after_fit : forall rows, sorts argsort ->
    match b with Using _ _ => (forall l, preds <> Crisp l) | _ => True end ->
    ep_combination p = DistributionSimilarity -> 1 / 2 < INR (ep_n p) * ep_percentage p ->
    test_bag b q k' X' preds' rows ->
    exists t n_sel sel r, EoQ_predict argsort distance b p q k' X' preds' = Val (Vector r) /\
      bin_counts (ep_bins p) (eq_cuts q) (length rows) rows t /\
      Rabs (INR n_sel - INR (ep_n p) * ep_percentage p) <= 1 / 2 /\ (1 <= n_sel)%nat /\
      closest (fun i => distance t (nth i (eq_distributions q) [])) (ep_n p) (Nat.min (ep_n p) n_sel) sel /\
      average_answer (length (np_unique y)) answers sel r /\ distribution_over (length (np_unique y)) r.
  Proof.
    intros rows HS HB HC HP HT. destruct (trained_size _ _ _ _ _ _ HF) as (HN & HK & _). rewrite <- HK in *.
    destruct HF as (S & B & ppf & k & given & g & g' & H).
    destruct (distribution_strategy B ppf argsort distance b p k X y preds given g q g' k' X' preds' rows answers HS HB H HC HP HT HM HD)
      as (t & n_sel & r & H1 & H2 & H3 & H4 & _ & _ & H5 & H6). eexists t, n_sel, _, r.
    split; [exact H1|]. split; [exact H2|]. split; [exact H3|]. split; [exact H4|]. split; [exact H5|]. exact H6.
  Qed.
End After_fit.

Lemma average_unique : forall n answers sel r r', average_answer n answers sel r -> average_answer n answers sel r' -> r = r'.
Proof.
  intros n answers sel r r' [L A] [L' A']. apply list_nth_eq; [congruence|]. intros c Hc. rewrite A, A'; auto; congruence.
Qed.

(** The members that are selected do not depend on the test bag. *)
Lemma same_selection : forall {Q} argsort distance (b : base Q) p X y preds q, sorts argsort -> only_compares argsort ->
  match b with Using _ _ => (forall l, preds <> Crisp l) | _ => True end ->
  trained b p X y preds q ->
  ep_combination p = DistributionSimilarity -> 1 / 2 < INR (ep_n p) * ep_percentage p ->
  exists sel, sel <> [] /\ NoDup sel /\ Forall (fun i => (i < ep_n p)%nat) sel /\
    forall k' X' preds' rows answers, test_bag b q k' X' preds' rows -> members_answer b q X' preds' answers ->
      distributions (length (np_unique y)) answers ->
      exists r, EoQ_predict argsort distance b p q k' X' preds' = Val (Vector r) /\
        average_answer (length (np_unique y)) answers sel r.
Proof.
  intros Q argsort distance b p X y preds q HS HO HB HF HC HP. destruct (trained_size _ _ _ _ _ _ HF) as (HN & HK & _).
  exists (firstn (Z.to_nat (n_selected p)) (argsort (repeat 0 (ep_n p)))).
  assert (Hn : (0 < ep_n p)%nat).
  { destruct (ep_n p); [|lia]. change (INR 0) with 0 in HP. lra. }
  pose proof (n_selected_pos p HP) as N1.
  assert (C : closest (fun i => nth i (repeat 0 (ep_n p)) 0) (ep_n p) (Nat.min (ep_n p) (Z.to_nat (n_selected p)))
                      (firstn (Z.to_nat (n_selected p)) (argsort (repeat 0 (ep_n p))))).
  { pose proof (closest_firstn argsort (repeat 0 (ep_n p)) (Z.to_nat (n_selected p)) HS) as C. rewrite repeat_length in C.
    exact C. }
  destruct C as (C1 & C2 & C3 & _). split.
  { intros E. rewrite E in C2. cbn in C2. lia. }
  split; [auto|]. split; [auto|]. intros k' X' preds' rows answers HT HM HD.
  destruct HF as (S & B & ppf & k & given & g & g' & H). rewrite <- HK in *.
  destruct (distribution_strategy B ppf argsort distance b p k X y preds given g q g' k' X' preds' rows answers HS HB H HC HP HT HM HD)
    as (t & n_sel & r & H1 & _ & _ & _ & H2 & H3 & _ & H4 & _). specialize (H2 HO). exists r. split; [auto|].
  rewrite H2, H3 in H4. exact H4.
Qed.

(** ** Average error, order, unanimity, for ensembles after fit *)

Lemma between_after_fit : forall {Q} argsort distance (b : base Q) p X y preds q k' X' preds' answers r,
  sorts argsort -> trained b p X y preds q -> one_vector (ep_combination p) ->
  (ep_combination p = CMedian -> length (np_unique y) = 2%nat) ->
  members_answer b q X' preds' answers -> distributions (length (np_unique y)) answers ->
  EoQ_predict argsort distance b p q k' X' preds' = Val (Vector r) ->
  forall c, (c < length (np_unique y))%nat -> exists i j, (i < ep_n p)%nat /\ (j < ep_n p)%nat /\
    nth c (nth i answers []) 0 <= nth c r 0 <= nth c (nth j answers []) 0.
Proof.
  intros Q argsort distance b p X y preds q k' X' preds' answers r HS HF. destruct (trained_size _ _ _ _ _ _ HF) as (HN & HK & _).
  rewrite <- HK. destruct HF as (S & B & ppf & k & given & g & g' & H). intros HV H2 HM HD HR.
  exact (result_between B ppf argsort distance b p k X y preds given g q g' k' X' preds' answers r HS H HV H2 HM HD HR).
Qed.

Lemma error_after_fit : forall {Q} argsort distance (b : base Q) p X y preds q k' X' preds' answers r t,
  sorts argsort -> trained b p X y preds q ->
  (ep_combination p = CMean \/ ep_combination p = PrevalenceSimilarity \/ ep_combination p = DistributionSimilarity) ->
  members_answer b q X' preds' answers -> distributions (length (np_unique y)) answers ->
  EoQ_predict argsort distance b p q k' X' preds' = Val (Vector r) ->
  exists sel, sel <> [] /\ Forall (fun i => (i < ep_n p)%nat) sel /\ (ep_combination p = CMean -> sel = seq 0 (ep_n p)) /\
    mae (length (np_unique y)) r t <= rmean (map (fun i => mae (length (np_unique y)) (nth i answers []) t) sel).
Proof.
  intros Q argsort distance b p X y preds q k' X' preds' answers r t HS HF. destruct (trained_size _ _ _ _ _ _ HF) as (HN & HK & _).
  rewrite <- HK. destruct HF as (S & B & ppf & k & given & g & g' & H). intros HV HM HD HR.
  exact (selected_error B ppf argsort distance b p k X y preds given g q g' k' X' preds' answers r t HS H HV HM HD HR).
Qed.

(** The mean strategy is at most as wrong as its members on average. *)
Lemma mean_error_after_fit : forall {Q} argsort distance (b : base Q) p X y preds q k' X' preds' answers r t,
  trained b p X y preds q -> ep_combination p = CMean ->
  members_answer b q X' preds' answers -> distributions (length (np_unique y)) answers ->
  EoQ_predict argsort distance b p q k' X' preds' = Val (Vector r) ->
  mae (length (np_unique y)) r t <= rmean (map (fun a => mae (length (np_unique y)) a t) answers).
Proof.
  intros Q argsort distance b p X y preds q k' X' preds' answers r t HF HC HM HD HR.
  destruct (trained_size _ _ _ _ _ _ HF) as (HN & HK & _).
  destruct (Nat.eq_0_gt_0_cases (ep_n p)) as [En|En].
  { exfalso. unfold EoQ_predict in HR. rewrite <- HK in HD. 
    rewrite (members_prevalences _ _ _ _ _ answers HN HM (arrays_distributions _ _ HD)) in HR. cbn [obind] in HR.
    unfold combine_members in HR. rewrite HC in HR. destruct HM as (HL & _). rewrite HN, En in HL. destruct answers; discriminate. }
  destruct (mean_after_fit Q argsort distance b p X y preds q k' X' preds' answers HF HM HD En HC) as (r' & E & A & _).
  assert (r' = r) by congruence. subst r'.
  destruct HM as (HL & _). rewrite HN in HL.
  assert (NE : seq 0 (ep_n p) <> []) by (destruct (ep_n p); [lia|discriminate]).
  pose proof (average_error _ _ _ _ t NE A) as J.
  rewrite <- (map_map (fun i => nth i answers []) (fun a => mae (length (np_unique y)) a t)) in J.
  rewrite <- HL, (tabulate_id answers []) in J. exact J.
Qed.

Lemma unanimous_after_fit : forall {Q} argsort distance (b : base Q) p X y preds q k' X' preds' answers a r,
  sorts argsort -> trained b p X y preds q -> one_vector (ep_combination p) ->
  members_answer b q X' preds' answers -> Forall (fun r => r = a) answers -> distribution_over (length (np_unique y)) a ->
  EoQ_predict argsort distance b p q k' X' preds' = Val (Vector r) -> r = a.
Proof.
  intros Q argsort distance b p X y preds q k' X' preds' answers a r HS HF. destruct (trained_size _ _ _ _ _ _ HF) as (HN & HK & _).
  rewrite <- HK. destruct HF as (S & B & ppf & k & given & g & g' & H). intros HV HM HA Da HR.
  exact (unanimous B ppf argsort distance b p k X y preds given g q g' k' X' preds' answers a r HS H HV HM HA Da HR).
Qed.

Lemma order_after_fit : forall {Q Q'} argsort argsort' distance distance' (b : base Q) (b' : base Q') p p' X y preds X1 y1 preds1 q q' k2 X2 preds2 k3 X3 preds3 answers answers',
  (ep_combination p = CMean \/ ep_combination p = CMedian) -> ep_combination p' = ep_combination p ->
  trained b p X y preds q -> trained b' p' X1 y1 preds1 q' -> length (np_unique y1) = length (np_unique y) ->
  members_answer b q X2 preds2 answers -> members_answer b' q' X3 preds3 answers' -> Permutation answers answers' ->
  distributions (length (np_unique y)) answers ->
  EoQ_predict argsort distance b p q k2 X2 preds2 = EoQ_predict argsort' distance' b' p' q' k3 X3 preds3.
Proof.
  intros Q Q' argsort argsort' distance distance' b b' p p' X y preds X1 y1 preds1 q q' k2 X2 preds2 k3 X3 preds3 answers answers' HC HE HF HF' HK HM HM' HP HD.
  destruct (trained_size _ _ _ _ _ _ HF) as (HN & HK1 & _). destruct (trained_size _ _ _ _ _ _ HF') as (HN' & HK2 & _).
  apply (order_irrelevant argsort argsort' distance distance' b b' p p' q q' k2 X2 preds2 k3 X3 preds3 answers answers'); auto.
  - rewrite HK1, HK2. auto.
  - rewrite HK1. auto.
Qed.

Lemma wrong_length_after_fit : forall {Q} argsort distance (b : base Q) p X y preds q k' X' preds' answers i,
  trained b p X y preds q -> members_answer b q X' preds' answers -> (i < ep_n p)%nat ->
  length (nth i answers []) <> length (np_unique y) -> length (nth i answers []) <> 1%nat ->
  EoQ_predict argsort distance b p q k' X' preds' = Err ValueError.
Proof.
  intros Q argsort distance b p X y preds q k' X' preds' answers i HF HM Hi H1 H2.
  destruct (trained_size _ _ _ _ _ _ HF) as (HN & HK & _). rewrite <- HK in H1.
  exact (wrong_length argsort distance b p q k' X' preds' answers i HN HM Hi H1 H2).
Qed.

Lemma copied_after_fit : forall {Q} argsort distance (b : base Q) p X y preds q k' X' preds' answers answers' r,
  trained b p X y preds q -> members_answer b q X' preds' answers ->
  widened (length (np_unique y)) answers answers' -> ep_combination p = CMean ->
  EoQ_predict argsort distance b p q k' X' preds' = Val (Vector r) ->
  exists avg, average_answer (length (np_unique y)) answers' (seq 0 (ep_n p)) avg /\
    forall c, (c < length (np_unique y))%nat -> nth c r 0 = nth c avg 0 / rsum avg.
Proof.
  intros Q argsort distance b p X y preds q k' X' preds' answers answers' r HF HM HW HC HR.
  destruct (trained_size _ _ _ _ _ _ HF) as (HN & HK & _). rewrite <- HK in *.
  exact (one_number_copied argsort distance b p q k' X' preds' answers answers' r HN HM HW HC HR).
Qed.

Lemma crisp_after_fit : forall {Q} argsort distance fit predict p X y preds (q : eoq Q) k' X' l answers, sorts argsort ->
  trained (Using fit predict) p X y preds q ->
  (ep_combination p = DistributionSimilarity \/ ep_combination p = AllStrategies) -> (0 < ep_n p)%nat ->
  members_answer (Using fit predict) q X' (Crisp l) answers -> distributions (length (np_unique y)) answers ->
  EoQ_predict argsort distance (Using fit predict) p q k' X' (Crisp l) = Err ValueError.
Proof.
  intros Q argsort distance fit predict p X y preds q k' X' l answers HS HF HC Hn HM HD.
  destruct (trained_size _ _ _ _ _ _ HF) as (HN & HK & _). rewrite <- HK in HD.
  exact (crisp_fails argsort distance fit predict p q k' X' l answers HS HC HN Hn HM HD).
Qed.

Lemma all_after_fit : forall {Q} argsort distance (b : base Q) p X y preds q k X' preds' m0 m1 m2 m3,
  trained b p X y preds q ->
  EoQ_predict argsort distance b (with_strategy CMean p) q k X' preds' = Val (Vector m0) ->
  EoQ_predict argsort distance b (with_strategy CMedian p) q k X' preds' = Val (Vector m1) ->
  EoQ_predict argsort distance b (with_strategy PrevalenceSimilarity p) q k X' preds' = Val (Vector m2) ->
  EoQ_predict argsort distance b (with_strategy DistributionSimilarity p) q k X' preds' = Val (Vector m3) ->
  distribution_over (length (np_unique y)) m0 -> distribution_over (length (np_unique y)) m1 ->
  distribution_over (length (np_unique y)) m2 -> distribution_over (length (np_unique y)) m3 ->
  exists m, EoQ_predict argsort distance b (with_strategy AllStrategies p) q k X' preds' =
              Val (Dictionary (Val m0) (Val m1) (Val m2) (Val m3) (Val m)) /\
    (forall c, (c < length (np_unique y))%nat -> nth c m 0 = (nth c m0 0 + nth c m1 0 + nth c m2 0 + nth c m3 0) / 4) /\
    distribution_over (length (np_unique y)) m.
Proof.
  intros Q argsort distance b p X y preds q k X' preds' m0 m1 m2 m3 HF. destruct (trained_size _ _ _ _ _ _ HF) as (HN & HK & _).
  rewrite <- HK. apply all_strategies.
Qed.

Lemma trained_any_strategy : forall {Q} (b : base Q) c p X y preds q,
  trained b (with_strategy c p) X y preds q <-> trained b p X y preds q.
Proof.
  intros Q b c p X y preds q. split; intros (S & B & ppf & k & given & g & g' & H); exists S, B, ppf, k, given, g, g'; exact H.
Qed.
