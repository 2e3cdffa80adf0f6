(** * PDFOrdinaly.predict, functions as distances, counterexamples and examples. *)

From Coq Require Import Reals List ZArith Lia Lra Bool Arith Permutation.
From Verif Require Import Num Spec L_Num M_Baselines L_Baselines M_Metrics L_Metrics M_Bags L_Bags M_Search
  L_Search2 M_Optim Spec_Optim L_Optim L_Optim2 L_Optim3 L_Optim4 L_Optim5 M_Match Spec_Match L_Match L_Match2 L_Match3 L_Match4
  L_Match5 L_Match6 L_Match7 L_Match8.
Import ListNotations.
Open Scope R_scope.

(** ** PDFOrdinaly.predict *)

Lemma PDFO_not_none : forall N cvx d m bag, d <> OtherOrdinalDistance ->
  snd (PDFO_predict N cvx d m bag) <> Val None.
Proof.
  intros N cvx d m bag Hd. unfold PDFO_predict. destruct (mt_represent m bag); [|discriminate|discriminate].
  destruct d; [| | |congruence]; destruct (matching_predict _ _ _ _ _ _) as [m' [p| |]]; discriminate.
Qed.

Lemma PDFO_recovers : forall N fuel cvx n_bins d meth y preds m bags ks bag,
  exact_cvx cvx -> exact_qp (solve_qp N) -> d <> OtherOrdinalDistance ->
  PDFO_fit N fuel n_bins d meth y preds = Val m ->
  distributions (length (np_unique y)) preds ->
  identifiable (mt_bins m) (mt_classes m) (mt_T m) ->
  let samples := class_samples (np_unique y) (y_ext y (length preds)) preds in
  copies_of ks samples bag -> bag <> [] ->
  let result := snd (PDFO_predict N cvx d (after_predictions N cvx (pdfo_criterion d) 0 m bags) bag) in
  (forall q, result = Val q -> q = Some (copies_prevalences ks samples bag)) /\
  (answering_cvx cvx -> answering_qp (solve_qp N) -> result = Val (Some (copies_prevalences ks samples bag))).
Proof.
  intros N fuel cvx n_bins d meth y preds m bags ks bag HX HQ Hd HF HDp HI samples HK Hb result.
  pose proof (PDFO_consistent N fuel cvx n_bins d meth y preds m bags ks bag HX HQ Hd HF HDp HI HK Hb) as [H1 H2].
  fold samples in H1, H2.
  assert (HS : Forall (fun s => s <> []) samples).
  { destruct (PDFO_fit_inv _ _ _ _ _ _ _ _ HF) as (Hnb & Hn & Hm & HM).
    eapply fit_matching_inv; [|apply pdfo_nil|exact HM]. apply pdfo_averages'; auto; lia. }
  assert (D : forall q, snd (matching_predict N cvx (pdfo_criterion d) 0
         (after_predictions N cvx (pdfo_criterion d) 0 m bags) bag) = Val q -> distribution q).
  { intros q Hq. rewrite (H1 q Hq). destruct HK as [HK1 HK2]. apply (copies_distribution ks samples bag HK1 Hb HK2). }
  split.
  - intros [q|] Hq; [|exfalso; eapply PDFO_not_none; eauto].
    apply (PDFO_predict_matching N cvx d _ bag q Hd D) in Hq. f_equal. now apply H1.
  - intros A1 A2. apply (PDFO_predict_matching N cvx d _ bag _ Hd D). now apply H2.
Qed.

(** The object after PDFOrdinaly predictions. *)
Lemma PDFO_state : forall N cvx d m bag, d <> OtherOrdinalDistance ->
  fst (PDFO_predict N cvx d m bag) = fst (matching_predict N cvx (pdfo_criterion d) 0 m bag).
Proof.
  intros N cvx d m bag Hd. unfold PDFO_predict, matching_predict. destruct (mt_represent m bag); auto.
  destruct d; [| | |congruence]; destruct (estimate _ _ _ _ _ _); reflexivity.
Qed.

Lemma PDFO_best : forall N fuel cvx n_bins d meth y preds m bags bag p,
  exact_cvx cvx -> exact_qp (solve_qp N) -> d <> OtherOrdinalDistance ->
  distributions (length (np_unique y)) preds ->
  (d = OL2 -> independent_columns (mt_bins m) (mt_classes m) (mt_T m)) ->
  PDFO_fit N fuel n_bins d meth y preds = Val m ->
  snd (PDFO_predict N cvx d (after_predictions N cvx (pdfo_criterion d) 0 m bags) bag) = Val (Some p) ->
  exists t dist, pdfo_criterion d = Named dist /\
    mt_represent m bag = Val t /\ best_for dist (mt_bins m) (mt_classes m) (mt_T m) t p.
Proof.
  intros N fuel cvx n_bins d meth y preds m bags bag p HX HQ Hd HDp HI HF H.
  apply PDFO_predict_matching in H; auto.
  - eapply PDFO_matching_best; eauto.
  - intros q Hq. edestruct PDFO_matching_best as (t & dist & _ & _ & HB); eauto.
    destruct dist; cbn [best_for] in HB; [apply HB|apply HB|apply HB|contradiction].
Qed.

Lemma ACOrdinal_length : forall N fuel y preds m bag v, ACOrdinal_fit N fuel y preds = Val m ->
  mt_represent m bag = Val v -> length v = mt_bins m.
Proof.
  intros N fuel y preds m bag v H Hv. unfold ACOrdinal_fit in H. destruct (AC_fit y preds); try discriminate.
  cbn [obind] in H. destruct (all_some _); [|discriminate]. inversion H; subst m. cbn [new_matcher mt_represent mt_bins] in *.
  unfold aco_represent in Hv. destruct (class_frequencies _ _) eqn:E; try discriminate.
  cbn in Hv. inversion Hv. rewrite cumsum_length. unfold class_frequencies in E. destruct bag; [discriminate|].
  inversion E. now rewrite map_length.
Qed.

(** ** A function as distance *)

Lemma callable_two : forall {A} N cvx f tol (m : matcher (list A)) bag p, 0 < tol ->
  snd (matching_predict N cvx (Callable f) tol m bag) = Val p ->
  distribution_over 2 p.
Proof.
  intros A N cvx f tol m bag p Ht H. unfold matching_predict in H.
  destruct (mt_represent m bag) as [t| |]; try discriminate. unfold estimate in H.
  destruct (Nat.ltb _ _); [discriminate|].
  destruct (global_search _ _ _ _ _ _) as [[ms q]| |] eqn:E; try discriminate.
  cbn [snd] in H. inversion H; subst p.
  assert (G : exists losses g, global_search_from g tol losses = Val q).
  { unfold global_search in E. destruct (mt_mixtures m).
    - destruct (global_search_from _ _ _) eqn:EG; try discriminate. cbn in E. inversion E; subst. eauto.
    - destruct (global_search_from _ _ _) eqn:EG; try discriminate. cbn in E. inversion E; subst. eauto. }
  destruct G as (losses & g & EG).
  destruct (global_valid g tol losses Ht) as [(p & Hp & R)|(Hp & _)]; [|congruence].
  assert (p = q) by congruence. subst p.
  split; [reflexivity|]. split; [|simpl; lra].
  apply Forall_cons; [lra|]. apply Forall_cons; [lra|]. apply Forall_nil.
Qed.

Lemma named_one_each : forall {A} N fuel cvx dist tol d (rep : list A -> out (list R)) cols bags bag p,
  let m := new_matcher N fuel (Named dist) d rep cols in
  exact_cvx cvx -> exact_qp (solve_qp N) ->
  snd (matching_predict N cvx (Named dist) tol (after_predictions N cvx (Named dist) tol m bags) bag) = Val p ->
  distribution_over (length cols) p.
Proof.
  intros A N fuel cvx dist tol d rep cols bags bag p m Hc Hq H.
  destruct (predicted_state N cvx (Named dist) tol bags m (new_matcher_cache _ _ _ _ _ _)) as [S C].
  set (m' := after_predictions N cvx (Named dist) tol m bags) in *.
  destruct S as (E1 & E2 & E3 & E4 & E5).
  unfold matching_predict in H. destruct (mt_represent m' bag) as [t| |]; try discriminate.
  assert (T1 : mt_classes m' = length cols) by (rewrite E1; reflexivity).
  unfold estimate in H. destruct dist; [| | |discriminate].
  - destruct (solve_hd _ _ _ _ _ _) as [[P x]| |] eqn:E; try discriminate. cbn [snd] in H. inversion H; subst x.
    destruct (cached_hd _ _ _ _ _ C E) as (P0 & R & H1 & H2 & H3).
    apply run_problem_best in R; auto. rewrite H1, T1 in R. apply R.
  - cbn [snd] in H. rewrite E4 in H.
    assert (EL : mt_l2 m = compute_l2_param_train N fuel d (length cols) (mt_T m)) by reflexivity.
    destruct (mt_l2 m) as [[[G Cm] b]|]; [|discriminate]. rewrite T1 in H.
    rewrite E2, E3 in H. symmetry in EL. apply (l2_any N fuel d (length cols) (mt_T m) t G Cm b p Hq EL H).
  - destruct (solve_l1 _ _ _ _ _ _) as [[P x]| |] eqn:E; try discriminate. cbn [snd] in H. inversion H; subst x.
    destruct (cached_l1 _ _ _ _ _ C E) as (P0 & R & H1 & H2 & H3).
    apply run_problem_best in R; auto. rewrite H1, T1 in R. apply R.
Qed.
