(** * Ensembles of quantifiers: all strategies, bounds, missing classes, options that fail. *)

From Coq Require Import Reals List ZArith Lra Lia Permutation Bool.
From Verif Require Import Num Spec L_Num M_Baselines L_EM M_Metrics L_Metrics M_Bags Spec_Bags L_Bags M_Match Spec_Match
  L_Match L_Match2 L_Match3 L_Match6 L_Match7 L_Match12 M_Reg Spec_Reg L_Reg L_Reg2 M_Eoq Spec_Eoq L_Eoq L_Eoq2 L_Eoq3 L_Eoq4.
Import ListNotations.
Open Scope R_scope.

(** ** All the strategies *)

Lemma strategy_at_fit : forall {S Q} (B : settable S) ppf (b : base Q) c p k X y preds given g,
  EoQ_fit B ppf b (with_strategy c p) k X y preds given g = EoQ_fit B ppf b p k X y preds given g.
Proof. reflexivity. Qed.

Lemma vmap2_length : forall f (a b : list R), length a = length b -> length (vmap2 f a b) = length a.
Proof. intros f a. induction a as [|x a IH]; intros [|y b] L; try discriminate; auto. cbn. f_equal. apply IH. now inversion L. Qed.
Lemma vmap2_nth : forall f (a b : list R) i, length a = length b -> (i < length a)%nat ->
  nth i (vmap2 f a b) 0 = f (nth i a 0) (nth i b 0).
Proof.
  intros f a. induction a as [|x a IH]; intros [|y b] i L Hi; try discriminate; cbn in Hi; try lia.
  destruct i; [reflexivity|]. cbn. apply IH; [now inversion L|lia].
Qed.
Lemma vmap2_sum : forall (a b : list R), length a = length b -> rsum (vmap2 Rplus a b) = rsum a + rsum b.
Proof.
  intros a. induction a as [|x a IH]; intros [|y b] L; try discriminate; [cbn; lra|]. cbn. rewrite IH by (now inversion L). lra.
Qed.

Lemma vdiv_nth : forall l s i, nth i (vdiv l s) 0 = nth i l 0 / s.
Proof.
  intros l s. induction l as [|x l IH]; intros [|i]; cbn; try (unfold Rdiv; ring). apply IH.
Qed.

Lemma all_strategies : forall {Q} argsort distance (b : base Q) p q k X preds m0 m1 m2 m3,
  EoQ_predict argsort distance b (with_strategy CMean p) q k X preds = Val (Vector m0) ->
  EoQ_predict argsort distance b (with_strategy CMedian p) q k X preds = Val (Vector m1) ->
  EoQ_predict argsort distance b (with_strategy PrevalenceSimilarity p) q k X preds = Val (Vector m2) ->
  EoQ_predict argsort distance b (with_strategy DistributionSimilarity p) q k X preds = Val (Vector m3) ->
  distribution_over (length (eq_classes q)) m0 -> distribution_over (length (eq_classes q)) m1 ->
  distribution_over (length (eq_classes q)) m2 -> distribution_over (length (eq_classes q)) m3 ->
  exists m, EoQ_predict argsort distance b (with_strategy AllStrategies p) q k X preds =
              Val (Dictionary (Val m0) (Val m1) (Val m2) (Val m3) (Val m)) /\
    (forall c, (c < length (eq_classes q))%nat -> nth c m 0 = (nth c m0 0 + nth c m1 0 + nth c m2 0 + nth c m3 0) / 4) /\
    distribution_over (length (eq_classes q)) m.
Proof.
  intros Q argsort distance b p q k X preds m0 m1 m2 m3 H0 H1 H2 H3 D0 D1 D2 D3. unfold EoQ_predict in *.
  change (member_prevalences b (with_strategy CMean p) q X preds) with (member_prevalences b p q X preds) in H0.
  change (member_prevalences b (with_strategy CMedian p) q X preds) with (member_prevalences b p q X preds) in H1.
  change (member_prevalences b (with_strategy PrevalenceSimilarity p) q X preds) with (member_prevalences b p q X preds) in H2.
  change (member_prevalences b (with_strategy DistributionSimilarity p) q X preds) with (member_prevalences b p q X preds) in H3.
  change (member_prevalences b (with_strategy AllStrategies p) q X preds) with (member_prevalences b p q X preds).
  destruct (member_prevalences b p q X preds) as [prevs| |]; try discriminate. cbn [obind] in *.
  unfold combine_members in *. cbn [with_strategy ep_combination] in *.
  change (prevalence_selected argsort (with_strategy PrevalenceSimilarity p)) with (prevalence_selected argsort p) in H2.
  change (prevalence_selected argsort (with_strategy AllStrategies p)) with (prevalence_selected argsort p).
  change (test_distribution b (with_strategy DistributionSimilarity p)) with (test_distribution b p) in H3.
  change (test_distribution b (with_strategy AllStrategies p)) with (test_distribution b p).
  change (distribution_selected argsort distance (with_strategy DistributionSimilarity p)) with (distribution_selected argsort distance p) in H3.
  change (distribution_selected argsort distance (with_strategy AllStrategies p)) with (distribution_selected argsort distance p).
  set (n := length (eq_classes q)) in *.
  apply omap_inv in H0. destruct H0 as (a0 & E0 & X0). apply omap_inv in H1. destruct H1 as (a1 & E1 & X1).
  apply obind_inv in H2. destruct H2 as (s & ES & H2). apply omap_inv in H2. destruct H2 as (a2 & E2 & X2).
  apply obind_inv in H3. destruct H3 as (d & ED & H3). apply omap_inv in H3. destruct H3 as (a3 & E3 & X3).
  inversion X0; inversion X1; inversion X2; inversion X3; subst a0 a1 a2 a3.
  rewrite ES. cbn [obind]. rewrite ED. cbn [omap]. cbv zeta. rewrite ?E0, ?E1, ?E2, ?E3. cbn [average_of_four obind omap]. rewrite ?E3. cbn [omap].
  eexists. split; [reflexivity|].
  destruct D0 as [L0 [N0 S0]], D1 as [L1 [N1 S1]], D2 as [L2 [N2 S2]], D3 as [L3 [N3 S3]].
  assert (LA : length (vmap2 Rplus m0 m1) = n) by (rewrite vmap2_length; lia).
  assert (LB : length (vmap2 Rplus (vmap2 Rplus m0 m1) m2) = n) by (rewrite vmap2_length; lia).
  assert (LC : length (vmap2 Rplus (vmap2 Rplus (vmap2 Rplus m0 m1) m2) m3) = n) by (rewrite vmap2_length; lia).
  assert (NN : forall c, (c < n)%nat -> nth c (vdiv (vmap2 Rplus (vmap2 Rplus (vmap2 Rplus m0 m1) m2) m3) 4) 0 =
                 (nth c m0 0 + nth c m1 0 + nth c m2 0 + nth c m3 0) / 4).
  { intros c Hc. rewrite vdiv_nth. rewrite !vmap2_nth by lia. reflexivity. }
  split; [exact NN|]. split; [rewrite vdiv_length; auto|]. split.
  - apply Forall_forall. intros x Hx. apply (In_nth _ _ 0) in Hx. destruct Hx as (c & Hc & <-). rewrite vdiv_length, LC in Hc.
    rewrite NN by auto.
    assert (G : forall m, length m = n -> Forall (fun x => 0 <= x) m -> 0 <= nth c m 0).
    { intros m L F. rewrite Forall_forall in F. apply F. apply nth_In. lia. }
    pose proof (G m0 L0 N0). pose proof (G m1 L1 N1). pose proof (G m2 L2 N2). pose proof (G m3 L3 N3). lra.
  - rewrite vdiv_sum, !vmap2_sum by lia. lra.
Qed.

(** ** Averages of members *)

Lemma fitted_rows : forall {S Q} (B : settable S) ppf (b : base Q) p k X y preds given g q g',
  EoQ_fit B ppf b p k X y preds given g = Some (Val q, g') -> length (eq_distributions q) = ep_n p.
Proof.
  intros S Q B ppf b p k X y preds given g q g' H. destruct (EoQ_fit_inv _ _ _ _ _ _ _ _ _ _ _ _ H) as (bags & _ & F).
  destruct b as [fit pr|fit pr|]; [| |destruct F].
  - destruct (fit_without_inv _ _ _ _ _ _ _ F) as (_ & _ & _ & _ & _ & _ & _ & E & _). rewrite E. apply repeat_length.
  - destruct (fit_using_inv _ _ _ _ _ _ _ F) as (_ & _ & _ & _ & _ & _ & _ & HD). unfold eoq_prediction_distributions in HD.
    destruct (described (length (np_unique y)) preds) as [rows|].
    + pose proof (collect_length _ _ HD) as L. now rewrite map_length, seq_length in L.
    + destruct (ep_function p), (ep_n p); try discriminate; inversion HD; auto; cbn; now rewrite repeat_length.
Qed.

Lemma slice_in : forall {A} z (l : list A) x, In x (slice z l) -> In x l.
Proof.
  intros A z l x H. unfold slice in H. destruct (z <? 0)%Z.
  - rewrite <- (firstn_skipn (Z.to_nat (Z.of_nat (length l) + z)) l). apply in_or_app. now left.
  - rewrite <- (firstn_skipn (Z.to_nat z) l). apply in_or_app. now left.
Qed.

Lemma argsort_range : forall argsort ds i, sorts argsort -> In i (argsort ds) -> (i < length ds)%nat.
Proof.
  intros argsort ds i HS H. apply (Permutation_in _ (proj1 (HS ds))) in H. apply in_seq in H. lia.
Qed.

Lemma mean_of_rows_inv : forall n answers sel r, distributions n answers -> Forall (fun i => (i < length answers)%nat) sel ->
  mean_of_rows n (rows_at sel answers) = Val r -> sel <> [] /\ average_answer n answers sel r.
Proof.
  intros n answers sel r HD HF H. assert (N : sel <> []) by (intros ->; discriminate).
  assert (NE : rows_at sel answers <> []) by (unfold rows_at; destruct sel; [congruence|discriminate]).
  split; [auto|]. destruct (mean_of_rows_val n _ NE (rows_at_distributions _ _ _ HD HF)) as (E & _).
  assert (r = col_means n (rows_at sel answers)) by congruence. subst r. apply average_of_rows.
Qed.

Lemma result_average : forall {Q} argsort distance (b : base Q) p q k X preds answers r, sorts argsort ->
  length (eq_quantifiers q) = ep_n p -> length (eq_distributions q) = ep_n p ->
  (ep_combination p = CMean \/ ep_combination p = PrevalenceSimilarity \/ ep_combination p = DistributionSimilarity) ->
  members_answer b q X preds answers -> distributions (length (eq_classes q)) answers ->
  EoQ_predict argsort distance b p q k X preds = Val (Vector r) ->
  exists sel, sel <> [] /\ Forall (fun i => (i < ep_n p)%nat) sel /\
    average_answer (length (eq_classes q)) answers sel r /\ (ep_combination p = CMean -> sel = seq 0 (ep_n p)).
Proof.
  intros Q argsort distance b p q k X preds answers r HS HN HR HC HM HD H. unfold EoQ_predict in H.
  rewrite (members_prevalences _ _ _ _ _ answers HN HM (arrays_distributions _ _ HD)) in H. cbn [obind] in H.
  unfold combine_members in H. destruct HM as (HL & _). rewrite HN in HL.
  destruct HC as [HC|[HC|HC]]; rewrite HC in H.
  - exists (seq 0 (ep_n p)). apply omap_inv in H. destruct H as (r' & H & E). inversion E; subst r'.
    assert (EQ : rows_at (seq 0 (ep_n p)) answers = answers) by (unfold rows_at; rewrite <- HL; apply (tabulate_id answers [])).
    assert (F : Forall (fun i => (i < length answers)%nat) (seq 0 (ep_n p)))
      by (apply Forall_forall; intros i Hi; apply in_seq in Hi; lia).
    assert (H' : mean_of_rows (length (eq_classes q)) (rows_at (seq 0 (ep_n p)) answers) = Val r) by (now rewrite EQ).
    destruct (mean_of_rows_inv _ _ _ _ HD F H') as [N A]. rewrite HL in F. auto.
  - apply obind_inv in H. destruct H as (sel & ES & H). apply omap_inv in H. destruct H as (r' & H & E). inversion E; subst r'.
    unfold prevalence_selected in ES. apply omap_inv in ES. destruct ES as (ds & ED & ->).
    pose proof (collect_length _ _ ED) as LD. rewrite map_length in LD.
    assert (F : Forall (fun i => (i < length answers)%nat) (slice (n_selected p) (argsort ds))).
    { apply Forall_forall. intros i Hi. apply slice_in in Hi. apply (argsort_range _ _ _ HS) in Hi. lia. }
    destruct (mean_of_rows_inv _ _ _ _ HD F H) as [N A]. exists (slice (n_selected p) (argsort ds)).
    rewrite HL in F. split; [auto|]. split; [auto|]. split; [auto|]. rewrite HC. discriminate.
  - apply obind_inv in H. destruct H as (sel & ES & H). apply omap_inv in H. destruct H as (r' & H & E). inversion E; subst r'.
    apply obind_inv in ES. destruct ES as (t & _ & ES). unfold distribution_selected in ES.
    apply omap_inv in ES. destruct ES as (ds & ED & ->).
    pose proof (collect_length _ _ ED) as LD. rewrite map_length in LD.
    assert (F : Forall (fun i => (i < length answers)%nat) (slice (n_selected p) (argsort ds))).
    { apply Forall_forall. intros i Hi. apply slice_in in Hi. apply (argsort_range _ _ _ HS) in Hi. lia. }
    destruct (mean_of_rows_inv _ _ _ _ HD F H) as [N A]. exists (slice (n_selected p) (argsort ds)).
    rewrite HL in F. split; [auto|]. split; [auto|]. split; [auto|]. rewrite HC. discriminate.
Qed.

(** An average is between the smallest and the largest. *)
Lemma rmean_between : forall {A} (f : A -> R) l, l <> [] -> exists i j, In i l /\ In j l /\ f i <= rmean (map f l) <= f j.
Proof.
  intros A f l Hl.
  assert (M : exists i, In i l /\ forall x, In x l -> f i <= f x).
  { destruct l as [|a l]; [congruence|]. clear Hl. revert a. induction l as [|a' l IH]; intros a.
    - exists a. split; [now left|]. intros x [->|[]]. lra.
    - destruct (IH a') as (i & Hi & H). destruct (Rle_dec (f a) (f i)) as [L|L].
      + exists a. split; [now left|]. intros x [->|Hx]; [lra|]. apply Rle_trans with (f i); auto.
      + exists i. split; [now right|]. intros x [->|Hx]; [lra|auto]. }
  assert (N : exists i, In i l /\ forall x, In x l -> f x <= f i).
  { destruct l as [|a l]; [congruence|]. clear Hl M. revert a. induction l as [|a' l IH]; intros a.
    - exists a. split; [now left|]. intros x [->|[]]. lra.
    - destruct (IH a') as (i & Hi & H). destruct (Rle_dec (f i) (f a)) as [L|L].
      + exists a. split; [now left|]. intros x [->|Hx]; [lra|]. apply Rle_trans with (f i); auto.
      + exists i. split; [now right|]. intros x [->|Hx]; [lra|auto]. }
  destruct M as (i & Hi & Mi). destruct N as (j & Hj & Nj). exists i, j. split; [auto|]. split; [auto|].
  unfold rmean. rewrite map_length.
  assert (P : 0 < INR (length l)) by (apply INR_pos; destruct l; [congruence|cbn; lia]).
  assert (LO : INR (length l) * f i <= rsum (map f l)).
  { rewrite <- (rsum_map_const (f i) l). apply rsum_map_le. auto. }
  assert (HI : rsum (map f l) <= INR (length l) * f j).
  { rewrite <- (rsum_map_const (f j) l). apply rsum_map_le. auto. }
  split; apply (Rmult_le_reg_l (INR (length l))); auto; replace (INR (length l) * (rsum (map f l) / INR (length l))) with (rsum (map f l)) by (field; lra); lra.
Qed.

Lemma result_between : forall {S Q} (B : settable S) ppf argsort distance (b : base Q) p k X y preds given g q g' k' X' preds' answers r,
  sorts argsort -> EoQ_fit B ppf b p k X y preds given g = Some (Val q, g') -> one_vector (ep_combination p) ->
  (ep_combination p = CMedian -> length (eq_classes q) = 2%nat) ->
  members_answer b q X' preds' answers -> distributions (length (eq_classes q)) answers ->
  EoQ_predict argsort distance b p q k' X' preds' = Val (Vector r) ->
  forall c, (c < length (eq_classes q))%nat -> exists i j, (i < ep_n p)%nat /\ (j < ep_n p)%nat /\
    nth c (nth i answers []) 0 <= nth c r 0 <= nth c (nth j answers []) 0.
Proof.
  intros S Q B ppf argsort distance b p k X y preds given g q g' k' X' preds' answers r HS HFit HV H2 HM HD H c Hc.
  destruct (fitted_size _ _ _ _ _ _ _ _ _ _ _ _ HFit) as [HN _]. pose proof (fitted_rows _ _ _ _ _ _ _ _ _ _ _ _ HFit) as HR.
  destruct HV as [HV|[HV|HV]].
  - destruct (result_average argsort distance b p q k' X' preds' answers r HS HN HR (or_introl HV) HM HD H) as (sel & NE & F & A & _).
    destruct A as [_ A]. rewrite A by auto.
    destruct (rmean_between (fun i => nth c (nth i answers []) 0) sel NE) as (i & j & Hi & Hj & E).
    rewrite Forall_forall in F. exists i, j. auto.
  - assert (Hn : (0 < ep_n p)%nat).
    { destruct (Nat.eq_0_gt_0_cases (ep_n p)) as [En|En]; [exfalso|auto]. unfold EoQ_predict in H.
      rewrite (members_prevalences _ _ _ _ _ answers HN HM (arrays_distributions _ _ HD)) in H. cbn [obind] in H.
      unfold combine_members in H. rewrite HV in H. destruct HM as (HL & _). rewrite HN, En in HL.
      destruct answers; [discriminate|discriminate]. }
    assert (NE : answers <> []) by (intros ->; destruct HM as (HL & _); cbn in HL; lia).
    specialize (H2 HV). rewrite H2 in *.
    pose proof (medians_val 2 answers NE) as HMd. set (m := map (fun j => median (col j answers)) (seq 0 2)) in *.
    destruct (median_two argsort distance b p q k' X' preds' answers m HV HN Hn H2 HM HD HMd) as [E _].
    assert (r = m) by congruence. subst r. destruct HMd as [_ HMd]. specialize (HMd c Hc).
    destruct HM as (HL & _).
    assert (G : exists i j, (i < length answers)%nat /\ (j < length answers)%nat /\
      nth c (nth i answers []) 0 <= nth c m 0 <= nth c (nth j answers []) 0).
    { destruct HMd as (s & P & A & K). pose proof (Permutation_length P) as L. rewrite map_length in L.
      assert (I : forall i, (i < length answers)%nat -> exists j, (j < length answers)%nat /\ nth i s 0 = nth c (nth j answers []) 0).
      { intros i Hi. assert (In (nth i s 0) (map (fun a => nth c a 0) answers)) as IN.
        { apply (Permutation_in _ P). apply nth_In. lia. }
        apply in_map_iff in IN. destruct IN as (a & E1 & Ha). apply (In_nth _ _ []) in Ha. destruct Ha as (j & Hj & <-).
        exists j. auto. }
      rewrite map_length in K. destruct K as [(h & Lh & ->)|(h & Lh & ->)].
      - destruct (I h ltac:(lia)) as (j & Hj & E1). exists j, j. rewrite E1. repeat split; auto; lra.
      - destruct (I h ltac:(lia)) as (i & Hi & E1). destruct (I (Datatypes.S h) ltac:(lia)) as (j & Hj & E2). exists i, j.
        assert (nth h s 0 <= nth (Datatypes.S h) s 0) by (apply A; lia). rewrite <- E1, <- E2. repeat split; auto; lra. }
    destruct G as (i & j & Hi & Hj & G). exists i, j. repeat split; try lia; apply G.
  - destruct (result_average argsort distance b p q k' X' preds' answers r HS HN HR (or_intror HV) HM HD H) as (sel & NE & F & A & _).
    destruct A as [_ A]. rewrite A by auto.
    destruct (rmean_between (fun i => nth c (nth i answers []) 0) sel NE) as (i & j & Hi & Hj & E).
    rewrite Forall_forall in F. exists i, j. auto.
Qed.

(** The error of the average is at most the average error. *)
Lemma average_error : forall n answers sel r t, sel <> [] -> average_answer n answers sel r ->
  mae n r t <= rmean (map (fun i => mae n (nth i answers []) t) sel).
Proof.
  intros n answers sel r t NE [L A].
  assert (P : 0 < INR (length sel)) by (apply INR_pos; destruct sel; [congruence|cbn; lia]).
  assert (E : rmean (map (fun i => mae n (nth i answers []) t) sel) =
              sumn n (fun c => rmean (map (fun i => Rabs (nth c (nth i answers []) 0 - nth c t 0)) sel)) / INR n).
  { unfold mae, rmean. rewrite map_length, rsum_map_div.
    rewrite (sumn_ext n _ (fun c => rsum (map (fun i => Rabs (nth c (nth i answers []) 0 - nth c t 0)) sel) / INR (length sel)))
      by (intros; now rewrite map_length).
    rewrite sumn_div, (rsum_sumn_swap n (fun i c => Rabs (nth c (nth i answers []) 0 - nth c t 0)) sel). unfold Rdiv. ring. }
  rewrite E. unfold mae. unfold Rdiv. destruct (Nat.eq_dec n 0) as [->|Hn]; [cbn; lra|].
  apply Rmult_le_compat_r.
  { apply Rlt_le, Rinv_0_lt_compat, INR_pos. lia. }
  apply sumn_le. intros c Hc. rewrite A by auto. unfold rmean. rewrite !map_length.
  replace (rsum (map (fun i => nth c (nth i answers []) 0) sel) / INR (length sel) - nth c t 0)
    with (rsum (map (fun i => nth c (nth i answers []) 0 - nth c t 0) sel) / INR (length sel)).
  2:{ rewrite rsum_map_minus, rsum_map_const. field. lra. }
  unfold Rdiv. rewrite Rabs_mult. rewrite (Rabs_right (/ INR (length sel))).
  2:{ apply Rle_ge, Rlt_le, Rinv_0_lt_compat; auto. }
  apply Rmult_le_compat_r; [apply Rlt_le, Rinv_0_lt_compat; auto|]. apply rsum_Rabs_le.
Qed.

Lemma selected_error : forall {S Q} (B : settable S) ppf argsort distance (b : base Q) p k X y preds given g q g' k' X' preds' answers r t,
  sorts argsort -> EoQ_fit B ppf b p k X y preds given g = Some (Val q, g') ->
  (ep_combination p = CMean \/ ep_combination p = PrevalenceSimilarity \/ ep_combination p = DistributionSimilarity) ->
  members_answer b q X' preds' answers -> distributions (length (eq_classes q)) answers ->
  EoQ_predict argsort distance b p q k' X' preds' = Val (Vector r) ->
  exists sel, sel <> [] /\ Forall (fun i => (i < ep_n p)%nat) sel /\ (ep_combination p = CMean -> sel = seq 0 (ep_n p)) /\
    mae (length (eq_classes q)) r t <= rmean (map (fun i => mae (length (eq_classes q)) (nth i answers []) t) sel).
Proof.
  intros S Q B ppf argsort distance b p k X y preds given g q g' k' X' preds' answers r t HS HFit HV HM HD H.
  destruct (fitted_size _ _ _ _ _ _ _ _ _ _ _ _ HFit) as [HN _]. pose proof (fitted_rows _ _ _ _ _ _ _ _ _ _ _ _ HFit) as HR.
  destruct (result_average argsort distance b p q k' X' preds' answers r HS HN HR HV HM HD H) as (sel & NE & F & A & M).
  exists sel. repeat split; auto. now apply average_error.
Qed.

(** Unanimity. *)
Lemma rmean_const : forall {A} (f : A -> R) l v, l <> [] -> (forall x, In x l -> f x = v) -> rmean (map f l) = v.
Proof.
  intros A f l v Hl H. destruct (rmean_between f l Hl) as (i & j & Hi & Hj & E).
  rewrite (H i Hi), (H j Hj) in E. lra.
Qed.

Lemma unanimous : forall {S Q} (B : settable S) ppf argsort distance (b : base Q) p k X y preds given g q g' k' X' preds' answers a r,
  sorts argsort -> EoQ_fit B ppf b p k X y preds given g = Some (Val q, g') -> one_vector (ep_combination p) ->
  members_answer b q X' preds' answers -> Forall (fun r => r = a) answers -> distribution_over (length (eq_classes q)) a ->
  EoQ_predict argsort distance b p q k' X' preds' = Val (Vector r) -> r = a.
Proof.
  intros S Q B ppf argsort distance b p k X y preds given g q g' k' X' preds' answers a r HS HFit HV HM HA Da H.
  destruct (fitted_size _ _ _ _ _ _ _ _ _ _ _ _ HFit) as [HN _]. pose proof (fitted_rows _ _ _ _ _ _ _ _ _ _ _ _ HFit) as HR.
  assert (HD : distributions (length (eq_classes q)) answers).
  { apply Forall_forall. intros x Hx. rewrite Forall_forall in HA. now rewrite (HA x Hx). }
  pose proof (proj1 HM) as HL. rewrite HN in HL. rewrite Forall_forall in HA.
  destruct (or_comm (ep_combination p = CMedian) (ep_combination p = CMean \/ ep_combination p = PrevalenceSimilarity \/ ep_combination p = DistributionSimilarity)) as [_ G].
  assert (HV' : ep_combination p = CMedian \/ (ep_combination p = CMean \/ ep_combination p = PrevalenceSimilarity \/ ep_combination p = DistributionSimilarity))
    by (unfold one_vector in HV; tauto). clear G.
  destruct HV' as [HC|HC].
  - assert (NE : answers <> []).
    { intros ->. unfold EoQ_predict in H.
      rewrite (members_prevalences _ _ _ _ _ [] HN HM (arrays_distributions _ _ HD)) in H. cbn [obind] in H.
      unfold combine_members in H. rewrite HC in H. discriminate. }
    assert (Hn : (0 < ep_n p)%nat) by (rewrite <- HL; destruct answers; [congruence|cbn; lia]).
    assert (Md : medians (length (eq_classes q)) answers a).
    { split; [apply Da|]. intros c Hc.
      assert (EQ : map (fun r => nth c r 0) answers = repeat (nth c a 0) (length answers)).
      { clear - HA. induction answers as [|x l IH]; [reflexivity|]. cbn. f_equal.
        - now rewrite (HA x (or_introl eq_refl)).
        - apply IH. intros y Hy. apply HA. now right. }
      pose proof (median_spec (map (fun r => nth c r 0) answers) ltac:(destruct answers; [congruence|discriminate])) as MS.
      assert (E1 : median (map (fun r => nth c r 0) answers) = nth c a 0).
      { pose proof (median_bounds _ _ (nth c a 0) (nth c a 0) MS) as BD.
        assert (nth c a 0 <= median (map (fun r => nth c r 0) answers) <= nth c a 0); [|lra].
        apply BD. intros x Hx. rewrite EQ in Hx. apply repeat_spec in Hx. lra. }
      now rewrite E1 in MS. }
    destruct (median_strategy argsort distance b p q k' X' preds' answers a HC HN Hn HM HD Md) as [_ K].
    destruct Da as [La [_ Sa]]. destruct (K ltac:(lra)) as [E _]. rewrite Sa, vdiv_1 in E. congruence.
  - destruct (result_average argsort distance b p q k' X' preds' answers r HS HN HR HC HM HD H) as (sel & NE & F & A & _).
    destruct A as [L A]. apply list_nth_eq; [destruct Da; lia|]. intros c Hc. rewrite L in Hc. rewrite A by auto.
    apply rmean_const; [auto|]. intros i Hi. rewrite Forall_forall in F. f_equal. apply HA. apply nth_In.
    specialize (F i Hi). lia.
Qed.

(** The order of the members. *)
Lemma median_perm : forall a b, Permutation a b -> median a = median b.
Proof. intros a b P. unfold median. now rewrite (rsort_perm_eq _ _ P), (Permutation_length P). Qed.

Lemma order_irrelevant : forall {Q Q'} argsort argsort' distance distance' (b : base Q) (b' : base Q') p p' q q' k X preds k' X' preds' answers answers',
  (ep_combination p = CMean \/ ep_combination p = CMedian) -> ep_combination p' = ep_combination p ->
  length (eq_quantifiers q) = ep_n p -> length (eq_quantifiers q') = ep_n p' ->
  length (eq_classes q) = length (eq_classes q') ->
  members_answer b q X preds answers -> members_answer b' q' X' preds' answers' -> Permutation answers answers' ->
  distributions (length (eq_classes q)) answers ->
  EoQ_predict argsort distance b p q k X preds = EoQ_predict argsort' distance' b' p' q' k' X' preds'.
Proof.
  intros Q Q' argsort argsort' distance distance' b b' p p' q q' k X preds k' X' preds' answers answers' HC HE HN HN' HK HM HM' HP HD.
  assert (HD' : distributions (length (eq_classes q')) answers').
  { unfold distributions in *. rewrite <- HK. now rewrite <- HP. }
  unfold EoQ_predict.
  rewrite (members_prevalences _ _ _ _ _ answers HN HM (arrays_distributions _ _ HD)).
  rewrite (members_prevalences _ _ _ _ _ answers' HN' HM' (arrays_distributions _ _ HD')). cbn [obind].
  unfold combine_members. rewrite HE, <- HK. destruct HC as [HC|HC]; rewrite HC.
  - f_equal. unfold mean_of_rows.
    destruct answers as [|a l], answers' as [|a' l']; try reflexivity.
    + apply Permutation_nil in HP. discriminate.
    + apply Permutation_sym, Permutation_nil in HP. discriminate.
    + now rewrite (col_means_perm _ _ _ HP).
  - f_equal. unfold median_of_rows.
    destruct answers as [|a l], answers' as [|a' l']; try reflexivity.
    + apply Permutation_nil in HP. discriminate.
    + apply Permutation_sym, Permutation_nil in HP. discriminate.
    + f_equal. apply map_ext. intros j. apply median_perm. unfold col. now apply Permutation_map.
Qed.

(** ** Answers of another length *)

Lemma member_step : forall {Q} (b : base Q) p q X preds answers i, length (eq_quantifiers q) = ep_n p ->
  members_answer b q X preds answers -> (i < ep_n p)%nat ->
  obind (item (eq_quantifiers q) i) (fun m =>
    obind (match b with
           | Without _ predict => predict m X
           | Using _ predict => obind (test_predictions i preds) (predict m)
           | OtherBase => Val (repeat 0 (length (eq_classes q)))
           end) (store_row (length (eq_classes q)))) = store_row (length (eq_classes q)) (nth i answers []).
Proof.
  intros Q b p q X preds answers i HN (HL & HA) Hi.
  destruct (nth_error (eq_quantifiers q) i) as [m|] eqn:Em; [|apply nth_error_None in Em; lia].
  rewrite (proj2 (item_val _ _ _) Em). cbn [obind]. pose proof (HA i m Em) as H.
  destruct b as [f pr|f pr|]; [| |destruct H].
  - now rewrite H.
  - destruct H as (pi & Hpi & H). rewrite (predictions_for_test _ _ _ Hpi). cbn. now rewrite H.
Qed.

Lemma wrong_length : forall {Q} argsort distance (b : base Q) p q k X preds answers i, length (eq_quantifiers q) = ep_n p ->
  members_answer b q X preds answers -> (i < ep_n p)%nat ->
  length (nth i answers []) <> length (eq_classes q) -> length (nth i answers []) <> 1%nat ->
  EoQ_predict argsort distance b p q k X preds = Err ValueError.
Proof.
  intros Q argsort distance b p q k X preds answers i HN HM Hi L1 L2. unfold EoQ_predict.
  assert (E : member_prevalences b p q X preds = Err ValueError); [|now rewrite E].
  unfold member_prevalences. apply collect_err.
  - intros j Hj. apply in_seq in Hj. rewrite (member_step b p q X preds answers j HN HM ltac:(lia)).
    unfold store_row. destruct (Nat.eqb _ _); [left; eauto|]. destruct (nth j answers []) as [|v [|w l]]; auto. left; eauto.
  - exists i. split; [apply in_seq; lia|]. rewrite (member_step b p q X preds answers i HN HM Hi).
    unfold store_row. destruct (Nat.eqb_spec (length (nth i answers [])) (length (eq_classes q))); [congruence|].
    destruct (nth i answers []) as [|v [|w l]]; auto. cbn in L2. congruence.
Qed.

Lemma Forall2_nth : forall {A B} (P : A -> B -> Prop) l l' i d d', Forall2 P l l' -> (i < length l)%nat -> P (nth i l d) (nth i l' d').
Proof.
  intros A B P l l' i d d' H. revert i. induction H; intros i Hi; cbn in Hi; [lia|]. destruct i; cbn; auto. apply IHForall2. lia.
Qed.

Lemma Forall2_same_length : forall {A B} (P : A -> B -> Prop) l l', Forall2 P l l' -> length l = length l'.
Proof. intros A B P l l' H. induction H; cbn; auto. Qed.

Lemma widened_prevalences : forall {Q} (b : base Q) p q X preds answers answers', length (eq_quantifiers q) = ep_n p ->
  members_answer b q X preds answers -> widened (length (eq_classes q)) answers answers' ->
  member_prevalences b p q X preds = Val answers'.
Proof.
  intros Q b p q X preds answers answers' HN HM HW.
  assert (L' : length answers' = ep_n p) by (rewrite <- (Forall2_same_length _ _ _ HW); destruct HM as (HL & _); lia).
  assert (E : answers' = map (fun i => nth i answers' []) (seq 0 (ep_n p))).
  { rewrite <- L'. symmetry. apply (tabulate_id answers' []). }
  unfold member_prevalences. rewrite E at 1. apply collect_val. intros i Hi. apply in_seq in Hi.
  rewrite (member_step b p q X preds answers i HN HM ltac:(lia)).
  destruct HM as (HL & _). destruct (Forall2_nth _ _ _ i [] [] HW ltac:(lia)) as [LR [ER|(v & EV & ER)]].
  - rewrite <- ER. now apply store_same.
  - rewrite EV. unfold store_row. cbn [length]. destruct (Nat.eqb_spec 1 (length (eq_classes q))) as [E1|E1].
    + apply f_equal. apply list_nth_eq; [rewrite LR; auto|]. intros c Hc. cbn in Hc. destruct c; [|lia]. symmetry. apply ER. lia.
    + apply f_equal. apply list_nth_eq; [now rewrite repeat_length|]. intros c Hc. rewrite repeat_length in Hc.
      rewrite ER by auto. rewrite (nth_indep _ 0 v) by (now rewrite repeat_length). apply nth_repeat.
Qed.

Lemma one_number_copied : forall {Q} argsort distance (b : base Q) p q k X preds answers answers' r,
  length (eq_quantifiers q) = ep_n p -> members_answer b q X preds answers ->
  widened (length (eq_classes q)) answers answers' -> ep_combination p = CMean ->
  EoQ_predict argsort distance b p q k X preds = Val (Vector r) ->
  exists avg, average_answer (length (eq_classes q)) answers' (seq 0 (ep_n p)) avg /\
    forall c, (c < length (eq_classes q))%nat -> nth c r 0 = nth c avg 0 / rsum avg.
Proof.
  intros Q argsort distance b p q k X preds answers answers' r HN HM HW HC H. unfold EoQ_predict in H.
  assert (L' : length answers' = ep_n p) by (rewrite <- (Forall2_same_length _ _ _ HW); destruct HM as (HL & _); lia).
  rewrite (widened_prevalences b p q X preds answers answers' HN HM HW) in H. cbn [obind] in H.
  unfold combine_members in H. rewrite HC in H. apply omap_inv in H. destruct H as (r' & H & E). inversion E; subst r'.
  exists (col_means (length (eq_classes q)) answers'). split; [rewrite <- L'; apply average_all|].
  unfold mean_of_rows in H. destruct answers' as [|a l]; [discriminate|]. unfold normalised in H.
  destruct (Req_EM_T _ 0); [discriminate|]. inversion H. intros c Hc. apply vdiv_nth.
Qed.

(** ** Options that never work *)

Lemma other_bins_fail : forall {S Q} (B : settable S) ppf fit predict p k X y preds given g (q : eoq Q) g',
  ep_bins p <> 100%nat -> (0 < k)%nat ->
  EoQ_fit B ppf (Without fit predict) p k X y preds given g <> Some (Val q, g').
Proof.
  intros S Q B ppf fit predict p k X y preds given g q g' HB Hk H.
  destruct (EoQ_fit_inv _ _ _ _ _ _ _ _ _ _ _ _ H) as (bags & _ & F).
  destruct (fit_without_inv _ _ _ _ _ _ _ F) as (_ & _ & _ & _ & _ & _ & C & _). auto.
Qed.

Lemma np_unique_nonempty : forall y, y <> [] -> (0 < length (np_unique y))%nat.
Proof.
  intros y H. destruct y as [|a l]; [congruence|]. cbn [np_unique fold_right].
  assert (G : forall z u, (0 < length (zinsert z u))%nat).
  { intros z u. destruct u as [|w u]; cbn; [lia|]. destruct (_ <? _)%Z; cbn; try lia. destruct (_ =? _)%Z; cbn; lia. }
  apply G.
Qed.

Lemma cdf_fails : forall {S Q} (B : settable S) ppf (b : base Q) p k X y preds given g q g',
  ep_function p = CDF -> (0 < ep_n p)%nat -> (0 < k)%nat -> y <> [] ->
  EoQ_fit B ppf b p k X y preds given g <> Some (Val q, g').
Proof.
  intros S Q B ppf b p k X y preds given g q g' HF Hn Hk Hy H.
  destruct (EoQ_fit_inv _ _ _ _ _ _ _ _ _ _ _ _ H) as (bags & _ & F). destruct b as [fit pr|fit pr|]; [| |destruct F].
  - destruct (fit_without_inv _ _ _ _ _ _ _ F) as (_ & _ & _ & _ & _ & _ & _ & _ & P).
    destruct (P Hn) as (_ & _ & C). specialize (C HF). lia.
  - destruct (described (length (np_unique y)) preds) as [rows|] eqn:ER.
    + destruct (fit_using_rows _ _ _ _ _ _ _ rows F ER) as (_ & LC & _ & P). destruct (P Hn) as (_ & _ & C).
      rewrite (C HF) in LC. pose proof (np_unique_nonempty y Hy). unfold n_descriptors in LC. cbn in LC.
      destruct (Nat.eqb_spec (length (np_unique y)) 2); lia.
    + destruct (fit_using_inv _ _ _ _ _ _ _ F) as (_ & _ & _ & _ & _ & _ & _ & HD). unfold eoq_prediction_distributions in HD.
      rewrite ER, HF in HD. destruct (ep_n p); [lia|discriminate].
Qed.

Lemma crisp_fails : forall {Q} argsort distance fit predict p (q : eoq Q) k X l answers, sorts argsort ->
  (ep_combination p = DistributionSimilarity \/ ep_combination p = AllStrategies) ->
  length (eq_quantifiers q) = ep_n p -> (0 < ep_n p)%nat ->
  members_answer (Using fit predict) q X (Crisp l) answers -> distributions (length (eq_classes q)) answers ->
  EoQ_predict argsort distance (Using fit predict) p q k X (Crisp l) = Err ValueError.
Proof.
  intros Q argsort distance fit predict p q k X l answers HS HC HN Hn HM HD. unfold EoQ_predict.
  rewrite (members_prevalences _ _ _ _ _ answers HN HM (arrays_distributions _ _ HD)). cbn [obind].
  unfold combine_members. destruct HC as [HC|HC]; rewrite HC; cbn [test_distribution described obind]; [reflexivity|].
  assert (E : exists s, prevalence_selected argsort p (length (eq_classes q)) answers = Val s); [|destruct E as (s & ->); reflexivity].
  unfold prevalence_selected. destruct HM as (HL & _). assert (Hc : (0 < length (eq_classes q))%nat) by (apply (classes_pos _ answers HD); lia).
  rewrite (collect_val _ (fun r => mae (length (eq_classes q)) r (col_means (length (eq_classes q)) answers))); [eexists; reflexivity|].
  intros r Hr. apply mae_mean; auto; [apply col_means_length|]. pose proof (arrays_distributions _ _ HD) as F. unfold arrays in F.
  rewrite Forall_forall in F. auto.
Qed.
