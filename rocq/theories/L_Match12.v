(** * Bags and results of the fitted matching quantifiers *)

From Coq Require Import Reals List ZArith Lra Lia Permutation.
From Verif Require Import Num Spec L_Num M_Baselines M_Metrics M_Search M_Optim Spec_Optim M_Match Spec_Match
  L_Baselines L_Match L_Match2 L_Match3 L_Match4 L_Match5 L_Match6 L_Match7 L_Match8 L_Match9.
Import ListNotations.
Open Scope R_scope.

(** ** Order and repetition of the examples of a bag *)

(** The bags that a representation does not distinguish. *)
Definition same_bag {A} (bag bag' : list A) : Prop :=
  Permutation bag bag' \/ exists k, (0 < k)%nat /\ bag' = repeated k bag.

Lemma blind_predict : forall {A} N cvx crit tol (m : matcher (list A)) bags bag bag', cache_ok crit m ->
  (forall s s', Permutation s s' -> mt_represent m s = mt_represent m s') ->
  (forall k s, (0 < k)%nat -> mt_represent m (repeated k s) = mt_represent m s) ->
  same_bag bag bag' ->
  matching_predict N cvx crit tol (after_predictions N cvx crit tol m bags) bag' =
  matching_predict N cvx crit tol (after_predictions N cvx crit tol m bags) bag.
Proof.
  intros A N cvx crit tol m bags bag bag' C HP HR HB. apply same_representation.
  rewrite represent_after by auto. destruct HB as [P|(k & Hk & ->)]; [symmetry|]; auto.
Qed.

Lemma DFy_same_bag : forall ppf N fuel cvx kind nb strat crit tol y preds m bags bag bag',
  DFy_fit ppf N fuel kind nb strat crit y preds = Val m -> same_bag bag bag' ->
  matching_predict N cvx crit tol (after_predictions N cvx crit tol m bags) bag' =
  matching_predict N cvx crit tol (after_predictions N cvx crit tol m bags) bag.
Proof.
  intros. destruct (DFy_represent _ _ _ _ _ _ _ _ _ _ H) as (cuts & E & C).
  apply blind_predict; auto; rewrite E; intros; [now apply dfy_perm|now apply dfy_repeated].
Qed.

Lemma DFX_same_bag : forall ppf N fuel cvx kind nb strat crit tol y k X m bags bag bag',
  DFX_fit ppf N fuel kind nb strat crit y k X = Val m -> same_bag bag bag' ->
  matching_predict N cvx crit tol (after_predictions N cvx crit tol m bags) bag' =
  matching_predict N cvx crit tol (after_predictions N cvx crit tol m bags) bag.
Proof.
  intros. destruct (DFX_represent _ _ _ _ _ _ _ _ _ _ _ H) as (cuts & E & C).
  apply blind_predict; auto; rewrite E; intros; [now apply dfx_perm|now apply dfx_repeated].
Qed.

Lemma Friedman_same_bag : forall N fuel cvx crit tol y preds m bags bag bag',
  FriedmanME_fit N fuel crit y preds = Val m -> same_bag bag bag' ->
  matching_predict N cvx crit tol (after_predictions N cvx crit tol m bags) bag' =
  matching_predict N cvx crit tol (after_predictions N cvx crit tol m bags) bag.
Proof.
  intros. destruct (fit_represent _ _ _ _ _ _ _ _ _ H) as (E & C).
  apply blind_predict; auto; rewrite E; intros; [now apply friedman_perm|now apply friedman_repeated].
Qed.

Lemma PDFO_same_bag : forall N fuel cvx n_bins d meth y preds m bags bag bag',
  PDFO_fit N fuel n_bins d meth y preds = Val m -> same_bag bag bag' ->
  let m' := after_predictions N cvx (pdfo_criterion d) 0 m bags in
  PDFO_predict N cvx d m' bag' = PDFO_predict N cvx d m' bag.
Proof.
  intros N fuel cvx n_bins d meth y preds m bags bag bag' H HB m'.
  destruct (PDFO_represent _ _ _ _ _ _ _ _ H) as (E & C).
  apply PDFO_same_representation. unfold m'. rewrite represent_after, E by auto.
  destruct HB as [P|(k & Hk & ->)]; [symmetry; now apply pdfo_perm|now apply pdfo_repeated].
Qed.

Lemma ACOrdinal_same_bag : forall N fuel cvx y preds m bags bag bag',
  ACOrdinal_fit N fuel y preds = Val m -> same_bag bag bag' ->
  let m' := after_predictions N cvx (Named L1) 0 m bags in
  ACOrdinal_predict N cvx m' bag' = ACOrdinal_predict N cvx m' bag.
Proof.
  intros N fuel cvx y preds m bags bag bag' H HB m'. unfold ACOrdinal_predict, m'.
  destruct (ACOrdinal_represent _ _ _ _ _ H) as (E & C).
  apply blind_predict; auto; rewrite E; intros; [now apply aco_perm|now apply aco_repeated].
Qed.

(** ** One prevalence per class *)

Lemma collect_length : forall {A} (l : list (out A)) v, collect l = Val v -> length v = length l.
Proof.
  intros A l. induction l as [|a l IH]; intros v H; simpl in H; [inversion H; reflexivity|].
  destruct a as [x| |]; try discriminate. cbn in H. destruct (collect l) as [w| |] eqn:E; try discriminate.
  cbn in H. inversion H. simpl. now rewrite (IH w).
Qed.

Lemma fit_one_each : forall {A} N fuel cvx dist tol d (rep : list A -> out (list R)) classes ye rows m bags bag p,
  exact_cvx cvx -> exact_qp (solve_qp N) ->
  fit_matching N fuel (Named dist) d rep classes ye rows = Val m ->
  snd (matching_predict N cvx (Named dist) tol (after_predictions N cvx (Named dist) tol m bags) bag) = Val p ->
  distribution_over (length classes) p.
Proof.
  intros A N fuel cvx dist tol d rep classes ye rows m bags bag p HX HQ H. unfold fit_matching in H.
  destruct (Nat.eqb _ _); [|discriminate]. destruct (collect _) as [cols| |] eqn:E; try discriminate.
  cbn in H. inversion H. apply collect_length in E. rewrite map_length in E. rewrite <- E.
  now apply named_one_each.
Qed.

Lemma DFy_one_each : forall ppf N fuel cvx kind nb strat dist tol y preds m bags bag p,
  exact_cvx cvx -> exact_qp (solve_qp N) ->
  DFy_fit ppf N fuel kind nb strat (Named dist) y preds = Val m ->
  snd (matching_predict N cvx (Named dist) tol (after_predictions N cvx (Named dist) tol m bags) bag) = Val p ->
  distribution_over (length (np_unique y)) p.
Proof.
  intros ppf N fuel cvx kind nb strat dist tol y preds m bags bag p HX HQ H. unfold DFy_fit in H.
  destruct (DFy_cuts _ _ _ _ _); try discriminate. eapply fit_one_each; eauto.
Qed.

Lemma DFX_one_each : forall ppf N fuel cvx kind nb strat dist tol y k X m bags bag p,
  exact_cvx cvx -> exact_qp (solve_qp N) ->
  DFX_fit ppf N fuel kind nb strat (Named dist) y k X = Val m ->
  snd (matching_predict N cvx (Named dist) tol (after_predictions N cvx (Named dist) tol m bags) bag) = Val p ->
  distribution_over (length (np_unique y)) p.
Proof.
  intros ppf N fuel cvx kind nb strat dist tol y k X m bags bag p HX HQ H. unfold DFX_fit in H.
  destruct (DFX_cuts _ _ _ _ _ _); try discriminate. eapply fit_one_each; eauto.
Qed.

Lemma Friedman_one_each : forall N fuel cvx dist tol y preds m bags bag p,
  exact_cvx cvx -> exact_qp (solve_qp N) ->
  FriedmanME_fit N fuel (Named dist) y preds = Val m ->
  snd (matching_predict N cvx (Named dist) tol (after_predictions N cvx (Named dist) tol m bags) bag) = Val p ->
  distribution_over (length (np_unique y)) p.
Proof. intros. eapply fit_one_each; eauto. Qed.

Lemma PDFO_one_each : forall N fuel cvx n_bins d meth y preds m bags bag p,
  exact_cvx cvx -> exact_qp (solve_qp N) -> d <> OtherOrdinalDistance ->
  PDFO_fit N fuel n_bins d meth y preds = Val m ->
  snd (PDFO_predict N cvx d (after_predictions N cvx (pdfo_criterion d) 0 m bags) bag) = Val (Some p) ->
  distribution_over (length (np_unique y)) p.
Proof.
  intros N fuel cvx n_bins d meth y preds m bags bag p HX HQ Hd H HP.
  destruct (PDFO_fit_inv _ _ _ _ _ _ _ _ H) as (_ & _ & _ & HM).
  assert (ED : exists dist, pdfo_criterion d = Named dist) by (destruct d; eexists; reflexivity).
  destruct ED as (dist & ED).
  assert (K : forall q, snd (matching_predict N cvx (pdfo_criterion d) 0
               (after_predictions N cvx (pdfo_criterion d) 0 m bags) bag) = Val q ->
             distribution_over (length (np_unique y)) q).
  { intros q Hq. rewrite ED in Hq, HM. eapply fit_one_each; eauto. }
  apply PDFO_predict_matching in HP; auto. intros q Hq. apply (K q Hq).
Qed.

Lemma ACOrdinal_one_each : forall N fuel cvx y preds m bags bag p,
  exact_cvx cvx -> exact_qp (solve_qp N) -> y <> [] -> (forall z, In z preds -> In z y) ->
  ACOrdinal_fit N fuel y preds = Val m ->
  snd (ACOrdinal_predict N cvx (after_predictions N cvx (Named L1) 0 m bags) bag) = Val p ->
  distribution_over (length (np_unique y)) p.
Proof.
  intros N fuel cvx y preds m bags bag p HX HQ Hy HP H HR.
  destruct (ACOrdinal_fit_inv _ _ _ _ _ Hy HP H) as (-> & _).
  replace (length (np_unique y)) with (length (columns_of (length (np_unique y)) (aco_phi (np_unique y))
    (class_samples (np_unique y) (y_ext y (length preds)) preds))).
  - eapply named_one_each; eauto.
  - unfold columns_of, class_samples. now rewrite !map_length.
Qed.

(** ** The columns of FriedmanME *)

Lemma Friedman_columns : forall N fuel crit y preds m,
  FriedmanME_fit N fuel crit y preds = Val m ->
  let classes := np_unique y in
  let n := length classes in
  mt_bins m = n /\
  (forall r c, (r < n)%nat -> (c < n)%nat ->
     fraction_in (fun row => fraction (nth r classes 0%Z) y <= nth r row 0)
       (select (nth c classes 0%Z) (y_ext y (length preds)) preds) (mt_T m r c)) /\
  forall cvx tol bags bag, bag <> [] ->
    exists t, mt_represent (after_predictions N cvx crit tol m bags) bag = Val t /\ length t = n /\
      forall r, (r < n)%nat ->
        fraction_in (fun row => fraction (nth r classes 0%Z) y <= nth r row 0) bag (nth r t 0).
Proof.
  intros N fuel crit y preds m H classes n.
  set (prevs := map (fun c => INR (zcount c y) / INR (length y)) classes).
  assert (LP : length prevs = n) by (unfold prevs; now rewrite map_length).
  assert (HF : fit_matching N fuel crit n (friedman_represent prevs) classes (y_ext y (length preds)) preds = Val m)
    by exact H.
  destruct (fit_represent _ _ _ _ _ _ _ _ _ HF) as (ER & CO).
  pose proof (friedman_averages prevs) as HA. rewrite LP in HA.
  assert (FR : forall r s, (r < n)%nat -> s <> [] ->
    fraction_in (fun row => fraction (nth r classes 0%Z) y <= nth r row 0) s
      (mean_of (fun row => if Rle_dec (nth r prevs 0) (nth r row 0) then 1 else 0) s)).
  { intros r s Hr Hs.
    assert (EP : nth r prevs 0 = fraction (nth r classes 0%Z) y).
    { unfold prevs. set (g := fun c => INR (zcount c y) / INR (length y)).
      rewrite (nth_indep _ 0 (g 0%Z)) by (rewrite map_length; exact Hr). rewrite map_nth. reflexivity. }
    rewrite <- EP. unfold fraction_in, mean_of.
    exists (length (filter (fun row => if Rle_dec (nth r prevs 0) (nth r row 0) then true else false) s)).
    split.
    - apply how_many_filter. intros row. destruct (Rle_dec _ _); split; auto; try discriminate; intros; contradiction.
    - f_equal. clear Hs. induction s as [|row s IH]; [reflexivity|]. cbn [map rsum filter].
      destruct (Rle_dec _ _); cbn [length]; rewrite IH; [rewrite S_INR|]; lra. }
  destruct (fit_matching_inv _ _ _ _ _ _ _ _ _ _ HA (friedman_nil prevs) HF) as (EM & HN & L).
  split; [rewrite EM; reflexivity|]. split.
  - assert (NS : forall c, (c < n)%nat -> nth c (class_samples classes (y_ext y (length preds)) preds) [] =
      select (nth c classes 0%Z) (y_ext y (length preds)) preds).
    { intros c Hc. unfold class_samples. set (g := fun c => select c (y_ext y (length preds)) preds).
      rewrite (nth_indep _ [] (g 0%Z)) by (rewrite map_length; exact Hc). rewrite map_nth. reflexivity. }
    intros r c Hr Hc.
    assert (ET : mt_T m r c = mean_of (fun row => if Rle_dec (nth r prevs 0) (nth r row 0) then 1 else 0)
      (select (nth c classes 0%Z) (y_ext y (length preds)) preds)).
    { rewrite EM. cbn [new_matcher mt_T]. rewrite columns_entry.
      - now rewrite NS.
      - exact Hr.
      - unfold class_samples. now rewrite map_length. }
    rewrite ET. apply FR; auto. rewrite <- (NS c Hc). apply (proj1 (Forall_forall _ _) HN).
    apply nth_In. unfold class_samples. now rewrite map_length.
  - intros cvx tol bags bag Hb. rewrite represent_after, ER by auto.
    eexists. split; [apply HA; auto|]. split; [now rewrite tabulate_length|].
    intros r Hr. rewrite tabulate_nth by auto. now apply FR.
Qed.
