(** * Proofs about EM. *)

From Coq Require Import Reals List ZArith Lia Lra Permutation Bool.
From Verif Require Import Num Spec Spec_EM L_Num M_Metrics L_Metrics L_Metrics2 M_EM M_Baselines L_Baselines.
Import ListNotations.
Open Scope R_scope.

Definition positive (l : list R) : Prop := Forall (fun x => 0 < x) l.

Lemma positive_nth : forall l i, positive l -> (i < length l)%nat -> 0 < nth i l 0.
Proof. intros. unfold positive in H. rewrite Forall_forall in H. apply H, nth_In; auto. Qed.

Lemma is_zero_false : forall x, x <> 0 -> is_zero x = false.
Proof. intros. unfold is_zero. destruct (Req_EM_T x 0); [congruence|auto]. Qed.

Lemma train_no_zero : forall l, positive l -> existsb is_zero l = false.
Proof. induction 1; simpl; auto. rewrite is_zero_false by lra. auto. Qed.

Lemma reweight_nth : forall train prev row j, length prev = length train -> length row = length train ->
  (j < length train)%nat ->
  nth j (em_reweight train prev row) 0 = nth j row 0 * nth j prev 0 / nth j train 0.
Proof.
  intros. unfold em_reweight. rewrite vmap2_nth; [|rewrite vmap2_length; lia|lia].
  rewrite vmap2_nth by lia. unfold Rdiv. ring.
Qed.

Lemma reweight_length : forall train prev row, length prev = length train -> length row = length train ->
  length (em_reweight train prev row) = length train.
Proof. intros. unfold em_reweight. rewrite vmap2_length; auto. rewrite vmap2_length; lia. Qed.

Lemma reweight_sum : forall train prev row, length prev = length train -> length row = length train ->
  rsum (em_reweight train prev row) = evidence train row prev.
Proof.
  intros. rewrite <- sumn_nth, reweight_length by auto. apply sumn_ext. intros. apply reweight_nth; auto.
Qed.

(** The model's iteration is the textbook update. *)
Lemma em_step_update : forall train preds prev, positive train -> preds <> [] ->
  length prev = length train -> Forall (fun r => length r = length train) preds ->
  Forall (fun r => evidence train r prev <> 0) preds ->
  em_step train preds prev = Val (em_update train preds prev).
Proof.
  intros train preds prev Ht Hne Hp Hr He. unfold em_step. rewrite train_no_zero by auto.
  rewrite Forall_forall in Hr, He.
  replace (existsb _ preds) with false.
  2:{ symmetry. apply Bool.not_true_is_false. intros E. apply existsb_exists in E.
      destruct E as [r [Hin E]]. rewrite reweight_sum in E by auto. rewrite is_zero_false in E; auto; discriminate. }
  destruct preds as [|r0 preds]; [congruence|]. set (P := r0 :: preds) in *. f_equal.
  apply list_eq_nth; [rewrite col_means_length; unfold em_update; rewrite tabulate_length; auto|].
  rewrite col_means_length. intros j Hj. unfold em_update. rewrite tabulate_nth by auto.
  unfold col_means. rewrite (nth_map_R _ _ _ O) by (rewrite seq_length; auto). rewrite seq_nth by auto.
  unfold rmean, col. rewrite !map_length, map_map. simpl (0 + j)%nat. f_equal.
  apply rsum_map_ext. intros r Hin. unfold responsibility.
  rewrite reweight_sum by auto. unfold vdiv. rewrite (nth_map_R _ _ _ 0) by (rewrite reweight_length; auto).
  rewrite reweight_nth by auto. reflexivity.
Qed.

(** ** Invariant: a distribution whose support covers what the bag uses *)

Definition covers (preds : list (list R)) (n : nat) (pi : list R) : Prop :=
  forall r j, In r preds -> (j < n)%nat -> 0 < nth j r 0 -> 0 < nth j pi 0.

Lemma evidence_pos : forall train preds pi r, positive train -> distributions (length train) preds ->
  distribution_over (length train) pi -> covers preds (length train) pi -> In r preds ->
  0 < evidence train r pi.
Proof.
  intros train preds pi r Ht Hd Dpi Hc Hin.
  unfold distributions in Hd. rewrite Forall_forall in Hd. pose proof (Hd r Hin) as Dr.
  assert (Hnn : forall j, (j < length train)%nat -> 0 <= nth j r 0 * nth j pi 0 / nth j train 0).
  { intros j Hj. pose proof (nth_dist _ _ j Dr). pose proof (nth_dist _ _ j Dpi). pose proof (positive_nth _ _ Ht Hj).
    apply Rmult_le_pos; [apply Rmult_le_pos; lra|left; apply Rinv_0_lt_compat; auto]. }
  destruct (Rlt_le_dec 0 (evidence train r pi)); auto. exfalso.
  assert (E : evidence train r pi = 0).
  { apply Rle_antisym; auto. apply sumn_nonneg; auto. }
  assert (Hz : forall j, (j < length train)%nat -> nth j r 0 = 0).
  { intros j Hj. pose proof (sumn_zero_all _ _ Hnn E j Hj) as Ez. cbv beta in Ez.
    pose proof (nth_dist _ _ j Dr). destruct (Req_dec (nth j r 0) 0); auto. exfalso.
    assert (0 < nth j r 0) by lra. pose proof (Hc r j Hin Hj H1). pose proof (positive_nth _ _ Ht Hj).
    assert (0 < nth j r 0 * nth j pi 0 / nth j train 0); [|lra].
    apply Rdiv_lt_0_compat; auto. apply Rmult_lt_0_compat; auto. }
  pose proof (sumn_dist _ _ Dr). rewrite sumn_0 in H; auto. lra.
Qed.

Lemma responsibility_sum : forall train pi row, evidence train row pi <> 0 ->
  sumn (length train) (responsibility train pi row) = 1.
Proof.
  intros. unfold responsibility. rewrite sumn_div. fold (evidence train row pi). field. auto.
Qed.

Lemma responsibility_nonneg : forall train preds pi r j, positive train -> distributions (length train) preds ->
  distribution_over (length train) pi -> covers preds (length train) pi -> In r preds -> (j < length train)%nat ->
  0 <= responsibility train pi r j.
Proof.
  intros. pose proof (evidence_pos train preds pi r H H0 H1 H2 H3).
  unfold distributions in H0. rewrite Forall_forall in H0. pose proof (H0 r H3) as Dr.
  pose proof (nth_dist _ _ j Dr). pose proof (nth_dist _ _ j H1). pose proof (positive_nth _ _ H H4).
  unfold responsibility. apply Rmult_le_pos; [|left; apply Rinv_0_lt_compat; auto].
  apply Rmult_le_pos; [apply Rmult_le_pos; lra|left; apply Rinv_0_lt_compat; auto].
Qed.

Lemma em_update_invariant : forall train preds pi, positive train -> preds <> [] ->
  distributions (length train) preds -> distribution_over (length train) pi -> covers preds (length train) pi ->
  distribution_over (length train) (em_update train preds pi) /\
  covers preds (length train) (em_update train preds pi).
Proof.
  intros train preds pi Ht Hne Hd Dpi Hc. pose proof (length_pos preds Hne) as Hm.
  assert (Hr : forall r j, In r preds -> (j < length train)%nat -> 0 <= responsibility train pi r j).
  { intros. apply (responsibility_nonneg train preds); auto. }
  split; [split; [apply tabulate_length|split]|].
  - apply Forall_forall. intros x Hx. unfold em_update, tabulate in Hx. apply in_map_iff in Hx.
    destruct Hx as [j [<- Hj]]. apply in_seq in Hj.
    apply Rmult_le_pos; [|left; apply Rinv_0_lt_compat; auto].
    apply rsum_map_nonneg. intros. apply Hr; auto; lia.
  - unfold em_update. rewrite rsum_tabulate, sumn_div.
    rewrite (sumn_ext _ _ (fun j => sumn (length preds) (fun i => responsibility train pi (nth i preds []) j))).
    2:{ intros j Hj. rewrite <- sumn_nth, map_length. apply sumn_ext. intros i Hi.
        rewrite (nth_map_R _ _ _ []) by auto. auto. }
    rewrite sumn_swap. rewrite (sumn_ext _ _ (fun _ => 1)).
    + rewrite sumn_const. field. lra.
    + intros i Hi. apply responsibility_sum. apply Rgt_not_eq.
      apply (evidence_pos train preds); auto. apply nth_In; auto.
  - intros r j Hin Hj Hpos. unfold em_update. rewrite tabulate_nth by auto.
    apply Rdiv_lt_0_compat; auto.
    apply Rlt_le_trans with (responsibility train pi r j).
    + pose proof (evidence_pos train preds pi r Ht Hd Dpi Hc Hin).
      unfold responsibility. apply Rdiv_lt_0_compat; auto. apply Rdiv_lt_0_compat; [|apply positive_nth; auto].
      apply Rmult_lt_0_compat; auto. apply (Hc r j); auto.
    + apply rsum_in_le.
      * apply Forall_map, Forall_forall. intros. apply Hr; auto.
      * apply (in_map (fun row => responsibility train pi row j)); auto.
Qed.

Lemma em_iterate_invariant : forall train preds k, positive train -> distribution train -> preds <> [] ->
  distributions (length train) preds ->
  distribution_over (length train) (em_iterate train preds k) /\
  covers preds (length train) (em_iterate train preds k).
Proof.
  intros. induction k; simpl.
  - split; [split; auto|]. intros r j _ Hj _. apply positive_nth; auto.
  - destruct IHk. apply em_update_invariant; auto.
Qed.

Lemma em_step_iterate : forall train preds k, positive train -> distribution train -> preds <> [] ->
  distributions (length train) preds ->
  em_step train preds (em_iterate train preds k) = Val (em_iterate train preds (S k)).
Proof.
  intros. destruct (em_iterate_invariant train preds k) as [D C]; auto.
  simpl. apply em_step_update; auto; [apply D| |].
  - unfold distributions in H2. eapply Forall_impl; [|apply H2]. intros a [Ha _]; auto.
  - apply Forall_forall. intros r Hr. apply Rgt_not_eq. apply (evidence_pos train preds); auto.
Qed.

Lemma em_mae : forall train preds k, positive train -> distribution train -> preds <> [] ->
  distributions (length train) preds -> (0 < k)%nat ->
  mean_absolute_error (vec (em_iterate train preds k)) (vec (em_iterate train preds (k - 1))) =
  Val (em_change train preds k).
Proof.
  intros. destruct (em_iterate_invariant train preds k) as [[L1 D1] C1]; auto.
  destruct (em_iterate_invariant train preds (k - 1)) as [[L2 D2] C2]; auto.
  assert (Hn : (0 < length train)%nat) by (destruct train; [destruct H0; simpl in *; lra|simpl; lia]).
  rewrite mae_val; [|lia|apply (length_nonempty (length train)); auto].
  unfold em_change, dsum. rewrite L1. do 2 f_equal. apply sumn_ext. intros. apply Rabs_minus_sym.
Qed.

(** ** The loop *)

Lemma em_loop_spec : forall eps train preds left it, positive train -> distribution train -> preds <> [] ->
  distributions (length train) preds ->
  (forall k, (10 <= k)%nat -> (k < it)%nat -> eps < em_change train preds k) ->
  forall pp, ((0 < it)%nat -> pp = em_iterate train preds (it - 1)) ->
    length pp = length train ->
  exists m, em_loop eps train preds left it (em_iterate train preds it) pp = Val (em_iterate train preds m, m) /\
    (it <= m <= it + left)%nat /\ (Nat.min 10 (it + left) <= m)%nat /\
    ((m < it + left)%nat -> em_change train preds m <= eps) /\
    (forall k, (10 <= k)%nat -> (k < m)%nat -> eps < em_change train preds k).
Proof.
  induction left; intros it Ht Dt Hne Hd Hk pp Hpp Hl.
  - exists it. cbn [em_loop]. rewrite Nat.add_0_r. split; auto. split; [lia|]. split; [lia|]. split; [lia|auto].
  - assert (Hn : (0 < length train)%nat) by (destruct train; [destruct Dt; simpl in *; lra|simpl; lia]).
    destruct (em_iterate_invariant train preds it) as [[Li Di] Ci]; auto.
    assert (Hmae : exists d, mean_absolute_error (vec (em_iterate train preds it)) (vec pp) = Val d /\
      ((0 < it)%nat -> d = em_change train preds it)).
    { destruct it.
      - eexists. split; [apply mae_val; [simpl; lia|apply (length_nonempty (length train)); auto]|lia].
      - exists (em_change train preds (S it)). split; auto. rewrite (Hpp ltac:(lia)). apply em_mae; auto; lia. }
    destruct Hmae as [d [Ed Hdk]]. cbn [em_loop]. rewrite Ed. cbn [obind].
    destruct ((if Rlt_dec eps d then true else false) || Nat.ltb it 10) eqn:Ec.
    + rewrite em_step_iterate by auto.
      assert (Hk' : forall k, (10 <= k)%nat -> (k < S it)%nat -> eps < em_change train preds k).
      { intros k H10 Hlt. destruct (Nat.eq_dec k it) as [->|]; [|apply Hk; lia].
        destruct (Nat.ltb_spec it 10); [lia|]. rewrite orb_false_r in Ec.
        destruct (Rlt_dec eps d); [|discriminate]. rewrite <- Hdk by lia. auto. }
      destruct (IHleft (S it) Ht Dt Hne Hd Hk' (em_iterate train preds it)) as [m [E [H1 [H2 [H3 H4]]]]]; auto.
      { intros _. simpl. rewrite Nat.sub_0_r. auto. }
      exists m. split; auto. split; [lia|]. split; [lia|]. split; auto. intros; apply H3; lia.
    + apply orb_false_iff in Ec. destruct Ec as [Ec1 Ec2]. apply Nat.ltb_ge in Ec2.
      destruct (Rlt_dec eps d); [discriminate|].
      exists it. split; auto. split; [lia|]. split; [lia|]. split; [|auto].
      intros _. rewrite <- Hdk by lia. lra.
Qed.

Lemma EM_fit_train : forall y train, EM_fit y = Val train ->
  positive train /\ distribution_over (length (np_unique y)) train /\
  (forall i, (i < length (np_unique y))%nat -> nth i train 0 = fraction (nth i (np_unique y) 0%Z) y).
Proof.
  intros y train E. unfold EM_fit in E. destruct y as [|z y]; [discriminate|]. set (Y := z :: y) in *.
  assert (E1 : train = map (fun c => INR (zcount c Y) / INR (length Y)) (np_unique Y)) by congruence.
  clear E. subst train.
  assert (Hn : 0 < INR (length Y)) by (apply length_pos; unfold Y; congruence).
  split; [|split].
  - apply Forall_map, Forall_forall. intros c Hc. apply (np_unique_in c Y) in Hc.
    apply Rdiv_lt_0_compat; auto. apply INR_pos. unfold zcount. apply (count_occ_In Z.eq_dec). auto.
  - apply (fractions_distribution (np_unique Y) Y); [apply np_unique_NoDup|unfold Y; congruence|].
    intros; apply np_unique_in; auto.
  - intros i Hi. rewrite (nth_map_R _ _ _ 0%Z) by auto. reflexivity.
Qed.

(** C10 *)
Lemma EM_spec : forall y train eps max_iter preds, EM_fit y = Val train ->
  preds <> [] -> distributions (length (np_unique y)) preds ->
  exists m, EM_run eps max_iter train preds = Val (em_iterate train preds m, m) /\
    (Nat.min 10 max_iter <= m <= max_iter)%nat /\
    ((m < max_iter)%nat -> em_change train preds m <= eps) /\
    (forall k, (10 <= k)%nat -> (k < m)%nat -> eps < em_change train preds k).
Proof.
  intros y train eps max_iter preds Hf Hne Hd. destruct (EM_fit_train y train Hf) as [Ht [[Hl Dt] _]].
  rewrite <- Hl in Hd. unfold EM_run.
  destruct (em_loop_spec eps train preds max_iter 0 Ht Dt Hne Hd ltac:(intros; lia) (repeat 1 (length train)))
    as [m [E [H1 [H2 [H3 H4]]]]]; [lia|apply repeat_length|].
  exists m. split; auto. split; [lia|]. split; auto.
Qed.

Lemma EM_distribution : forall y train eps max_iter preds, EM_fit y = Val train ->
  preds <> [] -> distributions (length (np_unique y)) preds ->
  exists p, EM_predict eps max_iter train preds = Val p /\ distribution_over (length (np_unique y)) p /\
    (max_iter = O -> p = train).
Proof.
  intros y train eps max_iter preds Hf Hne Hd.
  destruct (EM_spec y train eps max_iter preds Hf Hne Hd) as [m [E [H1 _]]].
  destruct (EM_fit_train y train Hf) as [Ht [[Hl Dt] _]].
  exists (em_iterate train preds m). unfold EM_predict. rewrite E. split; auto. split.
  - rewrite <- Hl in *. apply em_iterate_invariant; auto.
  - intros. replace m with O by lia. auto.
Qed.

(** ** C11: likelihood *)

Lemma jensen_ln : forall n w x X, (forall j, (j < n)%nat -> 0 <= w j) -> sumn n w = 1 ->
  (forall j, (j < n)%nat -> 0 < w j -> 0 < x j) -> X = sumn n (fun j => w j * x j) -> 0 < X ->
  sumn n (fun j => w j * ln (x j)) <= ln X.
Proof.
  intros n w x X Hw Hs Hx HX HX0.
  assert (sumn n (fun j => w j * ln (x j)) - ln X <= 0); [|lra].
  replace (ln X) with (sumn n (fun j => w j * ln X)) by (rewrite sumn_scal_r, Hs; ring).
  rewrite <- sumn_minus.
  apply Rle_trans with (sumn n (fun j => w j * x j / X - w j)).
  - apply sumn_le. intros j Hj. destruct (Req_dec (w j) 0) as [->|Hne]; [unfold Rdiv; lra|].
    assert (Hwj : 0 < w j) by (specialize (Hw j Hj); lra). specialize (Hx j Hj Hwj).
    rewrite <- Rmult_minus_distr_l, <- ln_div by auto.
    pose proof (ln_le_minus1 (x j / X) (Rdiv_lt_0_compat _ _ Hx HX0)).
    apply (Rmult_le_compat_l (w j)) in H; [|lra]. unfold Rdiv in *. lra.
  - rewrite sumn_minus, sumn_div, <- HX, Hs. right. field. lra.
Qed.

Lemma rsum_sumn_swap : forall {A} n (f : A -> nat -> R) l,
  rsum (map (fun r => sumn n (fun j => f r j)) l) = sumn n (fun j => rsum (map (fun r => f r j) l)).
Proof.
  induction l; simpl; [rewrite sumn_0; auto|]. rewrite IHl, <- sumn_plus. auto.
Qed.

Lemma em_likelihood_step : forall train preds pi, positive train -> preds <> [] ->
  distributions (length train) preds -> distribution_over (length train) pi -> covers preds (length train) pi ->
  log_likelihood train preds pi <= log_likelihood train preds (em_update train preds pi).
Proof.
  intros train preds pi Ht Hne Hd Dpi Hc. set (n := length train) in *.
  destruct (em_update_invariant train preds pi Ht Hne Hd Dpi Hc) as [Dpi' Hc']. fold n in Dpi', Hc'.
  set (pi' := em_update train preds pi) in *. pose proof (length_pos preds Hne) as Hm.
  assert (Ep : forall r, In r preds -> 0 < evidence train r pi) by (intros; apply (evidence_pos train preds); auto).
  assert (Ep' : forall r, In r preds -> 0 < evidence train r pi') by (intros; apply (evidence_pos train preds); auto).
  assert (Hrn : forall r j, In r preds -> (j < n)%nat -> 0 <= responsibility train pi r j)
    by (intros; apply (responsibility_nonneg train preds); auto).
  assert (Hpi' : forall j, (j < n)%nat -> INR (length preds) * nth j pi' 0 = rsum (map (fun r => responsibility train pi r j) preds)).
  { intros j Hj. unfold pi', em_update. rewrite tabulate_nth by auto. field. lra. }
  (* positive responsibility implies positive weights *)
  assert (Hsup : forall r j, In r preds -> (j < n)%nat -> 0 < responsibility train pi r j ->
     0 < nth j pi 0 /\ 0 < nth j pi' 0).
  { intros r j Hin Hj Hr. pose proof (nth_dist n pi j Dpi).
    unfold distributions in Hd. pose proof Hd as Hd2. rewrite Forall_forall in Hd2. pose proof (nth_dist n r j (Hd2 r Hin)).
    assert (Hrj : 0 < nth j r 0).
    { destruct (Req_dec (nth j r 0) 0) as [Z|]; [|lra]. exfalso. unfold responsibility in Hr.
      rewrite Z in Hr. unfold Rdiv in Hr. rewrite !Rmult_0_l in Hr. lra. }
    split; [apply (Hc r j)|apply (Hc' r j)]; auto. }
  unfold log_likelihood.
  assert (Hgoal : 0 <= rsum (map (fun r => ln (evidence train r pi') - ln (evidence train r pi)) preds)).
  2:{ rewrite rsum_map_minus in Hgoal. lra. }
  apply Rle_trans with (rsum (map (fun r => sumn n (fun j => responsibility train pi r j * ln (nth j pi' 0 / nth j pi 0))) preds)).
  - (* Gibbs *)
    assert (Esw : rsum (map (fun r => sumn n (fun j => responsibility train pi r j * ln (nth j pi' 0 / nth j pi 0))) preds) =
       sumn n (fun j => INR (length preds) * nth j pi' 0 * ln (nth j pi' 0 / nth j pi 0))).
    { rewrite rsum_sumn_swap. apply sumn_ext. intros j Hj. rewrite Hpi' by auto.
      rewrite rsum_map_scal_r. auto. }
    rewrite Esw.
    apply Rle_trans with (sumn n (fun j => INR (length preds) * (nth j pi' 0 - nth j pi 0))).
    + rewrite sumn_scal, sumn_minus, (sumn_dist n pi'), (sumn_dist n pi) by auto. lra.
    + apply sumn_le. intros j Hj. rewrite Rmult_assoc. apply Rmult_le_compat_l; [lra|].
      pose proof (nth_dist n pi j Dpi) as Ha. pose proof (nth_dist n pi' j Dpi') as Hb.
      destruct (Req_dec (nth j pi' 0) 0) as [Z|Hnz]; [rewrite Z; lra|].
      assert (Hb0 : 0 < nth j pi' 0) by lra.
      assert (Ha0 : 0 < nth j pi 0).
      { destruct (Req_dec (nth j pi 0) 0) as [Z|]; [|lra]. exfalso.
        assert (INR (length preds) * nth j pi' 0 = 0); [|assert (0 < INR (length preds) * nth j pi' 0) by (apply Rmult_lt_0_compat; auto); lra].
        rewrite Hpi' by auto. 
        transitivity (rsum (map (fun _ : list R => 0) preds)).
        - apply rsum_map_ext. intros. unfold responsibility. rewrite Z. unfold Rdiv. ring.
        - rewrite rsum_map_const. ring. }
      pose proof (ln_ge (nth j pi' 0 / nth j pi 0) (Rdiv_lt_0_compat _ _ Hb0 Ha0)) as Hl.
      apply (Rmult_le_compat_l (nth j pi' 0)) in Hl; [|lra].
      replace (nth j pi' 0 * (1 - / (nth j pi' 0 / nth j pi 0))) with (nth j pi' 0 - nth j pi 0) in Hl by (field; lra).
      auto.
  - apply rsum_map_le. intros r Hin. rewrite <- ln_div by auto.
    apply jensen_ln.
    + intros. apply Hrn; auto.
    + apply responsibility_sum. apply Rgt_not_eq, Ep; auto.
    + intros j Hj Hr. destruct (Hsup r j Hin Hj Hr). apply Rdiv_lt_0_compat; auto.
    + unfold evidence at 1. fold n. rewrite <- sumn_div. apply sumn_ext. intros j Hj.
      unfold responsibility. pose proof (Ep r Hin). pose proof (positive_nth _ _ Ht Hj).
      destruct (Req_dec (nth j pi 0) 0) as [Z|Hnz].
      * assert (Hr0 : nth j r 0 = 0).
        { unfold distributions in Hd. rewrite Forall_forall in Hd. pose proof (nth_dist n r j (Hd r Hin)).
          destruct (Req_dec (nth j r 0) 0); auto. pose proof (Hc r j Hin Hj ltac:(lra)). lra. }
        rewrite Hr0. unfold Rdiv. ring.
      * field. repeat split; auto; lra.
    + apply Rdiv_lt_0_compat; auto.
Qed.

Lemma em_likelihood_mono : forall train preds k, positive train -> distribution train -> preds <> [] ->
  distributions (length train) preds ->
  log_likelihood train preds (em_iterate train preds k) <= log_likelihood train preds (em_iterate train preds (S k)).
Proof.
  intros. destruct (em_iterate_invariant train preds k) as [D C]; auto. simpl. apply em_likelihood_step; auto.
Qed.

Lemma EM_likelihood : forall y train eps max_iter preds, EM_fit y = Val train ->
  preds <> [] -> distributions (length (np_unique y)) preds ->
  (forall k, log_likelihood train preds (em_iterate train preds k) <=
             log_likelihood train preds (em_iterate train preds (S k))) /\
  exists p, EM_predict eps max_iter train preds = Val p /\
    log_likelihood train preds train <= log_likelihood train preds p.
Proof.
  intros y train eps max_iter preds Hf Hne Hd.
  destruct (EM_fit_train y train Hf) as [Ht [[Hl Dt] _]]. pose proof Hd as Hd'. rewrite <- Hl in Hd'.
  assert (Hm : forall k, log_likelihood train preds (em_iterate train preds k) <=
             log_likelihood train preds (em_iterate train preds (S k))) by (intros; apply em_likelihood_mono; auto).
  split; auto. destruct (EM_spec y train eps max_iter preds Hf Hne Hd) as [m [E _]].
  exists (em_iterate train preds m). unfold EM_predict. rewrite E. split; auto.
  clear E. induction m; [simpl; lra|]. eapply Rle_trans; [apply IHm|apply Hm].
Qed.

(** ** C12: fixed points *)

Lemma em_update_train : forall train preds, positive train -> preds <> [] ->
  distributions (length train) preds -> col_means (length train) preds = train ->
  em_update train preds train = train.
Proof.
  intros train preds Ht Hne Hd Hm. transitivity (col_means (length train) preds); [|auto].
  apply list_eq_nth; [rewrite col_means_length; apply tabulate_length|].
  unfold em_update at 1. rewrite tabulate_length. intros j Hj.
  unfold em_update. rewrite tabulate_nth by auto.
  unfold col_means. rewrite (nth_map_R _ _ _ O) by (rewrite seq_length; auto). rewrite seq_nth by auto.
  unfold rmean, col. rewrite map_length. f_equal. apply rsum_map_ext. intros r Hin.
  unfold distributions in Hd. rewrite Forall_forall in Hd. specialize (Hd r Hin).
  unfold responsibility.
  assert (E : evidence train r train = 1).
  { unfold evidence. rewrite <- (sumn_dist _ _ Hd). apply sumn_ext. intros i Hi.
    pose proof (positive_nth _ _ Ht Hi). field. lra. }
  rewrite E. pose proof (positive_nth _ _ Ht Hj). simpl. field. lra.
Qed.

Lemma em_fixed_point : forall train preds k m, em_iterate train preds (S k) = em_iterate train preds k ->
  (k <= m)%nat -> em_iterate train preds m = em_iterate train preds k.
Proof.
  intros train preds k m H Hm. induction Hm; auto. simpl. rewrite IHHm. exact H.
Qed.

Lemma EM_no_shift : forall y train eps max_iter preds, EM_fit y = Val train ->
  preds <> [] -> distributions (length (np_unique y)) preds ->
  (forall j, (j < length (np_unique y))%nat -> rsum (map (fun r => nth j r 0) preds) / INR (length preds) = nth j train 0) ->
  EM_predict eps max_iter train preds = Val train.
Proof.
  intros y train eps max_iter preds Hf Hne Hd Hmean.
  destruct (EM_fit_train y train Hf) as [Ht [[Hl Dt] _]].
  destruct (EM_spec y train eps max_iter preds Hf Hne Hd) as [m [E _]].
  unfold EM_predict. rewrite E. simpl. f_equal.
  rewrite <- Hl in *. apply (em_fixed_point train preds 0 m); [|lia]. simpl.
  apply em_update_train; auto. apply list_eq_nth; [apply col_means_length|].
  rewrite col_means_length. intros j Hj. rewrite <- Hmean by auto. unfold col_means.
  rewrite (nth_map_R _ _ _ O) by (rewrite seq_length; auto). rewrite seq_nth by auto.
  unfold rmean, col. rewrite map_length. auto.
Qed.

Lemma EM_fixed : forall y train eps max_iter preds k, EM_fit y = Val train ->
  preds <> [] -> distributions (length (np_unique y)) preds ->
  em_update train preds (em_iterate train preds k) = em_iterate train preds k ->
  (k <= Nat.min 10 max_iter)%nat ->
  EM_predict eps max_iter train preds = Val (em_iterate train preds k).
Proof.
  intros y train eps max_iter preds k Hf Hne Hd Hfix Hk.
  destruct (EM_spec y train eps max_iter preds Hf Hne Hd) as [m [E [Hm _]]].
  unfold EM_predict. rewrite E. simpl. f_equal. apply em_fixed_point; auto. lia.
Qed.

(** ** C06-C08: order and multiplicity of the examples *)

Lemma existsb_perm : forall {A} (f : A -> bool) a b, Permutation a b -> existsb f a = existsb f b.
Proof. induction 1; simpl; auto; [rewrite IHPermutation; auto|destruct (f x); destruct (f y); auto|congruence]. Qed.

Lemma em_step_perm : forall train prev a b, Permutation a b -> em_step train a prev = em_step train b prev.
Proof.
  intros. unfold em_step. rewrite (existsb_perm _ a b H).
  destruct (existsb is_zero train); auto. destruct (existsb _ b); auto.
  destruct a as [|x a].
  - apply Permutation_nil in H. subst. auto.
  - destruct b as [|y b]; [apply Permutation_sym, Permutation_nil in H; discriminate|].
    f_equal. apply col_means_perm, Permutation_map; auto.
Qed.

Lemma existsb_repeated : forall {A} (f : A -> bool) k b, (0 < k)%nat -> existsb f (repeated k b) = existsb f b.
Proof.
  intros A f k b Hk. apply Bool.eq_iff_eq_true. rewrite !existsb_exists. unfold repeated.
  split; intros [x [Hx E]]; exists x; split; auto.
  - apply in_concat in Hx. destruct Hx as [l [Hl Hx]]. apply in_map_iff in Hl. destruct Hl as [z [<- Hz]].
    apply repeat_spec in Hx. subst; auto.
  - apply in_concat. exists (repeat x k). split; [apply in_map_iff; exists x; auto|].
    destruct k; [lia|simpl; auto].
Qed.

Lemma em_step_repeated : forall train prev k b, (0 < k)%nat -> em_step train (repeated k b) prev = em_step train b prev.
Proof.
  intros. unfold em_step. rewrite existsb_repeated by auto.
  destruct (existsb is_zero train); auto. destruct (existsb _ b); auto.
  destruct b as [|y b]; [reflexivity|].
  pose proof (repeated_nil k (y :: b) H ltac:(congruence)) as Hne.
  rewrite map_repeated. destruct (repeated k (y :: b)) eqn:E; [congruence|].
  f_equal. apply col_means_repeated; auto. simpl; congruence.
Qed.

Lemma em_loop_ext : forall eps train a b left it prev pp,
  (forall p, em_step train a p = em_step train b p) ->
  em_loop eps train a left it prev pp = em_loop eps train b left it prev pp.
Proof.
  induction left; simpl; intros; auto.
  destruct (mean_absolute_error _ _); simpl; auto. destruct (_ || _); auto.
  rewrite H. destruct (em_step train b prev); auto.
Qed.

Lemma EM_bag_order : forall eps mi train a b, Permutation a b -> EM_predict eps mi train a = EM_predict eps mi train b.
Proof. intros. unfold EM_predict, EM_run. rewrite (em_loop_ext eps train a b); auto. intros; apply em_step_perm; auto. Qed.

Lemma EM_bag_repeated : forall eps mi train k b, (0 < k)%nat ->
  EM_predict eps mi train (repeated k b) = EM_predict eps mi train b.
Proof. intros. unfold EM_predict, EM_run. rewrite (em_loop_ext eps train (repeated k b) b); auto. intros; apply em_step_repeated; auto. Qed.

Lemma EM_training_order : forall y y', Permutation y y' -> EM_fit y = EM_fit y'.
Proof.
  intros. unfold EM_fit. destruct y as [|a y].
  - apply Permutation_nil in H. subst. auto.
  - destruct y' as [|b y']; [apply Permutation_sym, Permutation_nil in H; discriminate|].
    rewrite (np_unique_perm _ _ H), (Permutation_length H). f_equal. apply map_ext. intros c.
    rewrite (zcount_perm c _ _ H). auto.
Qed.

(** A zero row of posteriors makes the result undefined, and raises if another iteration follows. *)
Lemma EM_zero_row : forall y train eps max_iter preds, EM_fit y = Val train ->
  In (repeat 0 (length train)) preds -> Forall (fun r => length r = length train) preds ->
  EM_run eps 1 train preds = NotANumber /\ EM_run eps (S (S max_iter)) train preds = Err ValueError.
Proof.
  intros y train eps max_iter preds Hf Hin Hr. destruct (EM_fit_train y train Hf) as [Ht [[Hl Dt] _]].
  assert (Hn : (0 < length train)%nat) by (destruct train; [destruct Dt; simpl in *; lra|simpl; lia]).
  assert (Hs : em_step train preds train = NotANumber).
  { unfold em_step. rewrite train_no_zero by auto.
    replace (existsb _ preds) with true; auto. symmetry. apply existsb_exists.
    exists (repeat 0 (length train)). split; auto. rewrite reweight_sum by (auto; apply repeat_length).
    unfold evidence. rewrite sumn_0; [unfold is_zero; destruct (Req_EM_T 0 0); auto; lra|].
    intros i Hi. rewrite nth_repeat. unfold Rdiv. ring. }
  unfold EM_run. cbn [em_loop].
  rewrite mae_val; [|rewrite repeat_length; auto|apply (length_nonempty (length train)); auto].
  cbn [obind]. rewrite orb_true_r, Hs. auto.
Qed.
