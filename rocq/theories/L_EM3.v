(** * EM under prior shift with a calibrated classifier. *)

From Coq Require Import Reals List ZArith Lia Lra Permutation Bool.
From Verif Require Import Num Spec Spec_EM L_Num M_Metrics L_Metrics L_Metrics2 M_EM M_Baselines L_Baselines L_EM L_EM2.
Import ListNotations.
Open Scope R_scope.

Lemma bag_sum : forall M f bag, Forall (fun x => (x < M)%nat) bag ->
  rsum (map f bag) = sumn M (fun x => INR (count_occ Nat.eq_dec bag x) * f x).
Proof.
  intros M f bag F. induction F as [|x bag Hx F IH].
  - simpl. rewrite sumn_0; auto. intros. simpl. ring.
  - cbn [map rsum]. rewrite IH.
    rewrite (sumn_ext M (fun y => INR (count_occ Nat.eq_dec (x :: bag) y) * f y)
      (fun y => (if Nat.eqb y x then f x else 0) + INR (count_occ Nat.eq_dec bag y) * f y)).
    + rewrite sumn_plus. f_equal. symmetry. rewrite (sumn_ext M _ (fun y => if Nat.eqb y x then f y else 0)).
      * rewrite (sumn_single M x); auto.
        -- rewrite Nat.eqb_refl. auto.
        -- intros i Hi Hne. destruct (Nat.eqb_spec i x); [lia|auto].
      * intros i Hi. destruct (Nat.eqb_spec i x); subst; auto.
    + intros y Hy. destruct (Nat.eqb_spec y x) as [->|Hne].
      * rewrite count_occ_cons_eq by auto. rewrite S_INR. ring.
      * rewrite count_occ_cons_neq by auto. ring.
Qed.

Section Shift.
Variables (train : list R) (M : nat) (F : nat -> nat -> R) (pi : list R) (bag : list nat).
Let n := length train.
Let preds := map (calibrated_posterior train F) bag.
Hypothesis Ht : positive train.
Hypothesis Dt : distribution train.
Hypothesis HF : class_conditional n M F.
Hypothesis Dpi : distribution_over n pi.
Hypothesis Hbag : bag_of n M F pi bag.

Let vp := value_probability n F.

Lemma bag_lt : forall x, In x bag -> (x < M)%nat.
Proof. intros x H. destruct Hbag as [_ [B _]]. rewrite Forall_forall in B. auto. Qed.

Lemma vp_nonneg : forall q x, distribution_over n q -> (x < M)%nat -> 0 <= vp q x.
Proof.
  intros q x D Hx. apply sumn_nonneg. intros c Hc. apply Rmult_le_pos; [apply (nth_dist _ _ c D)|].
  apply (proj1 (HF c Hc)); auto.
Qed.

Lemma vp_sum : forall q, distribution_over n q -> sumn M (vp q) = 1.
Proof.
  intros q D. unfold vp, value_probability. rewrite sumn_swap.
  rewrite (sumn_ext n _ (fun c => nth c q 0)).
  - apply sumn_dist; auto.
  - intros c Hc. rewrite sumn_scal. rewrite (proj2 (HF c Hc)). ring.
Qed.

Lemma bag_pos : 0 < INR (length bag).
Proof. apply length_pos. apply Hbag. Qed.

Lemma vp_bag : forall x, In x bag -> 0 < vp pi x.
Proof.
  intros x Hx. pose proof (bag_lt x Hx) as Hlt. unfold vp. rewrite <- (proj2 (proj2 Hbag) x Hlt).
  apply Rdiv_lt_0_compat; [|apply bag_pos]. apply INR_pos. apply (count_occ_In Nat.eq_dec). auto.
Qed.

Lemma vp_covers : forall q x, distribution_over n q -> (x < M)%nat ->
  (forall c, (c < n)%nat -> 0 < F c x -> 0 < nth c q 0) -> 0 < vp pi x -> 0 < vp q x.
Proof.
  intros q x D Hx Hc Hp. destruct (Rlt_le_dec 0 (vp q x)) as [|Hle]; auto. exfalso.
  pose proof (vp_nonneg q x D Hx) as H0. assert (E : vp q x = 0) by lra.
  assert (NN : forall c, (c < n)%nat -> 0 <= nth c q 0 * F c x).
  { intros c Hcn. apply Rmult_le_pos; [apply (nth_dist _ _ c D)|apply (proj1 (HF c Hcn)); auto]. }
  assert (Z : vp pi x = 0); [|lra]. apply sumn_0. intros c Hcn.
  pose proof (sumn_zero_all n _ NN E c Hcn) as Zc. cbv beta in Zc. pose proof (proj1 (HF c Hcn) x Hx).
  destruct (Req_dec (F c x) 0) as [->|]; [ring|]. exfalso.
  assert (0 < nth c q 0 * F c x); [|lra]. apply Rmult_lt_0_compat; [apply Hc; auto; lra|lra].
Qed.

Lemma vp_train_pos : forall x, In x bag -> 0 < vp train x.
Proof.
  intros x Hx. apply vp_covers; [split; auto|apply bag_lt; auto| |apply vp_bag; auto].
  intros. apply positive_nth; auto.
Qed.

Lemma preds_dist : distributions n preds.
Proof.
  unfold distributions, preds. apply Forall_map, Forall_forall. intros x Hx. pose proof (vp_train_pos x Hx) as Hp.
  pose proof (bag_lt x Hx) as Hlt.
  split; [apply tabulate_length|]. split.
  - apply Forall_forall. intros v Hv. unfold calibrated_posterior, tabulate in Hv. apply in_map_iff in Hv.
    destruct Hv as [c [<- Hc]]. apply in_seq in Hc. apply Rmult_le_pos; [|left; apply Rinv_0_lt_compat; auto].
    apply Rmult_le_pos; [left; apply positive_nth; auto; lia|]. apply (proj1 (HF c ltac:(unfold n; lia))); auto.
  - unfold calibrated_posterior. rewrite rsum_tabulate, sumn_div. fold n. fold (value_probability n F train x).
    fold (vp train x). field. lra.
Qed.

Lemma preds_ne : preds <> [].
Proof. unfold preds. destruct Hbag as [H _]. destruct bag; simpl; congruence. Qed.

Lemma posterior_nth : forall x c, (c < n)%nat -> nth c (calibrated_posterior train F x) 0 = nth c train 0 * F c x / vp train x.
Proof. intros. unfold calibrated_posterior. rewrite tabulate_nth by auto. reflexivity. Qed.

Lemma evidence_vp : forall q x, In x bag -> evidence train (calibrated_posterior train F x) q = vp q x / vp train x.
Proof.
  intros q x Hx. unfold evidence. fold n. pose proof (vp_train_pos x Hx). unfold vp at 1, value_probability.
  rewrite <- sumn_div. apply sumn_ext. intros c Hc. rewrite posterior_nth by auto.
  pose proof (positive_nth _ _ Ht Hc). field. split; lra.
Qed.

Lemma explains_pi : explains train preds pi.
Proof.
  split; auto. intros r Hr. unfold preds in Hr. apply in_map_iff in Hr. destruct Hr as [x [<- Hx]].
  rewrite evidence_vp by auto. apply Rdiv_lt_0_compat; [apply vp_bag|apply vp_train_pos]; auto.
Qed.

Lemma explains_vp : forall q x, explains train preds q -> (x < M)%nat -> 0 < vp pi x -> 0 < vp q x.
Proof.
  intros q x [D E] Hx Hp.
  assert (Hin : In x bag).
  { apply (count_occ_In Nat.eq_dec). apply INR_lt. simpl. pose proof bag_pos.
    pose proof (proj2 (proj2 Hbag) x Hx) as Q. fold (vp pi x) in Q.
    destruct (Req_dec (INR (count_occ Nat.eq_dec bag x)) 0) as [Z|]; [|pose proof (pos_INR (count_occ Nat.eq_dec bag x)); lra].
    rewrite Z in Q. unfold Rdiv in Q. rewrite Rmult_0_l in Q. lra. }
  specialize (E (calibrated_posterior train F x)). rewrite evidence_vp in E by auto.
  pose proof (vp_train_pos x Hin).
  assert (0 < vp q x / vp train x) by (apply E, in_map; auto).
  replace (vp q x) with (vp q x / vp train x * vp train x) by (field; lra). apply Rmult_lt_0_compat; auto.
Qed.

(** The log-likelihood is the cross entropy of the bag and the mixture, up to a constant. *)
Lemma likelihood_kl : forall q, explains train preds q ->
  log_likelihood train preds pi - log_likelihood train preds q =
  INR (length bag) * sumn M (fun x => vp pi x * (ln (vp pi x) - ln (vp q x))).
Proof.
  intros q Eq. unfold log_likelihood, preds. rewrite !map_map, <- rsum_map_minus.
  rewrite (rsum_map_ext _ (fun x => ln (vp pi x) - ln (vp q x))).
  - rewrite (bag_sum M) by apply Hbag. rewrite <- sumn_scal. apply sumn_ext. intros x Hx.
    unfold vp at 3. rewrite <- (proj2 (proj2 Hbag) x Hx). pose proof bag_pos. field. lra.
  - intros x Hx. rewrite !evidence_vp by auto. pose proof (vp_train_pos x Hx). pose proof (vp_bag x Hx).
    pose proof (explains_vp q x Eq (bag_lt x Hx) (vp_bag x Hx)). rewrite !ln_div by auto. ring.
Qed.

(** Hence at least the squared Hellinger distance. *)
Lemma likelihood_hellinger : forall q, explains train preds q ->
  INR (length bag) * hellinger2 M (vp pi) (vp q) <= log_likelihood train preds pi - log_likelihood train preds q.
Proof.
  intros q Eq. rewrite likelihood_kl by auto. apply Rmult_le_compat_l; [left; apply bag_pos|].
  assert (E : hellinger2 M (vp pi) (vp q) = sumn M (fun x => 2 * vp pi x - 2 * (sqrt (vp pi x) * sqrt (vp q x)))).
  { unfold hellinger2.
    rewrite (sumn_ext M _ (fun x => vp pi x + vp q x - 2 * (sqrt (vp pi x) * sqrt (vp q x)))).
    - rewrite sumn_minus, sumn_plus, (sumn_minus M (fun x => 2 * vp pi x)), (sumn_scal M 2 (vp pi)).
      rewrite (vp_sum pi), (vp_sum q) by (auto; apply Eq). ring.
    - intros x Hx. pose proof (pow2_sqrt _ (vp_nonneg pi x Dpi Hx)) as A.
      pose proof (pow2_sqrt _ (vp_nonneg q x (proj1 Eq) Hx)) as B.
      rewrite <- A at 2. rewrite <- B at 2. ring. }
  rewrite E. apply sumn_le. intros x Hx. pose proof (vp_nonneg pi x Dpi Hx) as Hp.
  destruct (Req_dec (vp pi x) 0) as [Z|Hnz].
  - rewrite Z, sqrt_0. lra.
  - assert (P : 0 < vp pi x) by lra. pose proof (explains_vp q x Eq Hx P) as Q.
    pose proof (sqrt_lt_R0 _ P) as SP. pose proof (sqrt_lt_R0 _ Q) as SQ.
    pose proof (ln_le_minus1 (sqrt (vp q x) / sqrt (vp pi x)) (Rdiv_lt_0_compat _ _ SQ SP)) as L.
    rewrite ln_div in L by auto.
    assert (LP : ln (vp pi x) = 2 * ln (sqrt (vp pi x))).
    { rewrite <- (sqrt_sqrt (vp pi x)) at 1 by lra. rewrite ln_mult by auto. ring. }
    assert (LQ : ln (vp q x) = 2 * ln (sqrt (vp q x))).
    { rewrite <- (sqrt_sqrt (vp q x)) at 1 by lra. rewrite ln_mult by auto. ring. }
    rewrite LP, LQ. apply (Rmult_le_compat_l (vp pi x)) in L; [|lra].
    replace (vp pi x * (sqrt (vp q x) / sqrt (vp pi x) - 1)) with (sqrt (vp pi x) * sqrt (vp q x) - vp pi x) in L.
    + lra.
    + rewrite <- (sqrt_sqrt (vp pi x)) at 2 3 by lra. field. lra.
Qed.

Lemma hellinger2_nonneg : forall f g, 0 <= hellinger2 M f g.
Proof. intros. apply sumn_nonneg. intros. apply pow2_ge_0. Qed.

Lemma pi_best : within_of_best 0 train preds pi.
Proof.
  split; [apply explains_pi|]. intros q Eq. pose proof (likelihood_hellinger q Eq).
  pose proof (hellinger2_nonneg (vp pi) (vp q)). pose proof bag_pos.
  assert (0 <= INR (length bag) * hellinger2 M (vp pi) (vp q)) by (apply Rmult_le_pos; lra). lra.
Qed.

Lemma pi_fixed : em_update train preds pi = pi.
Proof.
  apply list_eq_nth; [unfold em_update; rewrite tabulate_length; symmetry; apply Dpi|].
  intros j Hj. unfold em_update in *. rewrite tabulate_length in Hj. rewrite tabulate_nth by auto.
  unfold preds. rewrite map_map, map_length. pose proof bag_pos as BP.
  rewrite (rsum_map_ext _ (fun x => nth j pi 0 * F j x / vp pi x)).
  - rewrite (bag_sum M) by apply Hbag.
    rewrite (sumn_ext M _ (fun x => INR (length bag) * nth j pi 0 * F j x)).
    + rewrite sumn_scal, (proj2 (HF j Hj)). field. lra.
    + intros x Hx. pose proof (proj2 (proj2 Hbag) x Hx) as Q. fold (vp pi x) in Q.
      assert (C : INR (count_occ Nat.eq_dec bag x) = INR (length bag) * vp pi x) by (rewrite <- Q; field; lra).
      rewrite C. destruct (Req_dec (vp pi x) 0) as [Z|Hnz]; [|field; auto].
      rewrite Z, Rmult_0_r, Rmult_0_l. symmetry.
      assert (NN : forall c, (c < n)%nat -> 0 <= nth c pi 0 * F c x).
      { intros c Hcn. apply Rmult_le_pos; [apply (nth_dist _ _ c Dpi)|apply (proj1 (HF c Hcn)); auto]. }
      rewrite Rmult_assoc. rewrite (sumn_zero_all n _ NN Z j Hj). ring.
  - intros x Hx. unfold responsibility. rewrite evidence_vp, posterior_nth by auto.
    pose proof (vp_train_pos x Hx). pose proof (vp_bag x Hx). pose proof (positive_nth _ _ Ht Hj). field. repeat split; lra.
Qed.

(** L1 distance from the Hellinger distance. *)
Lemma l1_hellinger : forall q, distribution_over n q ->
  sumn M (fun x => Rabs (vp q x - vp pi x)) <= 2 * sqrt (hellinger2 M (vp pi) (vp q)).
Proof.
  intros q Dq.
  set (a := fun x => Rabs (sqrt (vp pi x) - sqrt (vp q x))). set (b := fun x => sqrt (vp pi x) + sqrt (vp q x)).
  assert (E : sumn M (fun x => Rabs (vp q x - vp pi x)) = sumn M (fun x => a x * b x)).
  { apply sumn_ext. intros x Hx. unfold a, b. pose proof (sqrt_pos (vp pi x)). pose proof (sqrt_pos (vp q x)).
    rewrite <- (Rabs_pos_eq (sqrt (vp pi x) + sqrt (vp q x))) by lra. rewrite <- Rabs_mult, Rabs_minus_sym. f_equal.
    pose proof (sqrt_sqrt _ (vp_nonneg pi x Dpi Hx)) as A. pose proof (sqrt_sqrt _ (vp_nonneg q x Dq Hx)) as B.
    rewrite <- A at 1. rewrite <- B at 1. ring. }
  rewrite E. pose proof (cauchy_schwarz M a b) as CS.
  assert (A : sumn M (fun x => a x ^ 2) = hellinger2 M (vp pi) (vp q)).
  { apply sumn_ext. intros x Hx. unfold a. rewrite pow2_abs. reflexivity. }
  assert (B : sumn M (fun x => b x ^ 2) <= 4).
  { apply Rle_trans with (sumn M (fun x => 2 * vp pi x + 2 * vp q x)).
    - apply sumn_le. intros x Hx. unfold b. pose proof (pow2_sqrt _ (vp_nonneg pi x Dpi Hx)) as P.
      pose proof (pow2_sqrt _ (vp_nonneg q x Dq Hx)) as Q. rewrite <- P at 2. rewrite <- Q at 2.
      pose proof (pow2_ge_0 (sqrt (vp pi x) - sqrt (vp q x))). nra.
    - rewrite sumn_plus, (sumn_scal M 2 (vp pi)), (sumn_scal M 2 (vp q)), !vp_sum by auto. lra. }
  rewrite A in CS. pose proof (hellinger2_nonneg (vp pi) (vp q)) as H0.
  assert (P : 0 <= sumn M (fun x => a x * b x)).
  { rewrite <- E. apply sumn_nonneg. intros. apply Rabs_pos. }
  pose proof (sqrt_pos (hellinger2 M (vp pi) (vp q))) as SH. pose proof (pow2_sqrt _ H0) as SQ.
  apply Rsqr_incr_0_var; [|lra]. unfold Rsqr.
  apply Rle_trans with (hellinger2 M (vp pi) (vp q) * 4).
  - eapply Rle_trans; [|apply Rmult_le_compat_l; [exact H0|exact B]]. lra.
  - right. rewrite <- SQ at 1. ring.
Qed.

Lemma recovered : forall G g q j, distribution_over n q -> (j < n)%nat ->
  (forall c, (c < n)%nat -> sumn M (fun x => G j x * F c x) = delta j c) ->
  (forall x, (x < M)%nat -> Rabs (G j x) <= g) ->
  Rabs (nth j q 0 - nth j pi 0) <= g * (2 * sqrt (hellinger2 M (vp pi) (vp q))).
Proof.
  intros G g q j Dq Hj HG Hg.
  assert (R : forall p, sumn M (fun x => G j x * vp p x) = nth j p 0).
  { intros p. unfold vp, value_probability.
    rewrite (sumn_ext M _ (fun x => sumn n (fun c => nth c p 0 * (G j x * F c x)))).
    - rewrite sumn_swap. rewrite (sumn_ext n _ (fun c => nth c p 0 * delta j c)).
      + rewrite (sumn_single n j); auto.
        * unfold delta. rewrite Nat.eqb_refl. ring.
        * intros i Hi Hne. unfold delta. destruct (Nat.eqb_spec j i); [lia|ring].
      + intros c Hc. rewrite sumn_scal, HG by auto. ring.
    - intros x Hx. rewrite <- sumn_scal. apply sumn_ext. intros. ring. }
  rewrite <- (R q), <- (R pi), <- sumn_minus.
  eapply Rle_trans; [apply sumn_Rabs_le|].
  apply Rle_trans with (sumn M (fun x => g * Rabs (vp q x - vp pi x))).
  - apply sumn_le. intros x Hx. rewrite <- Rmult_minus_distr_l, Rabs_mult.
    apply Rmult_le_compat_r; [apply Rabs_pos|]. auto.
  - rewrite sumn_scal. destruct (Nat.eq_dec M 0) as [Z|HM].
    + exfalso. pose proof (vp_sum pi Dpi) as S. rewrite Z in S. simpl in S. lra.
    + apply Rmult_le_compat_l; [|apply l1_hellinger; auto].
      apply Rle_trans with (Rabs (G j O)); [apply Rabs_pos|apply Hg; lia].
Qed.

End Shift.

Lemma EM_prior_shift : forall y train M F pi bag eps max_iter c, EM_fit y = Val train ->
  class_conditional (length (np_unique y)) M F -> distribution_over (length (np_unique y)) pi ->
  bag_of (length (np_unique y)) M F pi bag -> 0 < c -> Forall (fun t => c <= t) train ->
  let preds := map (calibrated_posterior train F) bag in
  within_of_best 0 train preds pi /\ em_update train preds pi = pi /\
  exists p m, EM_run eps max_iter train preds = Val (p, m) /\
    hellinger2 M (value_probability (length (np_unique y)) F pi) (value_probability (length (np_unique y)) F p)
      <= ln (1 / c) / INR (S m) /\
    (forall G g j, (j < length (np_unique y))%nat ->
       (forall d, (d < length (np_unique y))%nat -> sumn M (fun x => G j x * F d x) = delta j d) ->
       (forall x, (x < M)%nat -> Rabs (G j x) <= g) ->
       Rabs (nth j p 0 - nth j pi 0) <= 2 * g * sqrt (ln (1 / c) / INR (S m))).
Proof.
  intros y train M F pi bag eps mi c Hf HF Dpi Hbag Hc Hct preds.
  destruct (EM_fit_train y train Hf) as [Ht [[Hl Dt] _]]. rewrite <- Hl in *.
  split; [apply (pi_best train M F pi bag); auto|]. split; [apply (pi_fixed train M F pi bag); auto|].
  pose proof (preds_dist train M F pi bag Ht Dt HF Hbag) as Hd.
  pose proof (preds_ne train M F pi bag Hbag) as Hne. fold preds in Hd, Hne.
  rewrite Hl in Hd. destruct (EM_near_best y train eps mi preds c Hf Hne Hd Hc Hct) as [p [m [E [B [Hm _]]]]].
  rewrite <- Hl in Hd. exists p, m. split; auto.
  assert (HH : hellinger2 M (value_probability (length train) F pi) (value_probability (length train) F p) <= ln (1 / c) / INR (S m)).
  { pose proof (likelihood_hellinger train M F pi bag Ht Dt HF Dpi Hbag p (proj1 B)) as A.
    pose proof (proj2 B pi (explains_pi train M F pi bag Ht Dt HF Dpi Hbag)) as A2. fold preds in A.
    assert (Lp : length preds = length bag) by apply map_length. rewrite Lp in A2.
    pose proof (bag_pos train M F pi bag Hbag) as BP.
    apply (Rmult_le_reg_l (INR (length bag))); auto. unfold Rdiv in *. lra. }
  split; auto. intros G g j Hj HG Hg.
  pose proof (recovered train M F pi HF Dpi G g p j (proj1 (proj1 B)) Hj HG Hg) as A.
  eapply Rle_trans; [exact A|]. replace (2 * g * sqrt (ln (1 / c) / INR (S m))) with (g * (2 * sqrt (ln (1 / c) / INR (S m)))) by ring.
  assert (0 <= g).
  { destruct (Nat.eq_dec M 0) as [Z|HM].
    - exfalso. pose proof (vp_sum train M F HF pi Dpi) as S. rewrite Z in S. simpl in S. lra.
    - apply Rle_trans with (Rabs (G j O)); [apply Rabs_pos|apply Hg; lia]. }
  apply Rmult_le_compat_l; auto. apply Rmult_le_compat_l; [lra|]. apply sqrt_le_1_alt. auto.
Qed.
