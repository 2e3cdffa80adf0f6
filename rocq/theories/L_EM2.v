(** * EM: how close to the largest likelihood, and to the true prevalences, the result is. *)

From Coq Require Import Reals List ZArith Lia Lra Permutation Bool.
From Verif Require Import Num Spec Spec_EM L_Num M_Metrics L_Metrics L_Metrics2 M_EM M_Baselines L_Baselines L_EM.
Import ListNotations.
Open Scope R_scope.

(** ** The gain of one update against any other prevalences *)

Section Gain.
Variables (train : list R) (preds : list (list R)).
Let n := length train.
Hypothesis Ht : positive train.
Hypothesis Hne : preds <> [].
Hypothesis Hd : distributions n preds.

Lemma row_dist : forall r, In r preds -> distribution_over n r.
Proof. intros r H. unfold distributions in Hd. rewrite Forall_forall in Hd. auto. Qed.

Lemma covers_explains : forall p, distribution_over n p -> covers preds n p -> explains train preds p.
Proof. intros p D C. split; auto. intros. apply (evidence_pos train preds); auto. Qed.

Lemma resp_nonneg : forall q r j, explains train preds q -> In r preds -> (j < n)%nat ->
  0 <= responsibility train q r j.
Proof.
  intros q r j [D E] Hin Hj. pose proof (nth_dist _ _ j (row_dist r Hin)). pose proof (nth_dist _ _ j D).
  pose proof (positive_nth _ _ Ht Hj). pose proof (E r Hin). unfold responsibility.
  apply Rmult_le_pos; [|left; apply Rinv_0_lt_compat; auto].
  apply Rmult_le_pos; [apply Rmult_le_pos; lra|left; apply Rinv_0_lt_compat; auto].
Qed.

Lemma resp_pos : forall q r j, explains train preds q -> In r preds -> (j < n)%nat ->
  0 < responsibility train q r j -> 0 < nth j r 0 /\ 0 < nth j q 0.
Proof.
  intros q r j [D E] Hin Hj H. pose proof (nth_dist _ _ j (row_dist r Hin)). pose proof (nth_dist _ _ j D).
  unfold responsibility in H.
  destruct (Req_dec (nth j r 0) 0) as [Z|]; [rewrite Z in H; unfold Rdiv in H; rewrite !Rmult_0_l in H; lra|].
  destruct (Req_dec (nth j q 0) 0) as [Z|]; [rewrite Z in H; unfold Rdiv in H; rewrite Rmult_0_r, !Rmult_0_l in H; lra|].
  lra.
Qed.

Lemma em_gain : forall p q, distribution_over n p -> covers preds n p -> explains train preds q ->
  log_likelihood train preds q - log_likelihood train preds p <=
  rsum (map (fun r => sumn n (fun j => responsibility train q r j *
     ln (nth j (em_update train preds p) 0 / nth j p 0))) preds).
Proof.
  intros p q Dp Cp Eq. pose proof (length_pos preds Hne) as HN.
  destruct (em_update_invariant train preds p Ht Hne Hd Dp Cp) as [Dp' Cp']. fold n in Dp', Cp'.
  pose proof (covers_explains p Dp Cp) as Ep.
  set (p' := em_update train preds p) in *.
  assert (Hp' : forall j, (j < n)%nat -> rsum (map (fun r => responsibility train p r j) preds) = INR (length preds) * nth j p' 0).
  { intros j Hj. unfold p', em_update. rewrite tabulate_nth by auto. field. lra. }
  assert (Hrow : forall r, In r preds ->
     ln (evidence train r q) - ln (evidence train r p) -
       sumn n (fun j => responsibility train q r j * ln (nth j p' 0 / nth j p 0)) <=
     sumn n (fun j => nth j q 0 / nth j p' 0 * responsibility train p r j - responsibility train q r j)).
  { intros r Hin. pose proof (proj2 Eq r Hin) as HEq. pose proof (proj2 Ep r Hin) as HEp.
    assert (S1 : sumn n (responsibility train q r) = 1) by (apply responsibility_sum; lra).
    assert (X0 : ln (evidence train r q) - ln (evidence train r p) =
      sumn n (fun j => responsibility train q r j * (ln (evidence train r q) - ln (evidence train r p)))).
    { rewrite sumn_scal_r. rewrite S1. ring. }
    rewrite X0.
    rewrite <- sumn_minus. apply sumn_le. intros j Hj.
    pose proof (resp_nonneg q r j Eq Hin Hj) as HQ. pose proof (resp_nonneg p r j Ep Hin Hj) as HP.
    pose proof (nth_dist _ _ j Dp') as Hj'. pose proof (nth_dist _ _ j (proj1 Eq)) as Hjq.
    destruct (Req_dec (responsibility train q r j) 0) as [Z|Hnz].
    - rewrite Z. apply Rle_trans with 0; [lra|]. rewrite Rminus_0_r.
      destruct (Req_dec (nth j p' 0) 0) as [Z'|].
      + assert (responsibility train p r j = 0) as ->; [|lra].
        apply Rle_antisym; auto. apply Rle_trans with (rsum (map (fun r => responsibility train p r j) preds)).
        * apply rsum_in_le; [|apply (in_map (fun r => responsibility train p r j)); auto].
          apply Forall_map, Forall_forall. intros. apply resp_nonneg; auto.
        * rewrite Hp', Z' by auto. lra.
      + apply Rmult_le_pos; auto. apply Rmult_le_pos; [lra|]. left; apply Rinv_0_lt_compat; lra.
    - assert (HQ0 : 0 < responsibility train q r j) by lra.
      destruct (resp_pos q r j Eq Hin Hj HQ0) as [Hr Hq].
      pose proof (Cp r j Hin Hj Hr) as Hp. pose proof (Cp' r j Hin Hj Hr) as Hpp. pose proof (positive_nth _ _ Ht Hj) as Htj.
      fold n in Htj.
      set (x := nth j p 0 * evidence train r q / (nth j p' 0 * evidence train r p)).
      assert (Hx : 0 < x) by (apply Rdiv_lt_0_compat; apply Rmult_lt_0_compat; auto).
      assert (L : ln (evidence train r q) - ln (evidence train r p) - ln (nth j p' 0 / nth j p 0) = ln x).
      { unfold x. rewrite !ln_div by (auto; apply Rmult_lt_0_compat; auto). rewrite !ln_mult by auto. ring. }
      pose proof (ln_le_minus1 x Hx) as Hl.
      apply (Rmult_le_compat_l (responsibility train q r j)) in Hl; [|lra].
      replace (responsibility train q r j * (ln (evidence train r q) - ln (evidence train r p)) -
        responsibility train q r j * ln (nth j p' 0 / nth j p 0)) with (responsibility train q r j * ln x) by (rewrite <- L; ring).
      eapply Rle_trans; [exact Hl|]. right.
      assert (X : nth j q 0 / nth j p' 0 * responsibility train p r j = responsibility train q r j * x).
      { unfold x, responsibility. field. repeat split; lra. }
      rewrite X. ring. }
  assert (Hsum : rsum (map (fun r => sumn n (fun j => nth j q 0 / nth j p' 0 * responsibility train p r j - responsibility train q r j)) preds) <= 0).
  { apply Rle_trans with (rsum (map (fun r => sumn n (fun j => nth j q 0 / nth j p' 0 * responsibility train p r j) - 1) preds)).
    { apply rsum_map_le. intros r Hin. rewrite sumn_minus.
      apply Rplus_le_compat_l, Ropp_le_contravar. right. symmetry.
      apply responsibility_sum. pose proof (proj2 Eq r Hin). lra. }
    rewrite rsum_map_minus, rsum_map_const, rsum_sumn_swap.
    apply Rle_trans with (sumn n (fun j => INR (length preds) * nth j q 0) - INR (length preds) * 1).
    - apply Rplus_le_compat_r. apply sumn_le. intros j Hj. rewrite rsum_map_scal, Hp' by auto.
      pose proof (nth_dist _ _ j Dp'). pose proof (nth_dist _ _ j (proj1 Eq)).
      destruct (Req_dec (nth j p' 0) 0) as [Z|].
      + rewrite Z. rewrite !Rmult_0_r. apply Rmult_le_pos; lra.
      + right. field. auto.
    - rewrite sumn_scal, (sumn_dist n q) by apply Eq. lra. }
  assert (H := rsum_map_le _ _ preds Hrow). rewrite !rsum_map_minus in H.
  unfold log_likelihood. lra.
Qed.

(** ** Summed over the iterations *)

Lemma em_gain_sum : forall q T, distribution train -> explains train preds q ->
  sumn T (fun t => log_likelihood train preds q - log_likelihood train preds (em_iterate train preds t)) <=
  rsum (map (fun r => sumn n (fun j => responsibility train q r j *
     ln (nth j (em_iterate train preds T) 0 / nth j train 0))) preds).
Proof.
  intros q T Dt Eq. induction T as [|T IH]; cbn [sumn].
  - right. cbn [em_iterate]. symmetry. transitivity (rsum (map (fun _ : list R => 0) preds)).
    + apply rsum_map_ext. intros r Hin. apply sumn_0. intros j Hj. pose proof (positive_nth _ _ Ht Hj).
      unfold Rdiv. rewrite Rinv_r by lra. rewrite ln_1. ring.
    + rewrite rsum_map_const. ring.
  - destruct (em_iterate_invariant train preds T Ht Dt Hne Hd) as [DT CT].
    destruct (em_iterate_invariant train preds (S T) Ht Dt Hne Hd) as [DS CS].
    pose proof (em_gain (em_iterate train preds T) q DT CT Eq) as G.
    change (em_update train preds (em_iterate train preds T)) with (em_iterate train preds (S T)) in G.
    eapply Rle_trans; [apply Rplus_le_compat; [exact IH|exact G]|]. right.
    rewrite <- rsum_map_plus. apply rsum_map_ext. intros r Hin. rewrite <- sumn_plus. apply sumn_ext. intros j Hj.
    pose proof (resp_nonneg q r j Eq Hin Hj).
    destruct (Req_dec (responsibility train q r j) 0) as [Z|Hnz]; [rewrite Z; ring|].
    destruct (resp_pos q r j Eq Hin Hj ltac:(lra)) as [Hr _].
    pose proof (CT r j Hin Hj Hr). pose proof (CS r j Hin Hj Hr). pose proof (positive_nth _ _ Ht Hj).
    rewrite !ln_div by auto. ring.
Qed.

Lemma em_log_bound : forall q c p, distribution_over n p -> covers preds n p -> 0 < c -> Forall (fun t => c <= t) train ->
  explains train preds q ->
  rsum (map (fun r => sumn n (fun j => responsibility train q r j * ln (nth j p 0 / nth j train 0))) preds)
  <= INR (length preds) * ln (1 / c).
Proof.
  intros q c p Dp Cp Hc Hct Eq. rewrite <- (rsum_map_const (ln (1 / c)) preds). apply rsum_map_le. intros r Hin.
  apply Rle_trans with (sumn n (fun j => responsibility train q r j * ln (1 / c))).
  - apply sumn_le. intros j Hj. pose proof (resp_nonneg q r j Eq Hin Hj).
    destruct (Req_dec (responsibility train q r j) 0) as [Z|Hnz]; [rewrite Z; lra|].
    destruct (resp_pos q r j Eq Hin Hj ltac:(lra)) as [Hr _]. pose proof (Cp r j Hin Hj Hr).
    pose proof (positive_nth _ _ Ht Hj). apply Rmult_le_compat_l; [lra|].
    assert (c <= nth j train 0) by (rewrite Forall_forall in Hct; apply Hct, nth_In; auto).
    assert (nth j p 0 <= 1).
    { destruct Dp as [Lp Dp]. apply (distribution_le_1 p); auto. apply nth_In. lia. }
    rewrite !ln_div by lra. rewrite ln_1.
    assert (ln (nth j p 0) <= ln 1) by (destruct (Req_dec (nth j p 0) 1) as [->|]; [lra|left; apply ln_increasing; lra]).
    rewrite ln_1 in *.
    assert (ln c <= ln (nth j train 0)) by (destruct (Req_dec c (nth j train 0)) as [->|]; [lra|left; apply ln_increasing; lra]).
    lra.
  - rewrite sumn_scal_r. unfold n. rewrite (responsibility_sum train q r); [lra|]. pose proof (proj2 Eq r Hin). lra.
Qed.

Lemma em_likelihood_le : forall a b, distribution train -> (a <= b)%nat ->
  log_likelihood train preds (em_iterate train preds a) <= log_likelihood train preds (em_iterate train preds b).
Proof.
  intros a b Dt H. induction H; [lra|]. eapply Rle_trans; [exact IHle|]. apply em_likelihood_mono; auto.
Qed.

Lemma em_rate : forall c k, distribution train -> 0 < c -> Forall (fun t => c <= t) train ->
  within_of_best (INR (length preds) * ln (1 / c) / INR (S k)) train preds (em_iterate train preds k).
Proof.
  intros c k Dt Hc Hct. destruct (em_iterate_invariant train preds k Ht Dt Hne Hd) as [Dk Ck].
  split; [apply covers_explains; auto|]. intros q Eq.
  destruct (em_iterate_invariant train preds (S k) Ht Dt Hne Hd) as [DS CS].
  pose proof (em_gain_sum q (S k) Dt Eq) as G. pose proof (em_log_bound q c _ DS CS Hc Hct Eq) as B.
  assert (L : INR (S k) * (log_likelihood train preds q - log_likelihood train preds (em_iterate train preds k)) <=
    sumn (S k) (fun t => log_likelihood train preds q - log_likelihood train preds (em_iterate train preds t))).
  { rewrite <- sumn_const. apply sumn_le. intros t H. pose proof (em_likelihood_le t k Dt ltac:(lia)). lra. }
  assert (0 < INR (S k)) by (apply INR_pos; lia).
  apply (Rmult_le_reg_l (INR (S k))); auto.
  replace (INR (S k) * (INR (length preds) * ln (1 / c) / INR (S k))) with (INR (length preds) * ln (1 / c)) by (field; lra).
  lra.
Qed.

Lemma em_certificate : forall k d, distribution train -> 0 <= d ->
  (forall j, (j < n)%nat -> nth j (em_iterate train preds (S k)) 0 <= (1 + d) * nth j (em_iterate train preds k) 0) ->
  within_of_best (INR (length preds) * ln (1 + d)) train preds (em_iterate train preds k).
Proof.
  intros k d Dt Hd0 Hg. destruct (em_iterate_invariant train preds k Ht Dt Hne Hd) as [Dk Ck].
  destruct (em_iterate_invariant train preds (S k) Ht Dt Hne Hd) as [DS CS].
  split; [apply covers_explains; auto|]. intros q Eq.
  pose proof (em_gain (em_iterate train preds k) q Dk Ck Eq) as G.
  change (em_update train preds (em_iterate train preds k)) with (em_iterate train preds (S k)) in G.
  eapply Rle_trans; [exact G|].
  rewrite <- (rsum_map_const (ln (1 + d)) preds). apply rsum_map_le. intros r Hin.
  apply Rle_trans with (sumn n (fun j => responsibility train q r j * ln (1 + d))).
  - apply sumn_le. intros j Hj. pose proof (resp_nonneg q r j Eq Hin Hj).
    destruct (Req_dec (responsibility train q r j) 0) as [Z|Hnz]; [rewrite Z; lra|].
    destruct (resp_pos q r j Eq Hin Hj ltac:(lra)) as [Hr _].
    pose proof (Ck r j Hin Hj Hr) as Hk. pose proof (CS r j Hin Hj Hr) as HS.
    apply Rmult_le_compat_l; [lra|]. specialize (Hg j Hj).
    assert (Hle : nth j (em_iterate train preds (S k)) 0 / nth j (em_iterate train preds k) 0 <= 1 + d).
    { apply (Rmult_le_reg_r (nth j (em_iterate train preds k) 0)); auto. unfold Rdiv. rewrite Rmult_assoc, Rinv_l by lra. lra. }
    pose proof (Rdiv_lt_0_compat _ _ HS Hk).
    destruct (Req_dec (nth j (em_iterate train preds (S k)) 0 / nth j (em_iterate train preds k) 0) (1 + d)) as [->|]; [lra|].
    left. apply ln_increasing; lra.
  - rewrite sumn_scal_r. unfold n. rewrite (responsibility_sum train q r); [lra|]. pose proof (proj2 Eq r Hin). lra.
Qed.

End Gain.

(** ** C95 *)

Lemma EM_near_best : forall y train eps max_iter preds c, EM_fit y = Val train ->
  preds <> [] -> distributions (length (np_unique y)) preds -> 0 < c -> Forall (fun t => c <= t) train ->
  exists p m, EM_run eps max_iter train preds = Val (p, m) /\
    within_of_best (INR (length preds) * ln (1 / c) / INR (S m)) train preds p /\
    (Nat.min 10 max_iter <= m <= max_iter)%nat /\ (eps < 0 -> m = max_iter).
Proof.
  intros y train eps mi preds c Hf Hne Hd Hc Hct. destruct (EM_fit_train y train Hf) as [Ht [[Hl Dt] _]].
  destruct (EM_spec y train eps mi preds Hf Hne Hd) as [m [E [Hm [Hs _]]]]. rewrite <- Hl in Hd.
  exists (em_iterate train preds m), m. split; auto. split; [apply em_rate; auto|]. split; auto.
  intros He. destruct (Nat.eq_dec m mi) as [|Hlt]; auto. exfalso. specialize (Hs ltac:(lia)).
  assert (0 <= em_change train preds m); [|lra]. unfold em_change.
  apply Rmult_le_pos; [apply sumn_nonneg; intros; apply Rabs_pos|].
  assert (Hn : (0 < length train)%nat) by (destruct train; [destruct Dt; simpl in *; lra|simpl; lia]).
  left. apply Rinv_0_lt_compat. apply INR_pos. auto.
Qed.

Lemma EM_certificate : forall y train preds k d, EM_fit y = Val train ->
  preds <> [] -> distributions (length (np_unique y)) preds -> 0 <= d ->
  (forall j, (j < length (np_unique y))%nat ->
     nth j (em_iterate train preds (S k)) 0 <= (1 + d) * nth j (em_iterate train preds k) 0) ->
  within_of_best (INR (length preds) * ln (1 + d)) train preds (em_iterate train preds k).
Proof.
  intros y train preds k d Hf Hne Hd Hd0 Hg. destruct (EM_fit_train y train Hf) as [Ht [[Hl Dt] _]].
  rewrite <- Hl in *. apply em_certificate; auto.
Qed.

Lemma EM_fixed_best : forall y train preds k, EM_fit y = Val train ->
  preds <> [] -> distributions (length (np_unique y)) preds ->
  em_update train preds (em_iterate train preds k) = em_iterate train preds k ->
  within_of_best 0 train preds (em_iterate train preds k).
Proof.
  intros y train preds k Hf Hne Hd Hfix.
  replace 0 with (INR (length preds) * ln (1 + 0)) by (rewrite Rplus_0_r, ln_1; ring).
  apply (EM_certificate y); auto; [lra|]. intros j _. simpl. rewrite Hfix. lra.
Qed.

(** ** A stop by the tolerance can be far from the best prevalences *)

Definition late_train (n : nat) : list R := [1 / INR n; 1 - 1 / INR n].
Definition late_bag (n : nat) : list (list R) :=
  [[2 * (1 / INR n) / (1 + 1 / INR n); (1 - 1 / INR n) / (1 + 1 / INR n)]].

(** The prevalence of the first class after [k] updates. *)
Lemma late_iterate : forall n k, (2 <= n)%nat ->
  let t := 1 / INR n in
  em_iterate (late_train n) (late_bag n) k = [2 ^ k * t / (1 - t + 2 ^ k * t); (1 - t) / (1 - t + 2 ^ k * t)].
Proof.
  intros n k Hn t. assert (Hn2 : 2 <= INR n) by (apply (le_INR 2 n) in Hn; simpl in Hn; lra).
  assert (Ht : 0 < t <= 1 / 2).
  { unfold t. split; [apply Rdiv_lt_0_compat; lra|]. apply (Rmult_le_reg_r (INR n)); [lra|]. unfold Rdiv.
    rewrite Rmult_assoc, Rinv_l by lra. lra. }
  induction k as [|k IH].
  - simpl. unfold late_train. fold t. f_equal; [field; lra|f_equal; field; lra].
  - cbn [em_iterate]. rewrite IH. assert (0 < 2 ^ k) by (apply pow_lt; lra).
    assert (0 < 2 ^ k * t) by (apply Rmult_lt_0_compat; lra).
    unfold em_update, tabulate, late_train, late_bag, responsibility, evidence. cbn [length sumn seq map nth rsum].
    fold t. cbn [pow].
    replace (INR 1) with 1 by reflexivity.
    f_equal; [|f_equal]; field; repeat split; try lra; nra.
Qed.

Lemma late_unique : forall n, (2 <= n)%nat -> np_unique (1%Z :: repeat 2%Z (n - 1)) = [1; 2]%Z.
Proof.
  intros n Hn. apply sorted_lt_ext; [apply np_unique_sorted| |].
  - repeat constructor; lia.
  - intros z. rewrite np_unique_in. simpl. split.
    + intros [H|H]; auto. apply repeat_spec in H. auto.
    + intros [H|[H|[]]]; auto. right. subst. destruct (n - 1)%nat eqn:En; [lia|]. simpl. auto.
Qed.

Lemma late_fit : forall n, (2 <= n)%nat -> EM_fit (1%Z :: repeat 2%Z (n - 1)) = Val (late_train n).
Proof.
  intros n Hn. assert (Hn2 : 2 <= INR n) by (apply (le_INR 2 n) in Hn; simpl in Hn; lra).
  pose proof (late_unique n Hn) as U.
  unfold EM_fit. rewrite U. cbn [map]. rewrite !zcount_cons, !zcount_repeat. cbn [length]. rewrite repeat_length.
  destruct (Z.eq_dec 1 1); [|congruence]. destruct (Z.eq_dec 2 1); [lia|]. destruct (Z.eq_dec 1 2); [lia|].
  destruct (Z.eq_dec 2 2); [|congruence].
  replace (S (n - 1)) with n by lia. unfold late_train. apply (f_equal Val).
  replace (INR (1 + 0)) with 1 by (simpl; ring). replace (INR (0 + (n - 1))) with (INR n - 1) by (rewrite Nat.add_0_l, minus_INR by lia; simpl; ring).
  f_equal. f_equal. field. lra.
Qed.

Lemma late_t : forall n, (2 <= n)%nat -> 0 < 1 / INR n <= 1 / 2.
Proof.
  intros n Hn. assert (Hn2 : 2 <= INR n) by (apply (le_INR 2 n) in Hn; simpl in Hn; lra).
  split; [apply Rdiv_lt_0_compat; lra|]. apply (Rmult_le_reg_r (INR n)); [lra|]. unfold Rdiv.
  rewrite Rmult_assoc, Rinv_l by lra. lra.
Qed.

Lemma late_evidence : forall n q0 q1, (2 <= n)%nat -> q0 + q1 = 1 ->
  evidence (late_train n) [2 * (1 / INR n) / (1 + 1 / INR n); (1 - 1 / INR n) / (1 + 1 / INR n)] [q0; q1] =
  (1 + q0) / (1 + 1 / INR n).
Proof.
  intros n q0 q1 Hn Hq. pose proof (late_t n Hn) as Ht. unfold evidence, late_train. cbn [length sumn nth].
  set (t := 1 / INR n) in *. replace q1 with (1 - q0) by lra. field. repeat split; lra.
Qed.

Lemma EM_early_stop : forall eps, 0 < eps ->
  exists y train preds, EM_fit y = Val train /\ preds <> [] /\ distributions (length (np_unique y)) preds /\
    np_unique y = [1; 2]%Z /\
    (forall q, within_of_best 0 train preds q <-> q = [1; 0]) /\
    forall max_iter, (10 <= max_iter)%nat ->
      exists p, EM_predict eps max_iter train preds = Val p /\ nth 0 p 0 <= eps.
Proof.
  intros eps He. destruct (archimed (2048 / eps)) as [Ha _].
  assert (H0 : 0 < 2048 / eps) by (apply Rdiv_lt_0_compat; lra).
  assert (Hz : (0 < up (2048 / eps))%Z) by (apply lt_IZR; lra).
  set (n := (2 + Z.to_nat (up (2048 / eps)))%nat).
  assert (Hn : (2 <= n)%nat) by (unfold n; lia).
  assert (HN : 2048 / eps <= INR n).
  { unfold n. rewrite plus_INR, (INR_IZR_INZ (Z.to_nat _)). rewrite Z2Nat.id by lia. simpl. lra. }
  pose proof (late_t n Hn) as Ht.
  assert (Ht2 : 2048 * (1 / INR n) <= eps).
  { assert (0 < INR n) by (apply INR_pos; lia). apply (Rmult_le_reg_r (INR n)); auto.
    replace (2048 * (1 / INR n) * INR n) with 2048 by (field; lra).
    apply (Rmult_le_compat_l eps) in HN; [|lra]. replace (eps * (2048 / eps)) with 2048 in HN by (field; lra). lra. }
  pose proof (late_unique n Hn) as U.
  assert (Hd : distributions (length (np_unique (1%Z :: repeat 2%Z (n - 1)))) (late_bag n)).
  { rewrite U. unfold late_bag. set (t := 1 / INR n) in *. apply Forall_cons; [|apply Forall_nil]. split; [reflexivity|]. split.
    - apply Forall_cons; [apply Rlt_le, Rdiv_lt_0_compat; lra|]. apply Forall_cons; [apply Rlt_le, Rdiv_lt_0_compat; lra|apply Forall_nil].
    - simpl. field. lra. }
  exists (1%Z :: repeat 2%Z (n - 1)), (late_train n), (late_bag n).
  split; [apply late_fit; auto|]. split; [unfold late_bag; congruence|]. split; auto. split; auto. split.
  - assert (EX : forall q, distribution_over 2 q -> exists q0 q1, q = [q0; q1] /\ 0 <= q0 /\ 0 <= q1 /\ q0 + q1 = 1).
    { intros q [L [P S]]. destruct q as [|q0 [|q1 [|]]]; simpl in L; try lia. exists q0, q1.
      inversion P; subst. inversion H3; subst. simpl in S. repeat split; auto. lra. }
    assert (LL : forall q0 q1, q0 + q1 = 1 -> log_likelihood (late_train n) (late_bag n) [q0; q1] = ln ((1 + q0) / (1 + 1 / INR n))).
    { intros. unfold log_likelihood, late_bag. cbn [map rsum]. rewrite late_evidence by auto. ring. }
    assert (E1 : explains (late_train n) (late_bag n) [1; 0]).
    { split.
      - split; [reflexivity|]. split; [|simpl; lra]. repeat (apply Forall_cons; [lra|]); apply Forall_nil.
      - intros r [<-|[]]. rewrite late_evidence by (auto; lra). apply Rdiv_lt_0_compat; lra. }
    intros q. split.
    + intros [[Dq Eq] H]. destruct (EX q Dq) as [q0 [q1 [-> [P0 [P1 S]]]]]. specialize (H _ E1).
      rewrite !LL in H by lra. destruct (Req_dec q0 1) as [->|Hq]; [replace q1 with 0 by lra; auto|]. exfalso.
      assert (ln ((1 + q0) / (1 + 1 / INR n)) < ln ((1 + 1) / (1 + 1 / INR n))); [|lra].
      apply ln_increasing; [apply Rdiv_lt_0_compat; lra|]. apply Rmult_lt_compat_r; [apply Rinv_0_lt_compat; lra|lra].
    + intros ->. split; auto. intros q [Dq Eq]. destruct (EX q Dq) as [q0 [q1 [-> [P0 [P1 S]]]]].
      rewrite !LL by lra. destruct (Req_dec q0 1) as [->|Hq]; [lra|].
      assert (ln ((1 + q0) / (1 + 1 / INR n)) < ln ((1 + 1) / (1 + 1 / INR n))); [|lra].
      apply ln_increasing; [apply Rdiv_lt_0_compat; lra|]. apply Rmult_lt_compat_r; [apply Rinv_0_lt_compat; lra|lra].
  - intros mi Hmi.
    destruct (EM_spec _ _ eps mi (late_bag n) (late_fit n Hn) ltac:(unfold late_bag; congruence) Hd) as [m [E [Hm [_ Hs]]]].
    assert (Hit : forall k, (k <= 10)%nat -> 0 <= nth 0 (em_iterate (late_train n) (late_bag n) k) 0 <= eps).
    { intros k Hk. rewrite (late_iterate n k Hn). cbn [nth]. set (t := 1 / INR n) in *.
      assert (0 < 2 ^ k) by (apply pow_lt; lra). assert (2 ^ k <= 2 ^ 10) by (apply Rle_pow; [lra|auto]).
      replace (2 ^ 10) with 1024 in * by ring.
      assert (0 < 2 ^ k * t) by (apply Rmult_lt_0_compat; lra). split.
      - apply Rlt_le, Rdiv_lt_0_compat; lra.
      - apply (Rmult_le_reg_r (1 - t + 2 ^ k * t)); [lra|]. unfold Rdiv. rewrite Rmult_assoc, Rinv_l by lra.
        assert (2 ^ k * t <= 1024 * t) by (apply Rmult_le_compat_r; lra).
        assert (2 ^ k * t <= eps / 2) by lra.
        assert (eps * (1 / 2) <= eps * (1 - t + 2 ^ k * t)) by (apply Rmult_le_compat_l; lra). lra. }
    assert (Hc : em_change (late_train n) (late_bag n) 10 <= eps).
    { pose proof (Hit 10%nat ltac:(lia)) as A. pose proof (Hit 9%nat ltac:(lia)) as B. unfold em_change.
      change (10 - 1)%nat with 9%nat. cbn [late_train length sumn].
      destruct (em_iterate_invariant (late_train n) (late_bag n) 10) as [[L1 [_ S1]] _].
      5:{ destruct (em_iterate_invariant (late_train n) (late_bag n) 9) as [[L2 [_ S2]] _].
          5:{ destruct (em_iterate (late_train n) (late_bag n) 10) as [|a [|b [|]]]; simpl in L1; try lia.
              destruct (em_iterate (late_train n) (late_bag n) 9) as [|a' [|b' [|]]]; simpl in L2; try lia.
              cbn [nth rsum] in *. replace b with (1 - a) by lra. replace b' with (1 - a') by lra.
              replace (1 - a - (1 - a')) with (- (a - a')) by ring. rewrite Rabs_Ropp. replace (INR 2) with 2 by (simpl; ring).
              assert (Rabs (a - a') <= eps) by (apply Rabs_le; lra). lra. }
          all: try apply (EM_fit_train _ _ (late_fit n Hn)); auto. unfold late_bag; congruence. rewrite U in Hd; exact Hd. }
      all: try apply (EM_fit_train _ _ (late_fit n Hn)); auto. unfold late_bag; congruence. rewrite U in Hd; exact Hd. }
    assert (m = 10%nat) as ->.
    { destruct (Nat.eq_dec m 10); auto. specialize (Hs 10%nat ltac:(lia) ltac:(lia)). lra. }
    exists (em_iterate (late_train n) (late_bag n) 10). unfold EM_predict. rewrite E. split; [reflexivity|].
    apply Hit. lia.
Qed.
