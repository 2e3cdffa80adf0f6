(** * Errors of the quantifiers. *)

From Coq Require Import Reals List ZArith Lia Lra Permutation Bool.
From Verif Require Import Num Spec M_Baselines L_Num L_Baselines M_Metrics L_Metrics L_Metrics2
  M_Ordinal Spec_Ordinal L_Ordinal L_Ordinal2 Spec_Error L_Error.
Import ListNotations.
Open Scope R_scope.

(** ** AC and PAC *)

Definition trained_rate (r : nat) (tr : list (Z * (nat -> Z))) (c d : Z) : R :=
  rate c d (repeated_labels r tr) (predictions_of r tr).

Lemma AC_rows : forall r (tr : list (Z * (nat -> Z))) cm, (0 < r)%nat ->
  (forall x, In x (predictions_of r tr) -> In x (np_unique (labels_of tr))) ->
  AC_fit (labels_of tr) (predictions_of r tr) = Val cm ->
  let classes := np_unique (labels_of tr) in
  cm = map Some (map (fun c => map (fun j => rate c (nth j classes 0%Z) (repeated_labels r tr) (predictions_of r tr))
                                   (seq 0 (length classes))) classes).
Proof.
  intros r tr cm Hr Hk Hfit classes. rewrite (fit_AC_rates r tr Hr Hk) in Hfit. inversion Hfit as [H]. fold classes.
  f_equal. apply map_ext. intros c. rewrite <- (seq_nth_map classes) at 1. rewrite map_map. auto.
Qed.

Lemma AC_binary_error : forall S dist r (tr : list (Z * (nat -> Z))) cm ytest ptest c0 c1 e, (0 < r)%nat ->
  let trained := fun c d => rate c d (repeated_labels r tr) (predictions_of r tr) in
  np_unique (labels_of tr) = [c0; c1] ->
  (forall x, In x (predictions_of r tr) -> In x [c0; c1]) ->
  AC_fit (labels_of tr) (predictions_of r tr) = Val cm ->
  length ytest = length ptest -> ytest <> [] -> (forall x, In x ytest -> In x [c0; c1]) ->
  1/1000 < Rabs (trained c1 c1 - trained c0 c1) ->
  (forall c, In c ytest -> Rabs (rate c c1 ytest ptest - trained c c1) <= e) ->
  exists p, AC_predict S dist [c0; c1] cm ptest = Val p /\ length p = 2%nat /\
    forall i, (i < 2)%nat ->
      Rabs (nth i p 0 - nth i (prevalences_of [c0; c1] ytest) 0) <= e / Rabs (trained c1 c1 - trained c0 c1).
Proof.
  intros S dist r tr cm ytest ptest c0 c1 e Hr trained Hcl Hk Hfit Hlen Hne Hky Hinf He.
  pose proof (np_unique_NoDup (labels_of tr)) as Hnd. rewrite Hcl in Hnd.
  assert (Hk2 : forall x, In x (predictions_of r tr) -> In x (np_unique (labels_of tr))) by (rewrite Hcl; auto).
  pose proof (AC_rows r tr cm Hr Hk2 Hfit) as Hcm. cbv zeta in Hcm. rewrite Hcl in Hcm.
  assert (Hpne : ptest <> []) by (intro; subst; destruct ytest; [congruence|discriminate]).
  unfold AC_predict, class_frequencies. destruct ptest as [|x0 t0] eqn:Ep; [congruence|]. rewrite <- Ep in *.
  cbn [obind length Nat.eqb]. eexists. split; [reflexivity|]. split.
  { apply binary_adjust_length. auto. }
  intros i Hi. rewrite Hcm. cbn [length].
  apply (adjust_error_binary c0 c1 (fun c j => rate c (nth j [c0; c1] 0%Z) (repeated_labels r tr) (predictions_of r tr))
           (fun c j => rate c (nth j [c0; c1] 0%Z) ytest ptest)); auto.
  change (nth 1 (map (fun c => INR (zcount c ptest) / INR (length ptest)) [c0; c1]) 0) with (fraction c1 ptest).
  apply (fraction_mixture [c0; c1] ytest ptest); auto.
Qed.

Lemma inverse_of_ext : forall n A B M, (forall i j, (i < n)%nat -> (j < n)%nat -> A i j = B i j) ->
  inverse_of n A M -> inverse_of n B M.
Proof.
  intros n A B M H HI i j Hi Hj. destruct (HI i j Hi Hj) as [E1 E2]. split.
  - rewrite <- E1. apply sumn_ext. intros. rewrite H; auto.
  - rewrite <- E2. apply sumn_ext. intros. rewrite H; auto.
Qed.

Lemma AC_multi_error : forall S dist r (tr : list (Z * (nat -> Z))) cm ytest ptest kappa e,
  oracle_inverts S -> (0 < r)%nat ->
  let classes := np_unique (labels_of tr) in
  let n := length classes in
  let trained := fun c d => rate c d (repeated_labels r tr) (predictions_of r tr) in
  n <> 2%nat ->
  (forall x, In x (predictions_of r tr) -> In x classes) ->
  AC_fit (labels_of tr) (predictions_of r tr) = Val cm ->
  length ytest = length ptest -> ytest <> [] -> (forall x, In x ytest -> In x classes) ->
  (forall x, In x ptest -> In x classes) ->
  (forall A, (forall i j, (i < n)%nat -> (j < n)%nat -> A i j = trained (nth j classes 0%Z) (nth i classes 0%Z)) ->
     inv S n A <> None) ->
  (forall M, inverse_of n (fun i j => trained (nth j classes 0%Z) (nth i classes 0%Z)) M ->
     forall j, (j < n)%nat -> sumn n (fun i => Rabs (M i j)) <= kappa) ->
  (forall c, In c ytest -> rsum (map (fun d => Rabs (rate c d ytest ptest - trained c d)) classes) <= e) ->
  exists p, AC_predict S dist classes cm ptest = Val p /\ distribution_over n p /\
    total_error p (prevalences_of classes ytest) <= kappa * e.
Proof.
  intros S dist r tr cm ytest ptest kappa e HO Hr classes n trained Hn Hk Hfit Hlen Hne Hky Hkp Hinv Hkap He.
  pose proof (np_unique_NoDup (labels_of tr)) as Hnd. fold classes in Hnd.
  pose proof (AC_rows r tr cm Hr Hk Hfit) as Hcm. cbv zeta in Hcm. fold classes in Hcm.
  assert (Hpne : ptest <> []) by (intro; subst; destruct ytest; [congruence|discriminate]).
  unfold AC_predict, class_frequencies. destruct ptest as [|x0 t0] eqn:Ep; [congruence|]. rewrite <- Ep in *.
  cbn [obind]. fold n. destruct (Nat.eqb_spec n 2); [congruence|]. rewrite Hcm.
  set (f := fun c j => trained c (nth j classes 0%Z)). set (g := fun c j => rate c (nth j classes 0%Z) ytest ptest).
  change (fun c => map (fun j => rate c (nth j classes 0%Z) (repeated_labels r tr) (predictions_of r tr)) (seq 0 (length classes)))
    with (fun c => map (f c) (seq 0 n)).
  assert (HA : forall i j, (i < n)%nat -> (j < n)%nat ->
     entry (map (fun c => map (f c) (seq 0 n)) classes) j i = trained (nth j classes 0%Z) (nth i classes 0%Z)).
  { intros i j Hi Hj. rewrite (entry_map_map f classes (seq 0 n) j i 0%Z O) by (try rewrite seq_length; auto).
    rewrite seq_nth by auto. reflexivity. }
  destruct (inv S n (fun i j => entry (map (fun c => map (f c) (seq 0 n)) classes) j i)) as [M|] eqn:EI.
  2:{ exfalso. exact (Hinv _ HA EI). }
  apply (adjust_error_multi S dist classes f g ytest _ M kappa e HO Hnd Hne Hky); auto.
  - apply map_length.
  - change (rsum (map (fun c => fraction c ptest) classes) = 1).
    rewrite fractions_sum by auto. rewrite (proj2 (known_all classes ptest)) by auto.
    pose proof (length_pos ptest Hpne). field. lra.
  - intros c Hc. fold n. unfold f.
    pose proof (rsum_map_sumn (trained c) classes 0%Z) as E. fold n in E. unfold trained in *. rewrite <- E. apply rates_sum; auto.
    + apply repeated_labels_length.
    + apply in_repeated_labels; auto. apply np_unique_in. auto.
  - intros j Hj. rewrite (nth_map_R _ _ _ 0%Z) by auto. apply (fraction_mixture classes ytest ptest); auto.
  - apply Hkap. apply (inverse_of_ext n (fun i j => entry (map (fun c => map (f c) (seq 0 n)) classes) j i)); auto.
  - intros c Hc. specialize (He c Hc). rewrite (rsum_map_sumn _ classes 0%Z) in He. exact He.
Qed.

Lemma PAC_binary_error : forall S dist r (tr : list (Z * (nat -> list R))) cm ytest ptest c0 c1 e, (0 < r)%nat ->
  let trained := fun c => rmean (col 1 (select c (repeated_labels r tr) (predictions_of r tr))) in
  np_unique (labels_of tr) = [c0; c1] ->
  PAC_fit (labels_of tr) (predictions_of r tr) = Val cm ->
  length ytest = length ptest -> ytest <> [] -> (forall x, In x ytest -> In x [c0; c1]) ->
  1/1000 < Rabs (trained c1 - trained c0) ->
  (forall c, In c ytest -> Rabs (rmean (col 1 (select c ytest ptest)) - trained c) <= e) ->
  exists p, PAC_predict S dist [c0; c1] cm ptest = Val p /\ length p = 2%nat /\
    forall i, (i < 2)%nat ->
      Rabs (nth i p 0 - nth i (prevalences_of [c0; c1] ytest) 0) <= e / Rabs (trained c1 - trained c0).
Proof.
  intros S dist r tr cm ytest ptest c0 c1 e Hr trained Hcl Hfit Hlen Hne Hky Hinf He.
  pose proof (np_unique_NoDup (labels_of tr)) as Hnd. rewrite Hcl in Hnd.
  rewrite (fit_PAC_means r tr Hr), Hcl in Hfit. inversion Hfit as [Hcm]. clear Hfit.
  assert (Hpne : ptest <> []) by (intro; subst; destruct ytest; [congruence|discriminate]).
  unfold PAC_predict, mean_rows. destruct ptest as [|x0 t0] eqn:Ep; [congruence|]. rewrite <- Ep in *.
  cbn [obind length Nat.eqb]. eexists. split; [reflexivity|]. split.
  { apply binary_adjust_length. apply col_means_length. }
  intros i Hi.
  apply (adjust_error_binary c0 c1 (fun c j => rmean (col j (select c (repeated_labels r tr) (predictions_of r tr))))
           (fun c j => rmean (col j (select c ytest ptest)))); auto.
  change (nth 1 (col_means 2 ptest) 0) with (rmean (col 1 ptest)).
  apply (mean_mixture [c0; c1] ytest ptest); auto.
Qed.

Lemma PAC_multi_error : forall S dist r (tr : list (Z * (nat -> list R))) cm ytest ptest kappa e,
  oracle_inverts S -> (0 < r)%nat ->
  let classes := np_unique (labels_of tr) in
  let n := length classes in
  let trained := fun c j => rmean (col j (select c (repeated_labels r tr) (predictions_of r tr))) in
  n <> 2%nat ->
  distributions n (predictions_of r tr) ->
  PAC_fit (labels_of tr) (predictions_of r tr) = Val cm ->
  length ytest = length ptest -> ytest <> [] -> (forall x, In x ytest -> In x classes) ->
  distributions n ptest ->
  (forall A, (forall i j, (i < n)%nat -> (j < n)%nat -> A i j = trained (nth j classes 0%Z) i) -> inv S n A <> None) ->
  (forall M, inverse_of n (fun i j => trained (nth j classes 0%Z) i) M ->
     forall j, (j < n)%nat -> sumn n (fun i => Rabs (M i j)) <= kappa) ->
  (forall c, In c ytest -> sumn n (fun j => Rabs (rmean (col j (select c ytest ptest)) - trained c j)) <= e) ->
  exists p, PAC_predict S dist classes cm ptest = Val p /\ distribution_over n p /\
    total_error p (prevalences_of classes ytest) <= kappa * e.
Proof.
  intros S dist r tr cm ytest ptest kappa e HO Hr classes n trained Hn Hdt Hfit Hlen Hne Hky Hdp Hinv Hkap He.
  pose proof (np_unique_NoDup (labels_of tr)) as Hnd. fold classes in Hnd.
  rewrite (fit_PAC_means r tr Hr) in Hfit. inversion Hfit as [Hcm]. clear Hfit. fold classes.
  assert (Hpne : ptest <> []) by (intro; subst; destruct ytest; [congruence|discriminate]).
  unfold PAC_predict, mean_rows. destruct ptest as [|x0 t0] eqn:Ep; [congruence|]. rewrite <- Ep in *.
  cbn [obind]. fold n. destruct (Nat.eqb_spec n 2); [congruence|].
  set (g := fun c j => rmean (col j (select c ytest ptest))).
  change (fun c => col_means n (select c (repeated_labels r tr) (predictions_of r tr)))
    with (fun c => map (trained c) (seq 0 n)).
  assert (HA : forall i j, (i < n)%nat -> (j < n)%nat ->
     entry (map (fun c => map (trained c) (seq 0 n)) classes) j i = trained (nth j classes 0%Z) i).
  { intros i j Hi Hj. rewrite (entry_map_map trained classes (seq 0 n) j i 0%Z O) by (try rewrite seq_length; auto).
    rewrite seq_nth by auto. reflexivity. }
  destruct (inv S n (fun i j => entry (map (fun c => map (trained c) (seq 0 n)) classes) j i)) as [M|] eqn:EI.
  2:{ exfalso. exact (Hinv _ HA EI). }
  apply (adjust_error_multi S dist classes trained g ytest _ M kappa e HO Hnd Hne Hky); auto.
  - apply col_means_length.
  - apply (distribution_over_col_means n ptest Hpne Hdp).
  - intros c Hc. fold n.
    assert (Hs : select c (repeated_labels r tr) (predictions_of r tr) <> []).
    { apply select_nonempty; [apply repeated_labels_length|]. apply in_repeated_labels; auto. apply np_unique_in. auto. }
    assert (Hds : distributions n (select c (repeated_labels r tr) (predictions_of r tr))).
    { unfold distributions in *. rewrite Forall_forall in *. intros x Hx. apply Hdt. eapply select_in; eauto. }
    destruct (distribution_over_col_means n _ Hs Hds) as [_ [_ S1]]. unfold col_means in S1. rewrite sumn_seq in S1. exact S1.
  - intros j Hj. fold n in Hj. unfold col_means. rewrite (nth_map_R _ _ _ O) by (rewrite seq_length; auto).
    rewrite seq_nth by auto. apply (mean_mixture classes ytest ptest); auto.
  - apply Hkap. apply (inverse_of_ext n (fun i j => entry (map (fun c => map (trained c) (seq 0 n)) classes) j i)); auto.
Qed.

(** ** CC and PCC *)

Lemma count_balance : forall d y p, length y = length p ->
  (zcount d p + false_negatives d y p = zcount d y + false_positives d y p)%nat.
Proof.
  intros d. induction y as [|a y IH]; intros [|b p] H; simpl in H; try lia; [reflexivity|].
  specialize (IH p ltac:(lia)). unfold false_negatives, false_positives in *. rewrite !zcount_cons. cbn [combine filter fst snd].
  destruct (Z.eq_dec b d) as [->|Hb], (Z.eq_dec a d) as [->|Ha];
    rewrite ?Z.eqb_refl; try (rewrite (proj2 (Z.eqb_neq a d)) by auto); try (rewrite (proj2 (Z.eqb_neq b d)) by auto);
    cbn [negb andb length]; lia.
Qed.

Lemma INR_sub_balance : forall a b c d, (a + b = c + d)%nat -> INR a - INR c = INR d - INR b.
Proof. intros a b c d H. apply (f_equal INR) in H. rewrite !plus_INR in H. lra. Qed.

Lemma errors_le_mistakes : forall classes y p, NoDup classes ->
  rsum (map (fun d => INR (false_positives d y p)) classes) <= INR (mistakes y p) /\
  rsum (map (fun d => INR (false_negatives d y p)) classes) <= INR (mistakes y p).
Proof.
  intros classes y p Hnd. unfold false_positives, false_negatives, mistakes.
  induction (combine y p) as [|[a b] l [IH1 IH2]]; cbn [filter fst snd].
  - simpl. rewrite rsum_map_const. lra.
  - pose proof (sum_indicator a classes Hnd) as Ia. pose proof (sum_indicator b classes Hnd) as Ib.
    assert (Za : 0 <= (if in_dec Z.eq_dec a classes then 1 else 0) <= 1) by (destruct (in_dec Z.eq_dec a classes); lra).
    assert (Zb : 0 <= (if in_dec Z.eq_dec b classes then 1 else 0) <= 1) by (destruct (in_dec Z.eq_dec b classes); lra).
    destruct (Z.eq_dec a b) as [->|Hab].
    + rewrite Z.eqb_refl. cbn [negb]. split.
      * eapply Rle_trans; [|exact IH1]. right. apply rsum_map_ext. intros d _.
        destruct (Z.eqb_spec b d); cbn [negb andb]; auto.
      * eapply Rle_trans; [|exact IH2]. right. apply rsum_map_ext. intros d _.
        destruct (Z.eqb_spec b d); cbn [negb andb]; auto.
    + rewrite (proj2 (Z.eqb_neq a b) Hab). cbn [negb length]. rewrite S_INR. split.
      * apply Rle_trans with (rsum (map (fun d => (if Z.eq_dec b d then 1 else 0) +
           INR (length (filter (fun e => negb (Z.eqb (fst e) d) && Z.eqb (snd e) d) l))) classes)).
        -- apply rsum_map_le. intros d _. destruct (Z.eq_dec b d); destruct (Z.eqb_spec b d); try congruence;
             destruct (Z.eqb_spec a d); try congruence; cbn [negb andb length]; rewrite ?S_INR; lra.
        -- rewrite rsum_map_plus, Ib. lra.
      * apply Rle_trans with (rsum (map (fun d => (if Z.eq_dec a d then 1 else 0) +
           INR (length (filter (fun e => Z.eqb (fst e) d && negb (Z.eqb (snd e) d)) l))) classes)).
        -- apply rsum_map_le. intros d _. destruct (Z.eq_dec a d); destruct (Z.eqb_spec a d); try congruence;
             destruct (Z.eqb_spec b d); cbn [negb andb length]; rewrite ?S_INR; lra.
        -- rewrite rsum_map_plus, Ia. lra.
Qed.

Lemma CC_error : forall classes ytest ptest, NoDup classes -> ytest <> [] -> length ytest = length ptest ->
  exists p, CC_predict classes ptest = Val p /\ length p = length classes /\
    (forall i, (i < length classes)%nat -> let d := nth i classes 0%Z in
       nth i p 0 - fraction d ytest =
         (INR (false_positives d ytest ptest) - INR (false_negatives d ytest ptest)) / INR (length ytest)) /\
    total_error p (prevalences_of classes ytest) <= 2 * (INR (mistakes ytest ptest) / INR (length ytest)).
Proof.
  intros classes ytest ptest Hnd Hne Hlen.
  assert (Hpne : ptest <> []) by (intro; subst; destruct ytest; [congruence|discriminate]).
  destruct (CC_frequencies classes ptest Hnd Hpne) as [p [E [L [V _]]]]. exists p. split; auto. split; auto.
  pose proof (length_pos ytest Hne) as HN.
  assert (D : forall i, (i < length classes)%nat -> let d := nth i classes 0%Z in
       nth i p 0 - fraction d ytest =
         (INR (false_positives d ytest ptest) - INR (false_negatives d ytest ptest)) / INR (length ytest)).
  { intros i Hi d. rewrite V by auto. fold d. unfold fraction. rewrite <- Hlen.
    rewrite <- (INR_sub_balance _ _ _ _ (count_balance d ytest ptest Hlen)). field. lra. }
  split; auto. unfold total_error, prevalences_of. rewrite map_length.
  apply Rle_trans with (sumn (length classes) (fun i => (INR (false_positives (nth i classes 0%Z) ytest ptest) +
      INR (false_negatives (nth i classes 0%Z) ytest ptest)) / INR (length ytest))).
  - apply sumn_le. intros i Hi. rewrite (nth_map_R _ _ _ 0%Z) by auto. specialize (D i Hi). cbv zeta in D. rewrite D.
    unfold Rdiv. rewrite Rabs_mult, (Rabs_pos_eq (/ _)) by (left; apply Rinv_0_lt_compat; auto).
    apply Rmult_le_compat_r; [left; apply Rinv_0_lt_compat; auto|].
    pose proof (pos_INR (false_positives (nth i classes 0%Z) ytest ptest)).
    pose proof (pos_INR (false_negatives (nth i classes 0%Z) ytest ptest)). apply Rabs_le. lra.
  - rewrite sumn_div, sumn_plus.
    destruct (errors_le_mistakes classes ytest ptest Hnd) as [A B].
    rewrite (rsum_map_sumn _ classes 0%Z) in A. rewrite (rsum_map_sumn _ classes 0%Z) in B.
    unfold Rdiv. rewrite <- Rmult_assoc. apply Rmult_le_compat_r; [left; apply Rinv_0_lt_compat; auto|]. lra.
Qed.

Lemma map_fst_combine : forall {A B} (a : list A) (b : list B), length a = length b -> map fst (combine a b) = a.
Proof. induction a; intros [|] H; simpl in *; try lia; auto. f_equal. apply IHa. lia. Qed.
Lemma map_snd_combine : forall {A B} (a : list A) (b : list B), length a = length b -> map snd (combine a b) = b.
Proof. induction a; intros [|] H; simpl in *; try lia; auto. f_equal. apply IHa. lia. Qed.

Lemma indicator_mean : forall classes y i, (i < length classes)%nat ->
  fraction (nth i classes 0%Z) y = rsum (map (fun c => nth i (indicator classes c) 0) y) / INR (length y).
Proof.
  intros classes y i Hi. unfold fraction. rewrite zcount_as_sum. f_equal. apply rsum_map_ext. intros c _.
  unfold indicator. rewrite (nth_map_R _ _ _ 0%Z) by auto.
  destruct (Z.eq_dec c (nth i classes 0%Z)), (Z.eqb_spec c (nth i classes 0%Z)); congruence.
Qed.

Lemma PCC_error : forall classes ytest (ptest : list (list R)), ytest <> [] -> length ytest = length ptest ->
  distributions (length classes) ptest ->
  exists p, PCC_predict (length classes) ptest = Val p /\ distribution_over (length classes) p /\
    total_error p (prevalences_of classes ytest) <=
      rmean (map (fun e => total_error (snd e) (indicator classes (fst e))) (combine ytest ptest)).
Proof.
  intros classes ytest ptest Hne Hlen Hd.
  assert (Hpne : ptest <> []) by (intro; subst; destruct ytest; [congruence|discriminate]).
  destruct (PCC_valid _ ptest Hpne Hd) as [p [E [D V]]]. exists p. split; auto. split; auto.
  pose proof (length_pos ytest Hne) as HN. unfold total_error at 1, prevalences_of. rewrite map_length.
  unfold rmean. rewrite map_length, combine_length, <- Hlen, Nat.min_id.
  apply Rle_trans with (sumn (length classes) (fun i =>
      rsum (map (fun e => Rabs (nth i (snd e) 0 - nth i (indicator classes (fst e)) 0)) (combine ytest ptest)) / INR (length ytest))).
  - apply sumn_le. intros i Hi. rewrite (nth_map_R _ _ _ 0%Z), V, indicator_mean by auto. rewrite <- Hlen.
    assert (A : rsum (map (fun r => nth i r 0) ptest) = rsum (map (fun e => nth i (snd e) 0) (combine ytest ptest))).
    { rewrite <- (map_map (@snd Z (list R)) (fun r => nth i r 0)), map_snd_combine by auto. auto. }
    assert (B : rsum (map (fun c => nth i (indicator classes c) 0) ytest) =
                rsum (map (fun e => nth i (indicator classes (fst e)) 0) (combine ytest ptest))).
    { rewrite <- (map_map (@fst Z (list R)) (fun c => nth i (indicator classes c) 0)), map_fst_combine by auto. auto. }
    rewrite A, B. unfold Rdiv. rewrite <- Rmult_minus_distr_r, <- rsum_map_minus, Rabs_mult.
    rewrite (Rabs_pos_eq (/ _)) by (left; apply Rinv_0_lt_compat; auto).
    apply Rmult_le_compat_r; [left; apply Rinv_0_lt_compat; auto|]. apply rsum_Rabs_le.
  - rewrite sumn_div. right. f_equal. unfold total_error.
    assert (W : forall l : list (Z * list R), sumn (length classes) (fun i => rsum (map (fun e => Rabs (nth i (snd e) 0 - nth i (indicator classes (fst e)) 0)) l)) =
       rsum (map (fun e => sumn (length (indicator classes (fst e))) (fun i => Rabs (nth i (snd e) 0 - nth i (indicator classes (fst e)) 0))) l)).
    { clear. induction l as [|e l IH]; simpl; [apply sumn_0; auto|]. rewrite sumn_plus, IH.
      assert (LI : length (indicator classes (fst e)) = length classes) by apply map_length. rewrite LI. auto. }
    apply W.
Qed.
