(** * Errors of the ordinal and one-vs-rest combinations; monotonicity and stability of the binary correction. *)

From Coq Require Import Reals List ZArith Lia Lra Permutation Bool.
From Verif Require Import Num Spec M_Baselines L_Num L_Baselines M_Metrics L_Metrics L_Metrics2
  M_Ordinal Spec_Ordinal L_Ordinal L_Ordinal2 L_Ordinal3 L_Ordinal4 Spec_Error L_Error.
Import ListNotations.
Open Scope R_scope.

(** ** Frank and Hall *)

Lemma cumulated_mono : forall p i k, Forall (fun x => 0 <= x) p -> (k <= i)%nat -> cumulated p k <= cumulated p i.
Proof.
  unfold cumulated. induction p as [|x p IH]; intros i k F H; [rewrite !firstn_nil; lra|].
  pose proof (Forall_inv F) as Hx. pose proof (Forall_inv_tail F) as Ft. cbv beta in Hx. rewrite !firstn_cons. simpl rsum.
  destruct k as [|k].
  - simpl. assert (0 <= rsum (firstn i p)); [|lra]. apply rsum_nonneg. rewrite Forall_forall in *. intros y Hy. apply Ft.
    rewrite <- (firstn_skipn i p). apply in_or_app; auto.
  - destruct i as [|i]; [lia|]. pose proof (IH i k Ft ltac:(lia)). lra.
Qed.

Lemma in_firstn_nth : forall (l : list R) k x, In x (firstn k l) -> exists j, (j < k)%nat /\ (j < length l)%nat /\ nth j l 0 = x.
Proof.
  intros l k x H. destruct (In_nth _ _ 0 H) as [j [Hj E]]. rewrite firstn_length in Hj. exists j.
  split; [lia|]. split; [lia|]. rewrite <- E. rewrite <- (firstn_skipn k l) at 1. rewrite app_nth1; auto.
  rewrite firstn_length. lia.
Qed.

Lemma in_skipn_nth : forall (l : list R) k x, In x (skipn k l) -> exists j, (k <= j)%nat /\ (j < length l)%nat /\ nth j l 0 = x.
Proof.
  intros l k x H. destruct (In_nth _ _ 0 H) as [j [Hj E]]. rewrite skipn_length in Hj. exists (k + j)%nat.
  split; [lia|]. split; [lia|]. rewrite <- E. rewrite <- (firstn_skipn k l) at 1.
  rewrite app_nth2 by (rewrite firstn_length; lia). rewrite firstn_length. f_equal. lia.
Qed.

Lemma nth_in_firstn : forall (l : list R) k j, (j < k)%nat -> (j < length l)%nat -> In (nth j l 0) (firstn k l).
Proof.
  intros l k j H1 H2. rewrite <- (firstn_skipn k l) at 1. rewrite app_nth1 by (rewrite firstn_length; lia).
  apply nth_In. rewrite firstn_length. lia.
Qed.
Lemma nth_in_skipn : forall (l : list R) k j, (k <= j)%nat -> (j < length l)%nat -> In (nth j l 0) (skipn k l).
Proof.
  intros l k j H1 H2. rewrite <- (firstn_skipn k l) at 1. rewrite app_nth2 by (rewrite firstn_length; lia).
  apply nth_In. rewrite firstn_length, skipn_length. lia.
Qed.

Lemma halfway_error : forall left t i v e, Forall (fun x => 0 <= x) t -> (i < length left)%nat ->
  (forall k, (k < length left)%nat -> Rabs (nth k left 0 - cumulated t k) <= e) ->
  halfway left i v -> Rabs (v - cumulated t i) <= e.
Proof.
  intros left t i v e Ht Hi He (M & m & [HM1 HM2] & [Hm1 Hm2] & ->).
  assert (B : forall k, (k < length left)%nat -> cumulated t k - e <= nth k left 0 <= cumulated t k + e).
  { intros k Hk. pose proof (He k Hk) as H. unfold Rabs in H. destruct (Rcase_abs _) in H; lra. }
  pose proof (B i Hi) as Bi.
  destruct (in_firstn_nth _ _ _ HM1) as (k & Hk & Hkl & <-). destruct (in_skipn_nth _ _ _ Hm1) as (k' & Hk' & Hkl' & <-).
  rewrite Forall_forall in HM2, Hm2. pose proof (HM2 _ (nth_in_firstn left (S i) i ltac:(lia) Hi)) as U.
  pose proof (Hm2 _ (nth_in_skipn left i i ltac:(lia) Hi)) as V.
  pose proof (B k Hkl). pose proof (B k' Hkl').
  pose proof (cumulated_mono t i k Ht ltac:(lia)). pose proof (cumulated_mono t k' i Ht ltac:(lia)).
  apply Rabs_le. lra.
Qed.

Lemma cumulated_cum : forall p k, (k < length p)%nat -> cumulated p k = cum p k.
Proof.
  intros p k Hk. unfold cumulated, cum. rewrite <- (sumn_list (S k) (firstn (S k) p)) by (rewrite firstn_length; lia).
  apply sumn_ext. intros i Hi. rewrite <- (firstn_skipn (S k) p) at 2. rewrite app_nth1; auto. rewrite firstn_length. lia.
Qed.

Lemma FHQ_error : forall (E X S : Type) (q : quantifier E X S) x pt (st : list S) left truth e,
  st <> [] -> length left = length st -> unit_interval left -> distribution_over (Datatypes.S (length st)) truth ->
  (forall i s, nth_error st i = Some s -> exists neg rest,
     q_predict q s x (option_map (map (fun r => [1 - nth i r 0; nth i r 0])) pt) = Val (neg :: nth i left 0 :: rest)) ->
  (forall i, (i < length st)%nat -> Rabs (nth i left 0 - cumulated truth i) <= e) ->
  exists p, FHQ_predict q st x pt = Val p /\ distribution_over (Datatypes.S (length st)) p /\
    (forall i, (i < length st)%nat -> Rabs (cumulated p i - cumulated truth i) <= e) /\
    exists d, emd (vec truth) (vec p) = Val d /\ d <= INR (length st) * e.
Proof.
  intros E X S q x pt st left truth e Hne L U Dt H He.
  destruct (FHQ_predict_spec E X S q x pt st left Hne L U H) as [p [EP [Dp HW]]].
  exists p. split; auto. split; auto. destruct Dt as [Lt [Ft St]]. destruct Dp as [Lp [Fp Sp]].
  assert (C : forall i, (i < length st)%nat -> Rabs (cumulated p i - cumulated truth i) <= e).
  { intros i Hi. apply (halfway_error left truth i _ e); auto; try lia. intros k Hk. apply He. lia. apply HW; auto. }
  split; auto. exists (emd_value (Datatypes.S (length st)) truth p). split; [apply emd_value_emd; auto; lia|].
  unfold emd_value. cbn [sumn]. rewrite <- !cumulated_cum by lia.
  assert (Z : cumulated truth (length st) - cumulated p (length st) = 0).
  { unfold cumulated. rewrite !firstn_all2 by lia. lra. }
  rewrite Z, Rabs_R0, Rplus_0_r. rewrite <- (sumn_const (length st) e). apply sumn_le. intros i Hi.
  rewrite <- !cumulated_cum by lia. rewrite Rabs_minus_sym. auto.
Qed.

(** ** One versus rest *)

Lemma normalise_error : forall n l t, length l = n -> Forall (fun v => 0 <= v) l -> 0 < rsum l -> distribution_over n t ->
  total_error (vdiv l (rsum l)) t <= 2 * total_error l t.
Proof.
  intros n l t Hl Fl Sl [Lt [Ft St]]. unfold total_error. rewrite Lt.
  assert (SL : sumn n (fun i => nth i l 0) = rsum l) by (apply sumn_list; auto).
  assert (ST : sumn n (fun i => nth i t 0) = 1) by (rewrite sumn_list; auto).
  apply Rle_trans with (sumn n (fun i => nth i l 0 / rsum l * Rabs (1 - rsum l) + Rabs (nth i l 0 - nth i t 0))).
  - apply sumn_le. intros i Hi. unfold vdiv. rewrite (nth_map_R _ _ _ 0) by lia.
    assert (0 <= nth i l 0) by (rewrite Forall_forall in Fl; apply Fl, nth_In; lia).
    replace (nth i l 0 / rsum l - nth i t 0) with (nth i l 0 / rsum l * (1 - rsum l) + (nth i l 0 - nth i t 0)) by (field; lra).
    eapply Rle_trans; [apply Rabs_triang|]. rewrite Rabs_mult, (Rabs_pos_eq (nth i l 0 / rsum l)); [lra|].
    unfold Rdiv. apply Rmult_le_pos; auto. left; apply Rinv_0_lt_compat; auto.
  - rewrite sumn_plus, (sumn_scal_r n (Rabs (1 - rsum l)) (fun i => nth i l 0 / rsum l)).
    rewrite sumn_div, SL.
    assert (A : Rabs (1 - rsum l) <= sumn n (fun i => Rabs (nth i l 0 - nth i t 0))).
    { rewrite <- SL, <- ST, <- sumn_minus. eapply Rle_trans; [apply sumn_Rabs_le|]. right. apply sumn_ext. intros. apply Rabs_minus_sym. }
    assert (D : rsum l / rsum l = 1) by (field; lra). rewrite D. lra.
Qed.

Lemma OVR_error : forall (E X S : Type) (q : quantifier E X S) x pt (st : list S) left truth,
  length left = length st -> Forall (fun v => 0 <= v) left -> Exists (fun v => v <> 0) left ->
  distribution_over (length st) truth ->
  (forall i s, nth_error st i = Some s -> exists neg rest,
     q_predict q s x (option_map (map (fun r => [1 - nth i r 0; nth i r 0])) pt) = Val (neg :: nth i left 0 :: rest)) ->
  exists p, OVR_predict q st x pt = Val p /\ distribution_over (length st) p /\
    total_error p truth <= 2 * total_error left truth.
Proof.
  intros E X S q x pt st left truth L F N D H.
  destruct (proj1 (OVR_predict_full E X S q x pt st left L F H) N) as [p [EP [Dp [Sl V]]]].
  exists p. split; auto. split; auto.
  assert (p = vdiv left (rsum left)).
  { apply list_eq_nth; [unfold vdiv; rewrite map_length; destruct Dp; lia|]. intros i Hi. destruct Dp as [Lp _].
    rewrite V by lia. unfold vdiv. rewrite (nth_map_R _ _ _ 0) by lia. auto. }
  subst p. apply (normalise_error (length st)); auto.
Qed.

(** ** Monotonicity and stability of the binary correction *)

Lemma clip01_mono : forall a b, a <= b -> clip01 a <= clip01 b.
Proof.
  intros a b H. destruct (Rle_dec a 0); [rewrite (clip01_low a) by lra; pose proof (clip01_range b); lra|].
  destruct (Rle_dec 1 b); [rewrite (clip01_high b) by lra; pose proof (clip01_range a); lra|].
  rewrite !clip01_id by lra. auto.
Qed.

Lemma binary_adjust_plain : forall cm x, ~ informative cm -> 0 <= x <= 1 -> nth 1 (binary_adjust cm [1 - x; x]) 0 = x.
Proof.
  intros cm x Hn Hx. rewrite binary_adjust_uninformative by auto. cbv zeta. simpl map.
  rewrite !clip01_id by lra. simpl rsum. destruct (Rlt_dec 0 (1 - x + (x + 0))); simpl; [field; lra|lra].
Qed.

Lemma binary_adjust_monotone : forall cm x z, 0 <= x <= 1 -> 0 <= z <= 1 -> x <= z ->
  (~ reversed cm -> nth 1 (binary_adjust cm [1 - x; x]) 0 <= nth 1 (binary_adjust cm [1 - z; z]) 0) /\
  (reversed cm -> nth 1 (binary_adjust cm [1 - z; z]) 0 <= nth 1 (binary_adjust cm [1 - x; x]) 0).
Proof.
  intros cm x z Hx Hz H. destruct (informative_dec cm) as [(r0 & r1 & t & -> & Hi)|Hn].
  - rewrite !binary_adjust_informative by auto. cbn [map nth]. split; intros HR.
    + assert (0 < nth 1 r1 0 - nth 1 r0 0).
      { destruct (Rlt_dec (nth 1 r1 0 - nth 1 r0 0) 0) as [Hl|Hl].
        - exfalso. apply HR. exists r0, r1, t. split; auto. rewrite Rabs_left in Hi by auto. lra.
        - rewrite Rabs_pos_eq in Hi by lra. lra. }
      apply clip01_mono. apply Rmult_le_compat_r; [left; apply Rinv_0_lt_compat; auto|lra].
    + destruct HR as (a & b & s & E & HR). inversion E; subst. apply clip01_mono. unfold Rdiv.
      rewrite !(Rmult_comm _ (/ _)). apply Rmult_le_compat_neg_l; [|lra]. left. apply Rinv_lt_0_compat. lra.
  - rewrite !binary_adjust_plain by auto. split; [lra|]. intros (a & b & s & -> & HR). exfalso. apply Hn.
    exists a, b, s. split; auto. rewrite Rabs_left by lra. lra.
Qed.

Lemma binary_adjust_stable : forall cm x z, 0 <= x <= 1 -> 0 <= z <= 1 ->
  Rabs (nth 1 (binary_adjust cm [1 - x; x]) 0 - nth 1 (binary_adjust cm [1 - z; z]) 0) <= 1000 * Rabs (x - z).
Proof.
  intros cm x z Hx Hz. destruct (informative_dec cm) as [(r0 & r1 & t & -> & Hi)|Hn].
  - rewrite !binary_adjust_informative by auto. cbn [map nth].
    set (g := nth 1 r1 0 - nth 1 r0 0) in *. set (f := nth 1 r0 0).
    apply Rle_trans with (Rabs ((x - f) / g - (z - f) / g)).
    { assert (W : forall a b, Rabs (clip01 a - clip01 b) <= Rabs (a - b)).
      { intros a b. destruct (Rle_dec a 0).
        - rewrite (clip01_low a) by lra. destruct (Rle_dec b 0); [rewrite (clip01_low b), Rminus_0_r, Rabs_R0 by lra; apply Rabs_pos|].
          pose proof (clip01_range b). destruct (Rle_dec 1 b).
          + rewrite clip01_high by lra. rewrite !Rabs_left1 by lra. lra.
          + rewrite clip01_id by lra. rewrite !Rabs_left1 by lra. lra.
        - destruct (Rle_dec 1 a).
          + rewrite (clip01_high a) by lra. destruct (Rle_dec 1 b); [rewrite (clip01_high b), Rminus_diag_eq, Rabs_R0 by lra; apply Rabs_pos|].
            destruct (Rle_dec b 0).
            * rewrite clip01_low by lra. rewrite !Rabs_pos_eq by lra. lra.
            * rewrite clip01_id by lra. rewrite !Rabs_pos_eq by lra. lra.
          + rewrite (clip01_id a) by lra. rewrite Rabs_minus_sym, (Rabs_minus_sym a). apply clip01_closer. lra. }
      apply W. }
    assert (g <> 0) by (intro E; rewrite E, Rabs_R0 in Hi; lra).
    replace ((x - f) / g - (z - f) / g) with ((x - z) * / g) by (field; auto).
    rewrite Rabs_mult, Rabs_inv, Rmult_comm. apply Rmult_le_compat_r; [apply Rabs_pos|].
    replace 1000 with (/ (1/1000)) by field. left. apply Rinv_lt_contravar; auto. nra.
  - rewrite !binary_adjust_plain by auto. pose proof (Rabs_pos (x - z)). lra.
Qed.

(** Frequencies of two known classes, means of two complementary columns. *)
Lemma two_fractions : forall c0 c1 l, c0 <> c1 -> l <> [] -> (forall x, In x l -> In x [c0; c1]) ->
  map (fun c => fraction c l) [c0; c1] = [1 - fraction c1 l; fraction c1 l].
Proof.
  intros c0 c1 l Hc Hne Hk.
  assert (Hnd : NoDup [c0; c1]) by (repeat constructor; simpl; intuition congruence).
  pose proof (fractions_sum [c0; c1] l Hnd) as H. rewrite (proj2 (known_all [c0; c1] l)) in H by auto.
  pose proof (length_pos l Hne) as HN.
  assert (H1 : INR (length l) / INR (length l) = 1) by (field; lra). rewrite H1 in H. simpl in H. simpl map. f_equal. lra.
Qed.

Lemma two_means : forall m, m <> [] -> distributions 2 m -> col_means 2 m = [1 - rmean (col 1 m); rmean (col 1 m)] /\
  0 <= rmean (col 1 m) <= 1.
Proof.
  intros m Hne Hd. destruct (distribution_over_col_means 2 m Hne Hd) as [_ [F S1]]. unfold col_means in *. simpl in *.
  pose proof (Forall_inv F) as A. pose proof (Forall_inv (Forall_inv_tail F)) as B. cbv beta in A, B.
  split; [f_equal; lra|lra].
Qed.

Lemma class_frequencies_two : forall c0 c1 l, c0 <> c1 -> l <> [] -> (forall x, In x l -> In x [c0; c1]) ->
  class_frequencies [c0; c1] l = Val [1 - fraction c1 l; fraction c1 l].
Proof.
  intros c0 c1 l Hc Hne Hk. rewrite <- (two_fractions c0 c1 l) by auto. unfold class_frequencies, fraction.
  destruct l; [congruence|]. auto.
Qed.

Lemma counts_respond : forall S dist c0 c1 cm a b, c0 <> c1 -> a <> [] -> b <> [] ->
  (forall x, In x a -> In x [c0; c1]) -> (forall x, In x b -> In x [c0; c1]) ->
  exists pa pb, AC_predict S dist [c0; c1] cm a = Val pa /\ AC_predict S dist [c0; c1] cm b = Val pb /\
    PWKQ_predict S [c0; c1] cm a = Val pa /\ PWKQ_predict S [c0; c1] cm b = Val pb /\
    (fraction c1 a <= fraction c1 b ->
       (~ reversed cm -> nth 1 pa 0 <= nth 1 pb 0) /\ (reversed cm -> nth 1 pb 0 <= nth 1 pa 0)) /\
    Rabs (nth 1 pa 0 - nth 1 pb 0) <= 1000 * Rabs (fraction c1 a - fraction c1 b).
Proof.
  intros S dist c0 c1 cm a b Hc Ha Hb Ka Kb. unfold AC_predict, PWKQ_predict.
  rewrite !class_frequencies_two by auto. cbn [obind length Nat.eqb].
  exists (binary_adjust cm [1 - fraction c1 a; fraction c1 a]), (binary_adjust cm [1 - fraction c1 b; fraction c1 b]).
  repeat (split; [reflexivity|]). pose proof (fraction_range c1 a Ha). pose proof (fraction_range c1 b Hb). split.
  - intros Hle. apply binary_adjust_monotone; auto.
  - apply binary_adjust_stable; auto.
Qed.

Lemma PAC_responds : forall S dist c0 c1 cm a b, a <> [] -> b <> [] -> distributions 2 a -> distributions 2 b ->
  exists pa pb, PAC_predict S dist [c0; c1] cm a = Val pa /\ PAC_predict S dist [c0; c1] cm b = Val pb /\
    (rmean (col 1 a) <= rmean (col 1 b) ->
       (~ reversed cm -> nth 1 pa 0 <= nth 1 pb 0) /\ (reversed cm -> nth 1 pb 0 <= nth 1 pa 0)) /\
    Rabs (nth 1 pa 0 - nth 1 pb 0) <= 1000 * Rabs (rmean (col 1 a) - rmean (col 1 b)).
Proof.
  intros S dist c0 c1 cm a b Ha Hb Da Db. unfold PAC_predict, mean_rows.
  destruct (two_means a Ha Da) as [Ea Ra]. destruct (two_means b Hb Db) as [Eb Rb].
  destruct a as [|a0 at_] eqn:EA; [congruence|]. rewrite <- EA in *. destruct b as [|b0 bt] eqn:EB; [congruence|]. rewrite <- EB in *.
  cbn [obind length Nat.eqb]. rewrite Ea, Eb.
  exists (binary_adjust cm [1 - rmean (col 1 a); rmean (col 1 a)]), (binary_adjust cm [1 - rmean (col 1 b); rmean (col 1 b)]).
  repeat (split; [reflexivity|]). split.
  - intros Hle. apply binary_adjust_monotone; auto.
  - apply binary_adjust_stable; auto.
Qed.
