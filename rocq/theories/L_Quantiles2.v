(** * compute_quantiles: the results a user sees. *)

From Coq Require Import Reals List ZArith Lia Lra Psatz Bool.
From Verif Require Import Num Spec M_Search Spec_Search L_Num L_Baselines L_Quantiles.
Import ListNotations.
Open Scope R_scope.

Lemma combine_fst : forall {A B} (a : list A) (b : list B), length a = length b -> map fst (combine a b) = a.
Proof. induction a; intros [|y b] H; simpl in *; try discriminate; auto. f_equal. auto. Qed.

Lemma combine_snd : forall {A B} (a : list A) (b : list B), length a = length b -> map snd (combine a b) = b.
Proof. induction a; intros [|y b] H; simpl in *; try discriminate; auto. f_equal. auto. Qed.

Lemma begins_all : forall w, begins w (length w) = rsum w.
Proof. intros. unfold begins. apply sumn_nth. Qed.

Lemma begins_S : forall w i, begins w (S i) = begins w i + nth i w 0.
Proof. intros. unfold begins. reflexivity. Qed.

Lemma begins_mono : forall w, Forall (fun x => 0 <= x) w -> forall i j, (i <= j)%nat -> begins w i <= begins w j.
Proof.
  intros w F i j H. induction H; [lra|]. rewrite begins_S.
  assert (0 <= nth m w 0); [|lra]. destruct (lt_dec m (length w)).
  - rewrite Forall_forall in F. apply F, nth_In; auto.
  - rewrite nth_overflow by lia. lra.
Qed.

Lemma repeat_nth_R : forall x n i, (i < n)%nat -> nth i (repeat x n) 0 = x.
Proof. induction n; intros [|i] H; simpl; auto; try lia. apply IHn. lia. Qed.

Lemma nth_repeat0 : forall n i, nth i (repeat 0 n) 0 = 0.
Proof. induction n; intros [|i]; simpl; auto. Qed.

Section Quantiles.
  Context (q : nat) (scores weights : list R).
  Context (Hq : (0 < q)%nat) (Hs : scores <> []) (Hw : length weights = length scores).
  Context (Pw : Forall (fun w => 0 <= w) weights) (Sw : rsum weights = INR (length scores)).
  Let N := length scores.

  Lemma N_pos : (0 < N)%nat.
  Proof. unfold N. destruct scores; [congruence|simpl; lia]. Qed.

  Lemma quantiles_length : length (quantiles_of q scores weights) = q.
  Proof.
    unfold quantiles_of. fold N.
    assert (forall pws Q c j, length Q = q -> let '(Q', _, _) := fold_left (quantile_step q N) pws (Q, c, j) in length Q' = q).
    { assert (SP : forall fuel p r j Q, length (fst (spread fuel q N p r j Q)) = length Q).
      { induction fuel; intros; simpl; auto. destruct (Rlt_dec (1/10000) r); auto. destruct (Nat.ltb j (q - 1)); auto.
        rewrite IHfuel. apply add_nth_length. }
      induction pws as [|[p w] pws IH]; intros Q c j L; simpl; auto.
      destruct (Rle_dec (c + w) (cutpoint q N j)).
      - apply IH. rewrite add_nth_length. auto.
      - pose proof (SP q p (c + w - cutpoint q N j) j (add_nth j (p * (w - (c + w - cutpoint q N j))) Q)) as E.
        destruct (spread q q N p _ j _) as [Q1 j1]. apply IH. rewrite add_nth_length in E. simpl in E. lia. }
    specialize (H (combine scores weights) (repeat 0 q) 0 O (repeat_length _ _)).
    destruct (fold_left _ _ _) as [[Q c] j]. rewrite vdiv_length. auto.
  Qed.

  Lemma quantile_mean_bounds : Forall (fun p => 0 <= p) scores ->
    let mix := rsum (map (fun pw => fst pw * snd pw) (combine scores weights)) / INR N in
    mix - 1/10000 * rmean scores <= rmean (quantiles_of q scores weights) <= mix.
  Proof.
    intros F mix. pose proof N_pos as HN. unfold rmean. rewrite quantiles_length. unfold quantiles_of. fold N.
    pose proof (fold_sum q N Hq HN (combine scores weights) (repeat 0 q) 0 O (repeat_length _ _) Hq) as H.
    rewrite combine_fst, combine_snd in H by auto.
    assert (F2 : Forall (fun pw : R * R => 0 <= fst pw /\ 0 <= snd pw) (combine scores weights)).
    { apply Forall_forall. intros [a b] I. rewrite Forall_forall in F, Pw. split; simpl;
        [apply F; eapply in_combine_l; eauto|apply Pw; eapply in_combine_r; eauto]. }
    specialize (H F2 ltac:(rewrite Sw; unfold N; lra)). destruct (fold_left _ _ _) as [[Q c] j]. destruct H as [_ H].
    rewrite rsum_repeat in H. rewrite vdiv_sum. rewrite cut_0.
    assert (P1 : 0 < INR N) by (apply lt_0_INR; auto). assert (P2 : 0 < INR q) by (apply lt_0_INR; auto).
    replace (rsum Q / (1 / INR q * INR N) / INR q) with (rsum Q / INR N) by (field; lra). unfold mix.
    assert (I : 0 < / INR N) by (apply Rinv_0_lt_compat; auto). fold N. unfold Rdiv in *. split.
    - replace (rsum (map (fun pw : R * R => fst pw * snd pw) (combine scores weights)) * / INR N - 1 * / 10000 * (rsum scores * / INR N))
        with ((rsum (map (fun pw : R * R => fst pw * snd pw) (combine scores weights)) - 1 * / 10000 * rsum scores) * / INR N) by ring.
      apply Rmult_le_compat_r; lra.
    - apply Rmult_le_compat_r; lra.
  Qed.

  Context (C : clean_cuts q weights (INR N)).
  Let low (t : nat) : R := INR t / INR q * INR N.

  Lemma quantiles_exact : forall t, (t < q)%nat ->
    nth t (quantiles_of q scores weights) 0 = mean_between scores weights (low t) (low (S t)).
  Proof.
    intros t Ht. pose proof N_pos as HN. unfold quantiles_of. fold N.
    pose proof (fold_exact q N Hq HN (combine scores weights) (repeat 0 q) 0 O (repeat_length _ _) Hq) as H.
    rewrite combine_fst, combine_snd in H by auto.
    assert (F2 : Forall (fun pw : R * R => 0 <= snd pw) (combine scores weights)).
    { apply Forall_forall. intros [a b] I. rewrite Forall_forall in Pw. apply Pw. eapply in_combine_r; eauto. }
    pose proof (width_pos q N Hq HN) as W.
    specialize (H F2). rewrite cut_0 in H. specialize (H ltac:(split; [unfold Rdiv; simpl; lra|lra]) ltac:(rewrite Sw; unfold N; lra)).
    assert (C' : forall k t, (k <= length (combine scores weights))%nat -> (t < q)%nat ->
       0 + begins weights k <= cutpoint q N t \/ cutpoint q N t + 1/10000 < 0 + begins weights k).
    { intros k u Hk Hu. rewrite combine_length, Hw, Nat.min_id in Hk. rewrite Rplus_0_l. apply C; auto. lia. }
    specialize (H C'). destruct (fold_left _ _ _) as [[Q c] j]. destruct H as [L H]. unfold vdiv.
    rewrite (nth_map_R (fun x => x / cutpoint q N 0) Q t 0) by lia.
    rewrite H by auto. rewrite nth_repeat0, Rplus_0_l. unfold mean_between.
    rewrite combine_length, Hw, Nat.min_id. fold N.
    replace (low (S t) - low t) with (cutpoint q N 0).
    2:{ rewrite cut_0. unfold low. rewrite S_INR. assert (0 < INR q) by (apply lt_0_INR; auto). field. lra. }
    f_equal. apply sumn_ext. intros k Hk. rewrite !Rplus_0_l. auto.
  Qed.

  Lemma overlap_nonneg : forall a b c d, 0 <= overlap a b c d.
  Proof. intros. unfold overlap. apply Rmax_l. Qed.

  Lemma overlap_cover : forall lo hi k, lo <= hi ->
    sumn k (fun i => overlap (begins weights i) (begins weights (S i)) lo hi) = overlap 0 (begins weights k) lo hi.
  Proof.
    intros lo hi k H. induction k.
    - unfold begins, overlap. simpl. unfold Rmax, Rmin. repeat destruct Rle_dec; lra.
    - cbn [sumn]. rewrite IHk. assert (0 <= begins weights k) by (apply (begins_mono weights Pw 0 k); lia).
      assert (begins weights k <= begins weights (S k)) by (apply (begins_mono weights Pw); lia).
      unfold overlap, Rmax, Rmin. repeat destruct Rle_dec; lra.
  Qed.

  Lemma low_bounds : forall t, (t < q)%nat -> 0 <= low t /\ low t < low (S t) /\ low (S t) <= INR N.
  Proof.
    intros t Ht. pose proof N_pos as HN. assert (P1 : 0 < INR N) by (apply lt_0_INR; auto). assert (P2 : 0 < INR q) by (apply lt_0_INR; auto).
    unfold low. assert (0 <= INR t) by apply pos_INR. assert (INR (S t) <= INR q) by (apply le_INR; lia).
    assert (0 < / INR q) by (apply Rinv_0_lt_compat; auto). unfold Rdiv. split; [|split].
    - repeat apply Rmult_le_pos; lra.
    - apply Rmult_lt_compat_r; auto. apply Rmult_lt_compat_r; auto. rewrite S_INR. lra.
    - rewrite <- (Rmult_1_l (INR N)) at 2. apply Rmult_le_compat_r; [lra|]. apply Rmult_le_reg_r with (INR q); auto.
      rewrite Rmult_assoc, Rinv_l by lra. lra.
  Qed.

  Lemma slice_total : forall t, (t < q)%nat ->
    sumn N (fun i => overlap (begins weights i) (begins weights (S i)) (low t) (low (S t))) = low (S t) - low t.
  Proof.
    intros t Ht. destruct (low_bounds t Ht) as [A [B D]]. rewrite overlap_cover by lra.
    assert (E : begins weights N = INR N) by (unfold N; rewrite <- Hw at 1; rewrite begins_all; auto). rewrite E.
    unfold overlap. rewrite Rmin_right by lra. rewrite (Rmax_right 0 (low t)) by lra. rewrite Rmax_right by lra. auto.
  Qed.

  Lemma quantiles_range : forall lo hi, Forall (fun p => lo <= p <= hi) scores ->
    Forall (fun v => lo <= v <= hi) (quantiles_of q scores weights).
  Proof.
    intros lo hi F. apply Forall_forall. intros v Hv. destruct (In_nth _ _ 0 Hv) as [t [Ht <-]]. rewrite quantiles_length in Ht.
    rewrite quantiles_exact by auto. unfold mean_between. fold N. destruct (low_bounds t Ht) as [A [B D]].
    pose proof (slice_total t Ht) as T.
    assert (G : forall i, (i < N)%nat -> lo <= nth i scores 0 <= hi) by (intros i Hi; rewrite Forall_forall in F; apply F, nth_In; auto).
    set (o := fun i => overlap (begins weights i) (begins weights (S i)) (low t) (low (S t))) in *.
    assert (O : forall i, 0 <= o i) by (intros; apply overlap_nonneg).
    assert (lo * (low (S t) - low t) <= sumn N (fun i => nth i scores 0 * o i)).
    { rewrite <- T, <- sumn_scal. apply sumn_le. intros i Hi. apply Rmult_le_compat_r; [auto|apply G; auto]. }
    assert (sumn N (fun i => nth i scores 0 * o i) <= hi * (low (S t) - low t)).
    { rewrite <- T, <- sumn_scal. apply sumn_le. intros i Hi. apply Rmult_le_compat_r; [auto|apply G; auto]. }
    change (lo <= sumn N (fun i => nth i scores 0 * o i) / (low (S t) - low t) <= hi).
    split; apply Rmult_le_reg_r with (low (S t) - low t); try lra; unfold Rdiv; rewrite Rmult_assoc, Rinv_l by lra; lra.
  Qed.

  Lemma ascending_le : forall l, ascending l -> forall i j, (i <= j)%nat -> (j < length l)%nat -> nth i l 0 <= nth j l 0.
  Proof. intros l A i j H. induction H; intros; [lra|]. apply Rle_trans with (nth m l 0); [apply IHle; lia|apply A; auto]. Qed.

  Lemma quantiles_ascending : ascending scores -> ascending (quantiles_of q scores weights).
  Proof.
    intros A t Ht. rewrite quantiles_length in Ht. rewrite !quantiles_exact by lia. unfold mean_between. fold N.
    assert (Ht' : (t < q)%nat) by lia. destruct (low_bounds t Ht') as [A1 [B1 D1]]. destruct (low_bounds (S t) Ht) as [A2 [B2 D2]].
    pose proof (slice_total t Ht') as T1. pose proof (slice_total (S t) Ht) as T2.
    set (o1 := fun i => overlap (begins weights i) (begins weights (S i)) (low t) (low (S t))) in *.
    set (o2 := fun i => overlap (begins weights i) (begins weights (S i)) (low (S t)) (low (S (S t)))) in *.
    set (w1 := low (S t) - low t) in *. set (w2 := low (S (S t)) - low (S t)) in *.
    assert (W1 : 0 < w1) by (unfold w1; lra). assert (W2 : 0 < w2) by (unfold w2; lra).
    assert (O1 : forall i, 0 <= o1 i) by (intros; apply overlap_nonneg). assert (O2 : forall i, 0 <= o2 i) by (intros; apply overlap_nonneg).
    set (p := fun i => nth i scores 0).
    assert (K : 0 <= sumn N (fun i => sumn N (fun k => o1 i * o2 k * (p k - p i)))).
    { apply sumn_nonneg. intros i Hi. apply sumn_nonneg. intros k Hk.
      destruct (le_lt_dec i k) as [Le|Gt].
      - pose proof (ascending_le scores A i k Le Hk). apply Rmult_le_pos; [apply Rmult_le_pos; auto|unfold p; lra].
      - assert (Z : o1 i = 0 \/ o2 k = 0).
        { pose proof (begins_mono weights Pw (S k) i ltac:(lia)) as M. unfold o1, o2, overlap.
          destruct (Rle_dec (low (S t)) (begins weights i)) as [H|H].
          - left. rewrite Rmax_left; auto. pose proof (Rmin_r (begins weights (S i)) (low (S t))). pose proof (Rmax_l (begins weights i) (low t)). lra.
          - right. rewrite Rmax_left; auto. pose proof (Rmin_l (begins weights (S k)) (low (S (S t)))). pose proof (Rmax_r (begins weights k) (low (S t))). lra. }
        destruct Z as [-> | ->]; lra. }
    assert (E : sumn N (fun i => sumn N (fun k => o1 i * o2 k * (p k - p i))) = w1 * sumn N (fun k => p k * o2 k) - w2 * sumn N (fun i => p i * o1 i)).
    { rewrite (sumn_ext N _ (fun i => sumn N (fun k => p k * o2 k) * o1 i - w2 * (p i * o1 i))).
      - rewrite sumn_minus, !sumn_scal, T1. ring.
      - intros i Hi. rewrite (sumn_ext N _ (fun k => (p k * o2 k) * o1 i - o2 k * (p i * o1 i))) by (intros; ring).
        rewrite sumn_minus, !sumn_scal_r, T2. ring. }
    rewrite E in K. unfold Rdiv.
    change (sumn N (fun i => p i * o1 i) * / w1 <= sumn N (fun i => p i * o2 i) * / w2).
    apply Rmult_le_reg_r with (w1 * w2); [apply Rmult_lt_0_compat; auto|].
    replace (sumn N (fun i => p i * o1 i) * / w1 * (w1 * w2)) with (w2 * sumn N (fun i => p i * o1 i)) by (field; lra).
    replace (sumn N (fun i => p i * o2 i) * / w2 * (w1 * w2)) with (w1 * sumn N (fun i => p i * o2 i)) by (field; lra). lra.
  Qed.

  Lemma quantiles_mean_exact : rmean (quantiles_of q scores weights) = rsum (map (fun pw => fst pw * snd pw) (combine scores weights)) / INR N.
  Proof.
    pose proof N_pos as HN. assert (P1 : 0 < INR N) by (apply lt_0_INR; auto). assert (P2 : 0 < INR q) by (apply lt_0_INR; auto).
    unfold rmean. rewrite quantiles_length. rewrite <- sumn_nth, quantiles_length.
    rewrite (sumn_ext q _ (fun t => sumn N (fun i => nth i scores 0 * overlap (begins weights i) (begins weights (S i)) (low t) (low (S t))) * (INR q / INR N))).
    2:{ intros t Ht. rewrite quantiles_exact by auto. unfold mean_between. fold N. unfold Rdiv at 1. f_equal.
        unfold low. rewrite S_INR. field. lra. }
    rewrite sumn_scal_r, sumn_swap.
    rewrite (sumn_ext N _ (fun i => nth i scores 0 * nth i weights 0)).
    - assert (E : sumn N (fun i => nth i scores 0 * nth i weights 0) = rsum (map (fun pw => fst pw * snd pw) (combine scores weights))).
      { clear -Hw. subst N. revert weights Hw. induction scores as [|a l IH]; intros [|w ws] Hw; simpl in Hw; try discriminate; auto.
        cbn [length]. rewrite sumn_Sl. cbn [nth combine map fst snd]. rewrite IH by lia. reflexivity. }
      rewrite E. field. lra.
    - intros i Hi. rewrite sumn_scal. f_equal.
      assert (S1 : forall k, (k <= q)%nat -> sumn k (fun t => overlap (begins weights i) (begins weights (S i)) (low t) (low (S t)))
                   = overlap (begins weights i) (begins weights (S i)) 0 (low k)).
      { assert (B0 : 0 <= begins weights i) by (apply (begins_mono weights Pw 0 i); lia).
        assert (B1 : begins weights i <= begins weights (S i)) by (apply (begins_mono weights Pw); lia).
        induction k; intros Hk.
        - simpl. unfold overlap. replace (low 0) with 0 by (unfold low; simpl; unfold Rdiv; ring).
          rewrite Rmax_left; auto. pose proof (Rmin_r (begins weights (S i)) 0). pose proof (Rmax_r (begins weights i) 0). lra.
        - cbn [sumn]. rewrite IHk by lia. destruct (low_bounds k ltac:(lia)) as [X [Y Z]].
          unfold overlap, Rmax, Rmin. repeat destruct Rle_dec; lra. }
      rewrite S1 by lia. assert (LQ : low q = INR N) by (unfold low; field; lra). rewrite LQ.
      assert (B0 : 0 <= begins weights i) by (apply (begins_mono weights Pw 0 i); lia).
      assert (B1 : begins weights (S i) <= INR N).
      { replace (INR N) with (begins weights N) by (unfold N; rewrite <- Hw at 1; rewrite begins_all; auto). apply (begins_mono weights Pw). lia. }
      assert (B2 : begins weights i <= begins weights (S i)) by (apply (begins_mono weights Pw); lia).
      unfold overlap. rewrite Rmin_left by auto. rewrite (Rmax_left (begins weights i)) by auto. rewrite begins_S in *. rewrite Rmax_right by lra. lra.
  Qed.
End Quantiles.

(** ** The weights of the model *)

Lemma weights_some : forall prev y c0 c1, binary_labels y c0 c1 ->
  quantile_weights (Some prev) (length y) y c0 c1 = class_weights prev y c0 c1.
Proof.
  intros prev y c0 c1 [H0 [H1 [H2 H3]]]. unfold quantile_weights, class_weights. apply map_ext_in. intros c Hc.
  destruct (Z.eqb_spec c c1), (Z.eq_dec c c1); try congruence; [unfold Rdiv; ring|].
  destruct (Z.eqb_spec c c0); [unfold Rdiv; ring|]. destruct (H3 c Hc); contradiction.
Qed.

Lemma count_pos : forall c y, In c y -> 0 < INR (zcount c y).
Proof. intros c y H. apply lt_0_INR. unfold zcount. apply count_occ_In. auto. Qed.

Lemma select_sum_mix : forall y (scores : list R) c0 c1 a b, c0 <> c1 -> (forall c, In c y -> c = c0 \/ c = c1) -> length y = length scores ->
  rsum (map (fun pw => fst pw * snd pw) (combine scores (map (fun c => if Z.eq_dec c c1 then b else a) y))) =
  a * rsum (select c0 y scores) + b * rsum (select c1 y scores).
Proof.
  induction y as [|c y IH]; intros [|s scores] c0 c1 a b N H L; simpl in L; try discriminate.
  - simpl. unfold select; simpl. lra.
  - cbn [map combine]. rewrite rsum_cons. rewrite (IH scores c0 c1 a b) by (auto; intros; apply H; right; auto).
    unfold select. cbn [combine filter fst snd map].
    destruct (H c (or_introl eq_refl)) as [-> | ->].
    + destruct (Z.eq_dec c0 c1); [contradiction|]. rewrite Z.eqb_refl. destruct (Z.eqb_spec c0 c1); [contradiction|].
      cbn [map snd]. rewrite rsum_cons. lra.
    + destruct (Z.eq_dec c1 c1); [|contradiction]. rewrite Z.eqb_refl. destruct (Z.eqb_spec c1 c0); [congruence|].
      cbn [map snd]. rewrite rsum_cons. lra.
Qed.

Lemma class_weights_mix : forall prev y scores c0 c1, binary_labels y c0 c1 -> length y = length scores ->
  rsum (map (fun pw => fst pw * snd pw) (combine scores (class_weights prev y c0 c1))) / INR (length scores) =
  (1 - prev) * rmean (select c0 y scores) + prev * rmean (select c1 y scores).
Proof.
  intros prev y scores c0 c1 [H0 [H1 [H2 H3]]] L. unfold class_weights.
  rewrite (map_ext _ (fun c => if Z.eq_dec c c1 then INR (length y) * (prev / INR (zcount c1 y)) else INR (length y) * ((1 - prev) / INR (zcount c0 y))))
    by (intros c; destruct (Z.eq_dec c c1); auto).
  rewrite (select_sum_mix y scores c0 c1) by auto. unfold rmean. rewrite !select_length by auto.
  pose proof (count_pos c0 y H1). pose proof (count_pos c1 y H2). rewrite <- L.
  assert (0 < INR (length y)) by (apply length_pos; intro E; subst; destruct H1). field. lra.
Qed.

Lemma class_weights_length : forall prev y c0 c1, length (class_weights prev y c0 c1) = length y.
Proof. intros. unfold class_weights. apply map_length. Qed.

Lemma class_weights_sum : forall prev y c0 c1, binary_labels y c0 c1 -> rsum (class_weights prev y c0 c1) = INR (length y).
Proof.
  intros prev y c0 c1 H. pose proof (class_weights_mix prev y (repeat 1 (length y)) c0 c1 H ltac:(rewrite repeat_length; auto)) as M.
  destruct H as [H0 [H1 [H2 H3]]]. assert (0 < INR (length y)) by (apply length_pos; intro E; subst; destruct H1).
  assert (R1 : forall c, In c y -> rmean (select c y (repeat 1 (length y))) = 1).
  { intros c Hc. assert (E : select c y (repeat 1 (length y)) = repeat 1 (zcount c y)).
    { rewrite <- (select_length c y (repeat 1 (length y))) by (rewrite repeat_length; auto).
      assert (G : Forall (fun x => x = 1) (select c y (repeat 1 (length y)))).
      { apply Forall_forall. intros x Hx. apply select_in in Hx. apply repeat_spec in Hx. auto. }
      induction G; simpl; auto. subst. f_equal. auto. }
    rewrite E. unfold rmean. rewrite rsum_repeat, repeat_length. pose proof (count_pos c y Hc). field. lra. }
  rewrite !R1 in M by auto. rewrite repeat_length in M.
  assert (E : forall (w : list R), rsum (map (fun pw => fst pw * snd pw) (combine (repeat 1 (length w)) w)) = rsum w).
  { induction w; simpl; auto. change (1 * a + rsum (map (fun pw => fst pw * snd pw) (combine (repeat 1 (length w)) w)) = a + rsum w). rewrite IHw. lra. }
  specialize (E (class_weights prev y c0 c1)). rewrite class_weights_length in E. rewrite E in M.
  apply Rmult_eq_reg_r with (/ INR (length y)); [|apply Rinv_neq_0_compat; lra]. rewrite Rinv_r by lra. unfold Rdiv in M. lra.
Qed.

Lemma class_weights_nonneg : forall prev y c0 c1, binary_labels y c0 c1 -> 0 <= prev <= 1 -> Forall (fun w => 0 <= w) (class_weights prev y c0 c1).
Proof.
  intros prev y c0 c1 [H0 [H1 [H2 H3]]] P. apply Forall_forall. intros w Hw. unfold class_weights in Hw. apply in_map_iff in Hw.
  destruct Hw as [c [<- Hc]]. pose proof (count_pos c0 y H1). pose proof (count_pos c1 y H2).
  apply Rmult_le_pos; [apply pos_INR|]. destruct (Z.eq_dec c c1); unfold Rdiv; apply Rmult_le_pos; try lra; left; apply Rinv_0_lt_compat; auto.
Qed.

Lemma ones_clean : forall q n, (0 < q)%nat -> INR q < 10000 -> clean_cuts q (repeat 1 n) (INR n).
Proof.
  intros q n Hq Hb i j Hi Hj. rewrite repeat_length in Hi.
  assert (B : begins (repeat 1 n) i = INR i).
  { unfold begins. rewrite (sumn_ext i _ (fun _ => 1)) by (intros; apply repeat_nth_R; lia). rewrite sumn_const. lra. }
  rewrite B. assert (P : 0 < INR q) by (apply lt_0_INR; auto).
  destruct (le_lt_dec (i * q) ((j + 1) * n)) as [L|L].
  - left. apply le_INR in L. rewrite !mult_INR in L. apply Rmult_le_reg_r with (INR q); auto.
    replace (INR (j + 1) / INR q * INR n * INR q) with (INR (j + 1) * INR n) by (field; lra). lra.
  - right. assert (L' : ((j + 1) * n + 1 <= i * q)%nat) by lia. apply le_INR in L'. rewrite plus_INR, !mult_INR in L'. simpl (INR 1) in L'.
    apply Rmult_lt_reg_r with (INR q); auto.
    replace ((INR (j + 1) / INR q * INR n + 1 / 10000) * INR q) with (INR (j + 1) * INR n + INR q / 10000) by (field; lra).
    lra.
Qed.

Lemma ones_sum : forall n, rsum (repeat 1 n) = INR n.
Proof. intros. rewrite rsum_repeat. lra. Qed.

Lemma ones_nonneg : forall n, Forall (fun w => 0 <= w) (repeat 1 n).
Proof. intros. apply Forall_forall. intros w Hw. apply repeat_spec in Hw. lra. Qed.

(** ** User-level statements *)

Lemma train_quantiles_mean : forall prev scores q y c0 c1, (0 < q)%nat -> length y = length scores -> binary_labels y c0 c1 ->
  0 <= prev <= 1 -> Forall (fun s => 0 <= s) scores ->
  let mix := (1 - prev) * rmean (select c0 y scores) + prev * rmean (select c1 y scores) in
  mix - 1/10000 * rmean scores <= rmean (compute_quantiles (Some prev) scores q y c0 c1) <= mix.
Proof.
  intros prev scores q y c0 c1 Hq L B P F mix. unfold compute_quantiles. rewrite <- L. rewrite weights_some by auto.
  unfold mix. rewrite <- class_weights_mix by auto. apply quantile_mean_bounds; auto.
  - intro E; subst. destruct B as [_ [H _]]. destruct y; [destruct H|discriminate].
  - rewrite class_weights_length. auto.
  - apply class_weights_nonneg; auto.
  - rewrite class_weights_sum by auto. rewrite L. auto.
Qed.

Section Clean.
  Context (prev : R) (scores : list R) (q : nat) (y : list Z) (c0 c1 : Z).
  Context (Hq : (0 < q)%nat) (L : length y = length scores) (B : binary_labels y c0 c1) (P : 0 <= prev <= 1).
  Context (C : clean_cuts q (class_weights prev y c0 c1) (INR (length scores))).

  Lemma clean_nonempty : scores <> [].
  Proof. intro E; subst. destruct B as [_ [H _]]. destruct y; [destruct H|discriminate]. Qed.

  Lemma clean_eq : compute_quantiles (Some prev) scores q y c0 c1 = quantiles_of q scores (class_weights prev y c0 c1).
  Proof. unfold compute_quantiles. rewrite <- L. rewrite weights_some by auto. auto. Qed.

  Lemma train_quantiles_values : forall t, (t < q)%nat ->
    nth t (compute_quantiles (Some prev) scores q y c0 c1) 0 =
    mean_between scores (class_weights prev y c0 c1) (INR t / INR q * INR (length scores)) (INR (S t) / INR q * INR (length scores)).
  Proof.
    intros t Ht. rewrite clean_eq. apply quantiles_exact; auto using clean_nonempty, class_weights_nonneg.
    - rewrite class_weights_length; auto.
    - rewrite class_weights_sum, L; auto.
  Qed.

  Lemma train_quantiles_mean_exact : rmean (compute_quantiles (Some prev) scores q y c0 c1) =
    (1 - prev) * rmean (select c0 y scores) + prev * rmean (select c1 y scores).
  Proof.
    rewrite clean_eq, <- class_weights_mix by auto. apply quantiles_mean_exact; auto using clean_nonempty, class_weights_nonneg.
    - rewrite class_weights_length; auto.
    - rewrite class_weights_sum, L; auto.
  Qed.

  Lemma train_quantiles_range : forall lo hi, Forall (fun s => lo <= s <= hi) scores ->
    Forall (fun v => lo <= v <= hi) (compute_quantiles (Some prev) scores q y c0 c1).
  Proof.
    intros lo hi F. rewrite clean_eq. apply quantiles_range; auto using clean_nonempty, class_weights_nonneg.
    - rewrite class_weights_length; auto.
    - rewrite class_weights_sum, L; auto.
  Qed.

  Lemma train_quantiles_ascending : ascending scores -> ascending (compute_quantiles (Some prev) scores q y c0 c1).
  Proof.
    intros A. rewrite clean_eq. apply quantiles_ascending; auto using clean_nonempty, class_weights_nonneg.
    - rewrite class_weights_length; auto.
    - rewrite class_weights_sum, L; auto.
  Qed.
End Clean.

Section Test.
  Context (scores : list R) (q : nat) (Hq : (0 < q)%nat) (Hb : INR q < 10000) (Hs : scores <> []).
  Let w := repeat 1 (length scores).
  Let hw : length w = length scores := repeat_length _ _.
  Let pw : Forall (fun w => 0 <= w) w := ones_nonneg _.
  Let sw : rsum w = INR (length scores) := ones_sum _.
  Let cw : clean_cuts q w (INR (length scores)) := ones_clean q _ Hq Hb.

  Lemma test_quantiles_values : forall y c0 c1 t, (t < q)%nat ->
    nth t (compute_quantiles None scores q y c0 c1) 0 =
    mean_between scores (repeat 1 (length scores)) (INR t / INR q * INR (length scores)) (INR (S t) / INR q * INR (length scores)).
  Proof. intros y c0 c1 t Ht. apply (quantiles_exact q scores w Hq Hs hw pw sw cw t Ht). Qed.

  Lemma test_quantiles_mean : forall y c0 c1, rmean (compute_quantiles None scores q y c0 c1) = rmean scores.
  Proof.
    intros. unfold compute_quantiles, quantile_weights. fold w. rewrite (quantiles_mean_exact q scores w Hq Hs hw pw sw cw).
    unfold rmean. f_equal. unfold w. clear. induction scores; simpl; auto. change (a * 1 + rsum (map (fun pw => fst pw * snd pw) (combine l (repeat 1 (length l)))) = a + rsum l).
    rewrite IHl. lra.
  Qed.

  Lemma test_quantiles_range : forall y c0 c1 lo hi, Forall (fun s => lo <= s <= hi) scores ->
    Forall (fun v => lo <= v <= hi) (compute_quantiles None scores q y c0 c1).
  Proof. intros. apply (quantiles_range q scores w Hq Hs hw pw sw cw); auto. Qed.

  Lemma test_quantiles_ascending : forall y c0 c1, ascending scores -> ascending (compute_quantiles None scores q y c0 c1).
  Proof. intros. apply (quantiles_ascending q scores w Hq Hs hw pw sw cw); auto. Qed.
End Test.

(** ** The residual can push a value out of the range of the scores *)
Lemma negative_quantile :
  exists prev scores q y c0 c1, 0 <= prev <= 1 /\ (0 < q)%nat /\ length y = length scores /\ binary_labels y c0 c1 /\
    ascending scores /\ Forall (fun s => 0 <= s <= 1) scores /\
    nth 0 (compute_quantiles (Some prev) scores q y c0 c1) 0 < 0.
Proof.
  exists (1/2 - 1/60000), [0; 0; 1], 2%nat, [0; 0; 1]%Z, 0%Z, 1%Z.
  split; [lra|]. split; [lia|]. split; [auto|]. split.
  { split; [lia|]. split; [simpl; auto|]. split; [simpl; auto|]. intros c H. simpl in H. intuition. }
  split. { intros [|[|i]] Hi; simpl in *; try lra; lia. }
  split. { repeat (apply Forall_cons; [lra|]). apply Forall_nil. }
  unfold compute_quantiles, quantiles_of, quantile_weights. cbn [map length combine fold_left repeat].
  change (Z.eqb 0 1) with false. change (Z.eqb 0 0) with true. change (Z.eqb 1 1) with true. cbn iota.
  change (zcount 0 [0%Z; 0%Z; 1%Z]) with 2%nat. change (zcount 1 [0%Z; 0%Z; 1%Z]) with 1%nat.
  unfold quantile_step, cutpoint. cbn [Nat.add]. simpl (INR 1). simpl (INR 2). simpl (INR 3).
  destruct (Rle_dec (0 + (1 - (1 / 2 - 1 / 60000)) * (1 + 1 + 1) / (1 + 1)) (1 / (1 + 1) * (1 + 1 + 1))); [|lra].
  destruct (Rle_dec (0 + (1 - (1 / 2 - 1 / 60000)) * (1 + 1 + 1) / (1 + 1) + (1 - (1 / 2 - 1 / 60000)) * (1 + 1 + 1) / (1 + 1))
      (1 / (1 + 1) * (1 + 1 + 1))); [lra|].
  cbn [spread]. unfold cutpoint. cbn [Nat.add Nat.sub Nat.ltb Nat.leb].
  change (INR (0 + 1)) with 1. change (INR 1) with 1. change (INR 2) with (1 + 1). change (INR 3) with (1 + 1 + 1).
  repeat (match goal with |- context [Rlt_dec ?a ?b] => destruct (Rlt_dec a b); [try (exfalso; lra)|try (exfalso; lra)]
    | |- context [Rle_dec ?a ?b] => destruct (Rle_dec a b); [try (exfalso; lra)|try (exfalso; lra)] end;
    cbn [spread Nat.add Nat.sub Nat.ltb Nat.leb]; unfold cutpoint;
    change (INR (0 + 1)) with 1; change (INR 1) with 1; change (INR 2) with (1 + 1); change (INR 3) with (1 + 1 + 1));
  cbn [vdiv map nth add_nth]; lra.
Qed.
