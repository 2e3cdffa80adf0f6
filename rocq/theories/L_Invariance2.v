(** * SORDy and QUANTy see samples as distributions. *)

From Coq Require Import Reals List ZArith Lra Lia Permutation FunctionalExtensionality Sorted.
From Coquelicot Require Import Rcomplements Hierarchy RInt Continuity.
From Verif Require Import Num Spec Spec_Search Spec_Invariance M_Estimators M_Search L_Num L_Baselines L_Search
  L_Search2 L_Search3 L_Sord L_Quantiles L_Quantiles2 L_Invariance.
Import ListNotations.
Open Scope R_scope.

(** ** Samples with the same proportions *)

Lemma in_repeated : forall {A} k (a : list A) x, (0 < k)%nat -> In x (repeated k a) <-> In x a.
Proof.
  intros A k a x Hk. unfold repeated. rewrite in_concat. split.
  - intros (l & Hl & Hx). apply in_map_iff in Hl. destruct Hl as (y & <- & Hy). apply repeat_spec in Hx. now subst.
  - intros Hx. exists (repeat x k). split; [apply in_map_iff; eauto|]. destruct k; [lia|now left].
Qed.

Lemma same_in : forall {A} (a b : list A) x, same_proportions a b -> In x a <-> In x b.
Proof.
  intros A a b x (j & k & Hj & Hk & HP). rewrite <- (in_repeated j a x Hj), <- (in_repeated k b x Hk).
  split; apply Permutation_in; auto. now symmetry.
Qed.

Lemma same_unique : forall a b, same_proportions a b -> np_unique a = np_unique b.
Proof.
  intros a b HS. apply sorted_lt_ext; try apply np_unique_sorted. intros c. rewrite !np_unique_in.
  split; apply (same_in a b c HS).
Qed.

Lemma same_upto : forall a b x, same_proportions a b -> fraction_upto a x = fraction_upto b x.
Proof. intros a b x HS. unfold fraction_upto. now apply same_mean. Qed.

(** ** SORDy *)

Lemma bounds : forall l : list R, exists a b, forall v, In v l -> a <= v <= b.
Proof.
  intros l. destruct (bounded l) as [b Hb]. destruct (bounded (map Ropp l)) as [a Ha].
  exists (- a), b. intros v Hv. split; auto. specialize (Ha (- v) ltac:(apply in_map; auto)). lra.
Qed.

Lemma SORDy_cdf : forall argsort argsort' tol y y' scores scores' test test' c0 c1 s s',
  sorts argsort pick -> sorts argsort' pick -> length y = length scores -> length y' = length scores' ->
  np_unique y = [c0; c1] -> np_unique y' = [c0; c1] -> test <> [] -> test' <> [] ->
  (forall x, fraction_upto (select c0 y scores) x = fraction_upto (select c0 y' scores') x) ->
  (forall x, fraction_upto (select c1 y scores) x = fraction_upto (select c1 y' scores') x) ->
  (forall x, fraction_upto test x = fraction_upto test' x) ->
  sorted_fit argsort (np_unique y) y scores = Val s ->
  sorted_fit argsort' (np_unique y') y' scores' = Val s' ->
  SORDy_predict argsort' tol s' test' = SORDy_predict argsort tol s test.
Proof.
  intros argsort argsort' tol y y' scores scores' test test' c0 c1 s s' A A' L L' U U' T T' H0 H1 HT F F'.
  unfold SORDy_predict. f_equal. f_equal. apply functional_extensionality. intros p.
  destruct (bounds ((scores ++ test) ++ (scores' ++ test'))) as (a & b & Hab).
  assert (K : forall v, In v (scores ++ test) -> a <= v <= b) by (intros; apply Hab, in_or_app; auto).
  assert (K' : forall v, In v (scores' ++ test') -> a <= v <= b) by (intros; apply Hab, in_or_app; auto).
  pose proof (sordy_loss_area argsort y scores test c0 c1 s A L U T F p _ _ K) as I.
  pose proof (sordy_loss_area argsort' y' scores' test' c0 c1 s' A' L' U' T' F' p _ _ K') as I'.
  apply (is_RInt_ext (V := R_NormedModule) _
    (fun x => Rabs (mixed_fraction_upto p y scores c0 c1 x - fraction_upto test x))) in I'.
  2:{ intros x _. unfold mixed_fraction_upto. now rewrite H0, H1, HT. }
  apply (is_RInt_unique (V := R_CompleteNormedModule)) in I.
  apply (is_RInt_unique (V := R_CompleteNormedModule)) in I'. congruence.
Qed.

Lemma SORDy_same : forall argsort argsort' tol (tr tr' : list (Z * R)) test test' c0 c1 s s',
  sorts argsort pick -> sorts argsort' pick -> np_unique (map fst tr) = [c0; c1] -> test <> [] ->
  same_proportions tr tr' -> same_proportions test test' ->
  sorted_fit argsort (np_unique (map fst tr)) (map fst tr) (map snd tr) = Val s ->
  sorted_fit argsort' (np_unique (map fst tr')) (map fst tr') (map snd tr') = Val s' ->
  SORDy_predict argsort' tol s' test' = SORDy_predict argsort tol s test.
Proof.
  intros argsort argsort' tol tr tr' test test' c0 c1 s s' A A' U T HS HT F F'.
  apply (SORDy_cdf argsort argsort' tol (map fst tr) (map fst tr') (map snd tr) (map snd tr') test test' c0 c1);
    auto; try (rewrite !map_length; reflexivity).
  - rewrite <- U. symmetry. now apply same_unique, same_map.
  - intros ->. apply T. destruct test as [|v test]; auto. destruct (proj1 (same_in _ _ v HT) (or_introl eq_refl)).
  - intros x. now apply same_upto, same_select.
  - intros x. now apply same_upto, same_select.
  - intros x. now apply same_upto.
Qed.

(** Scaling the loss does not change the search. *)

Definition scaled (c : R) (s : golden_state) : golden_state :=
  {| g_a := g_a s; g_b := g_b s; g_c := g_c s; g_d := g_d s; g_h := g_h s; g_fc := c * g_fc s; g_fd := c * g_fd s |}.

Lemma golden_step_scaled : forall c f s, 0 < c ->
  golden_step (fun p => c * f p) (scaled c s) = scaled c (golden_step f s).
Proof.
  intros c f s Hc. unfold golden_step, scaled. simpl.
  destruct (Rlt_dec (c * g_fc s) (c * g_fd s)) as [H|H], (Rlt_dec (g_fc s) (g_fd s)) as [H'|H']; simpl; auto.
  - exfalso. apply H'. apply (Rmult_lt_reg_l c); auto.
  - exfalso. apply H. apply Rmult_lt_compat_l; auto.
Qed.

Lemma golden_loop_scaled : forall c f n s, 0 < c ->
  golden_loop (fun p => c * f p) n (scaled c s) = scaled c (golden_loop f n s).
Proof.
  intros c f n. induction n; intros s Hc; simpl; auto. rewrite golden_step_scaled by auto. auto.
Qed.

Lemma golden_scaled : forall c f tol a b, 0 < c ->
  omap snd (golden_section_search (fun p => c * f p) tol a b) = omap snd (golden_section_search f tol a b).
Proof.
  intros c f tol a b Hc. unfold golden_section_search. destruct (Req_EM_T _ _); auto. destruct (Rle_dec _ _); auto.
  simpl. f_equal. change (golden_start (fun p => c * f p) a b) with (scaled c (golden_start f a b)).
  rewrite golden_loop_scaled by auto. set (s := golden_loop f _ _). unfold golden_end, scaled. simpl.
  destruct (Rlt_dec (c * g_fc s) (c * g_fd s)) as [H|H], (Rlt_dec (g_fc s) (g_fd s)) as [H'|H']; simpl; auto.
  - exfalso. apply H'. apply (Rmult_lt_reg_l c); auto.
  - exfalso. apply H. apply Rmult_lt_compat_l; auto.
Qed.

Lemma upto_affine : forall u v l x, 0 < u ->
  fraction_upto (map (fun t => u * t + v) l) (u * x + v) = fraction_upto l x.
Proof.
  intros u v l x Hu. unfold fraction_upto. rewrite map_length, map_map. f_equal. apply rsum_map_ext. intros t _.
  destruct (Rle_dec (u * t + v) (u * x + v)) as [H|H], (Rle_dec t x) as [H'|H']; auto.
  - exfalso. apply H'. apply (Rmult_le_reg_l u); auto. lra.
  - exfalso. apply H. pose proof (Rmult_le_compat_l u t x ltac:(lra) H'). lra.
Qed.

Lemma SORDy_affine : forall argsort argsort' tol y scores test c0 c1 s s' u v,
  sorts argsort pick -> sorts argsort' pick -> length y = length scores ->
  np_unique y = [c0; c1] -> test <> [] -> 0 < u ->
  sorted_fit argsort (np_unique y) y scores = Val s ->
  sorted_fit argsort' (np_unique y) y (map (fun t => u * t + v) scores) = Val s' ->
  SORDy_predict argsort' tol s' (map (fun t => u * t + v) test) = SORDy_predict argsort tol s test.
Proof.
  intros argsort argsort' tol y scores test c0 c1 s s' u v A A' L U T Hu F F'.
  unfold SORDy_predict. rewrite <- (golden_scaled u (SORDy_loss argsort s test)) by auto. f_equal. f_equal.
  apply functional_extensionality. intros p.
  destruct (bounds (scores ++ test)) as (a & b & Hab).
  set (g := fun t : R => u * t + v) in *.
  assert (T' : map g test <> []) by (destruct test; [congruence|discriminate]).
  assert (L' : length y = length (map g scores)) by (now rewrite map_length).
  assert (K' : forall w, In w (map g scores ++ map g test) -> u * a + v <= w <= u * b + v).
  { intros w Hw. rewrite <- map_app in Hw. apply in_map_iff in Hw. destruct Hw as (t & <- & Ht).
    specialize (Hab t Ht). unfold g. nra. }
  pose proof (sordy_loss_area argsort y scores test c0 c1 s A L U T F p _ _ Hab) as I.
  pose proof (sordy_loss_area argsort' y (map g scores) (map g test) c0 c1 s' A' L' U T' F' p _ _ K') as I'.
  apply (is_RInt_comp_lin (V := R_NormedModule)) in I'.
  apply (is_RInt_scal (V := R_NormedModule) _ a b u) in I.
  apply (is_RInt_ext (V := R_NormedModule) _
    (fun x => scal u (Rabs (mixed_fraction_upto p y scores c0 c1 x - fraction_upto test x)))) in I'.
  2:{ intros x _. unfold mixed_fraction_upto. rewrite !select_map. unfold g. now rewrite !upto_affine. }
  apply (is_RInt_unique (V := R_CompleteNormedModule)) in I.
  apply (is_RInt_unique (V := R_CompleteNormedModule)) in I'.
  etransitivity; [symmetry; exact I'|exact I].
Qed.

(** ** Sorted lists *)

Lemma ascending_strongly : forall l, ascending l -> StronglySorted Rle l.
Proof.
  intros l H. apply Sorted_StronglySorted; [intros a b c; apply Rle_trans|].
  induction l as [|a l IH]; constructor.
  - apply IH. intros i Hi. exact (H (S i) ltac:(simpl; lia)).
  - destruct l as [|b l]; constructor. exact (H O ltac:(simpl; lia)).
Qed.

Lemma strongly_perm : forall a b, StronglySorted Rle a -> StronglySorted Rle b -> Permutation a b -> a = b.
Proof.
  induction a as [|x a IH]; intros b Ha Hb HP.
  - symmetry. now apply Permutation_nil.
  - destruct b as [|y b]; [symmetry in HP; now apply Permutation_nil in HP|].
    inversion Ha as [|? ? Sa Fa]; subst. inversion Hb as [|? ? Sb Fb]; subst.
    rewrite Forall_forall in Fa, Fb.
    assert (x = y).
    { assert (In y (x :: a)) by (apply (Permutation_in y (Permutation_sym HP)); now left).
      assert (In x (y :: b)) by (apply (Permutation_in x HP); now left).
      destruct H as [|H]; auto. destruct H0 as [|H0]; auto.
      apply Rle_antisym; [now apply Fa|now apply Fb]. }
    subst y. f_equal. apply IH; auto. now apply Permutation_cons_inv in HP.
Qed.

Lemma ascending_perm : forall a b, ascending a -> ascending b -> Permutation a b -> a = b.
Proof. intros. apply strongly_perm; auto using ascending_strongly. Qed.

Lemma sorted_same : forall argsort argsort' a b, sorts argsort pick -> sorts argsort' pick -> Permutation a b ->
  pick a (argsort a) = pick b (argsort' b).
Proof.
  intros argsort argsort' a b A A' HP. destruct (A a) as [P1 S1]. destruct (A' b) as [P2 S2].
  apply ascending_perm; auto. rewrite (pick_perm a _ P1), (pick_perm b _ P2). auto.
Qed.

(** ** QUANTy *)

Lemma QUANTy_order : forall argsort argsort' q distance tol s mixtures test test',
  sorts argsort pick -> sorts argsort' pick -> Permutation test test' ->
  QUANTy_predict argsort' q distance tol s mixtures test' = QUANTy_predict argsort q distance tol s mixtures test.
Proof.
  intros argsort argsort' q distance tol s mixtures test test' A A' HP. unfold QUANTy_predict.
  rewrite (sorted_same argsort argsort' test test'); auto.
Qed.

Lemma fit_order : forall argsort argsort' classes (tr tr' : list (Z * R)),
  sorts argsort pick -> sorts argsort' pick -> Permutation tr tr' ->
  (forall e e', In e tr -> In e' tr -> snd e = snd e' -> fst e = fst e') ->
  sorted_fit argsort' classes (map fst tr') (map snd tr') = sorted_fit argsort classes (map fst tr) (map snd tr).
Proof.
  intros argsort argsort' classes tr tr' A A' HP HL. unfold sorted_fit. destruct (Nat.ltb _ _); auto. f_equal.
  assert (E : pick tr (argsort (map snd tr)) = pick tr' (argsort' (map snd tr'))).
  { destruct (A (map snd tr)) as [P1 S1]. destruct (A' (map snd tr')) as [P2 S2].
    rewrite map_length in P1, P2. rewrite pick_map in S1, S2.
    pose proof (pick_perm tr _ P1) as Q1. pose proof (pick_perm tr' _ P2) as Q2.
    assert (Es : map snd (pick tr (argsort (map snd tr))) = map snd (pick tr' (argsort' (map snd tr')))).
    { apply ascending_perm; auto. apply Permutation_map. rewrite Q1, Q2. auto. }
    assert (I1 : forall e, In e (pick tr (argsort (map snd tr))) -> In e tr) by (intros e; apply Permutation_in; auto).
    assert (I2 : forall e, In e (pick tr' (argsort' (map snd tr'))) -> In e tr).
    { intros e He. apply (Permutation_in e (Permutation_sym HP)). apply (Permutation_in e Q2). auto. }
    clear P1 P2 S1 S2 Q1 Q2. revert Es I1 I2.
    generalize (pick tr (argsort (map snd tr))) (pick tr' (argsort' (map snd tr'))).
    induction l as [|[c x] l IH]; intros [|[c' x'] l'] Es I1 I2; simpl in Es; try discriminate; auto.
    injection Es as Ex Es. f_equal.
    - f_equal; auto. exact (HL (c, x) (c', x') (I1 _ (or_introl eq_refl)) (I2 _ (or_introl eq_refl)) Ex).
    - apply IH; auto; intros e He; [apply I1|apply I2]; now right. }
  f_equal; rewrite !pick_map, E; reflexivity.
Qed.

(** *** Replicating the bag *)

Lemma begins_ones : forall n i, (i <= n)%nat -> begins (repeat 1 n) i = INR i.
Proof.
  intros n i Hi. unfold begins. rewrite (sumn_ext i _ (fun _ => 1)).
  - rewrite sumn_const. ring.
  - intros j Hj. apply nth_repeat_lt || idtac.
    rewrite (nth_indep _ 0 1) by (rewrite repeat_length; lia). apply nth_repeat.
Qed.

Lemma nth_repeated_each : forall {A} m (l : list A) i j d, (j < m)%nat -> (i < length l)%nat ->
  nth (m * i + j) (repeated m l) d = nth i l d.
Proof.
  intros A m l i j d Hj. revert i. induction l as [|x l IH]; intros i Hi; simpl in Hi; [lia|].
  unfold repeated. cbn [map concat]. destruct i as [|i].
  - rewrite Nat.mul_0_r, Nat.add_0_l, app_nth1 by (now rewrite repeat_length). simpl.
    rewrite (nth_indep _ d x) by (now rewrite repeat_length). apply nth_repeat.
  - rewrite app_nth2 by (rewrite repeat_length; nia). rewrite repeat_length.
    replace (m * S i + j - m)%nat with (m * i + j)%nat by nia. apply IH. lia.
Qed.

Lemma overlap_pieces : forall a lo hi m, lo <= hi ->
  sumn m (fun j => overlap (a + INR j) (a + INR (S j)) lo hi) = overlap a (a + INR m) lo hi.
Proof.
  intros a lo hi m H. induction m as [|m IH].
  - simpl. unfold overlap, Rmax, Rmin. repeat destruct Rle_dec; lra.
  - cbn [sumn]. rewrite IH. rewrite S_INR. pose proof (pos_INR m).
    unfold overlap, Rmax, Rmin. repeat destruct Rle_dec; lra.
Qed.

Lemma overlap_scaled : forall c a b lo hi, 0 < c ->
  overlap (c * a) (c * b) (c * lo) (c * hi) = c * overlap a b lo hi.
Proof.
  intros c a b lo hi H. unfold overlap.
  rewrite RmaxRmult by lra. rewrite <- (Rmult_0_r c) at 1. 
  replace (Rmin (c * b) (c * hi)) with (c * Rmin b hi).
  - replace (c * Rmin b hi - c * Rmax a lo) with (c * (Rmin b hi - Rmax a lo)) by ring.
    now rewrite RmaxRmult by lra.
  - unfold Rmin. destruct (Rle_dec b hi) as [h|h], (Rle_dec (c * b) (c * hi)) as [h'|h']; auto.
    + exfalso. apply h'. apply Rmult_le_compat_l; lra.
    + exfalso. apply h. apply (Rmult_le_reg_l c); auto.
Qed.

Lemma mean_between_repeated : forall m l lo hi, (0 < m)%nat -> lo < hi ->
  mean_between (repeated m l) (repeat 1 (length (repeated m l))) (INR m * lo) (INR m * hi) =
  mean_between l (repeat 1 (length l)) lo hi.
Proof.
  intros m l lo hi Hm Hlh. assert (P : 0 < INR m) by (apply lt_0_INR; auto).
  unfold mean_between. rewrite repeated_length.
  replace (INR m * hi - INR m * lo) with (INR m * (hi - lo)) by ring.
  replace (sumn (m * length l) _) with
    (INR m * sumn (length l) (fun i => nth i l 0 *
       overlap (begins (repeat 1 (length l)) i) (begins (repeat 1 (length l)) (S i)) lo hi)).
  { field. lra. }
  rewrite (Nat.mul_comm m (length l)).
  assert (E : forall b f, sumn (b * m) f = sumn b (fun i => sumn m (fun j => f (m * i + j)%nat))).
  { intros b f. induction b as [|b IH]; auto. cbn [sumn]. rewrite <- IH.
    replace (S b * m)%nat with (b * m + m)%nat by lia. rewrite sumn_split. f_equal.
    apply sumn_ext. intros j _. f_equal. lia. }
  rewrite E, <- sumn_scal. apply sumn_ext. intros i Hi.
  rewrite (sumn_ext m _ (fun j => nth i l 0 * overlap (INR (m * i) + INR j) (INR (m * i) + INR (S j)) (INR m * lo) (INR m * hi))).
  2:{ intros j Hj. rewrite nth_repeated_each by auto. f_equal.
      rewrite !begins_ones by nia. rewrite <- !plus_INR. f_equal. f_equal. lia. }
  rewrite sumn_scal, overlap_pieces by (apply Rmult_le_compat_l; lra).
  rewrite !begins_ones by lia.
  replace (INR (m * i)) with (INR m * INR i) by (now rewrite mult_INR).
  replace (INR m * INR i + INR m) with (INR m * INR (S i)) by (rewrite S_INR; ring).
  rewrite overlap_scaled by auto. ring.
Qed.

Lemma spread_length : forall fuel q n p rest j Q, length (fst (spread fuel q n p rest j Q)) = length Q.
Proof.
  induction fuel; intros q n p rest j Q; simpl; auto.
  destruct (Rlt_dec _ _); auto. destruct (Nat.ltb _ _); auto. rewrite IHfuel. apply add_nth_length.
Qed.

Lemma quantiles_of_length : forall q scores weights, length (quantiles_of q scores weights) = q.
Proof.
  intros q scores weights. unfold quantiles_of.
  assert (H : forall pws Q c j, length (fst (fst (fold_left (quantile_step q (length scores)) pws (Q, c, j)))) = length Q).
  { induction pws as [|[p w] pws IH]; intros Q c j; [reflexivity|]. cbn [fold_left quantile_step].
    destruct (Rle_dec _ _); [rewrite IH; apply add_nth_length|].
    set (Q1 := add_nth j _ Q). set (r := c + w - cutpoint q (length scores) j).
    pose proof (spread_length q q (length scores) p r j Q1) as H1.
    destruct (spread q q (length scores) p r j Q1) as [Q2 j2]. rewrite IH. simpl in H1. rewrite H1.
    apply add_nth_length. }
  specialize (H (combine scores weights) (repeat 0 q) 0 O).
  destruct (fold_left _ _ _) as [[Q c] j]. simpl in H. unfold vdiv. rewrite map_length, H. apply repeat_length.
Qed.

Lemma test_quantiles_repeated : forall m l q, (0 < m)%nat -> (0 < q)%nat -> INR q < 10000 ->
  forall y c0 c1, compute_quantiles None (repeated m l) q y c0 c1 = compute_quantiles None l q y c0 c1.
Proof.
  intros m l q Hm Hq Hq' y c0 c1. destruct l as [|x l]; [reflexivity|].
  assert (P : 0 < INR m) by (apply lt_0_INR; auto). assert (Pq : 0 < INR q) by (apply lt_0_INR; auto).
  assert (Pl : 0 < INR (length (x :: l))) by (apply lt_0_INR; simpl; lia).
  apply (nth_ext _ _ 0 0); [unfold compute_quantiles; now rewrite !quantiles_of_length|].
  intros t Ht. unfold compute_quantiles in Ht. rewrite quantiles_of_length in Ht.
  rewrite !test_quantiles_values; auto; try discriminate.
  2:{ apply repeated_nil; auto. discriminate. }
  rewrite <- (mean_between_repeated m (x :: l)); auto.
  - f_equal; rewrite repeated_length, mult_INR; ring.
  - rewrite S_INR. apply Rmult_lt_compat_r; auto. unfold Rdiv. apply Rmult_lt_compat_r; [|lra].
    now apply Rinv_0_lt_compat.
Qed.

Lemma repeat_sorted : forall x k T, StronglySorted Rle T -> Forall (Rle x) T ->
  StronglySorted Rle (repeat x k ++ T) /\ Forall (Rle x) (repeat x k ++ T).
Proof.
  intros x k T S F. induction k as [|k [IS IF]]; simpl; auto. split; constructor; auto. lra.
Qed.

Lemma sorted_repeated : forall m l, StronglySorted Rle l -> StronglySorted Rle (repeated m l).
Proof.
  intros m l H. induction H as [|x l S IH F]; [constructor|].
  change (repeated m (x :: l)) with (repeat x m ++ repeated m l). apply repeat_sorted; auto.
  rewrite Forall_forall in *. intros v Hv. apply F. clear - Hv. unfold repeated in Hv. apply in_concat in Hv.
  destruct Hv as (r & Hr & Hv). apply in_map_iff in Hr. destruct Hr as (w & <- & Hw). apply repeat_spec in Hv. now subst.
Qed.

Lemma repeated_perm : forall {A} m (a b : list A), Permutation a b -> Permutation (repeated m a) (repeated m b).
Proof. intros A m a b H. unfold repeated. rewrite <- !flat_map_concat_map. now apply Permutation_flat_map. Qed.

Lemma QUANTy_same : forall argsort argsort' q distance tol s mixtures test test',
  sorts argsort pick -> sorts argsort' pick -> (0 < q)%nat -> INR q < 10000 -> same_proportions test test' ->
  QUANTy_predict argsort' q distance tol s mixtures test' = QUANTy_predict argsort q distance tol s mixtures test.
Proof.
  intros argsort argsort' q distance tol s mixtures test test' A A' Hq Hq' (j & k & Hj & Hk & HP).
  unfold QUANTy_predict.
  rewrite <- (test_quantiles_repeated k (pick test' (argsort' test'))), <- (test_quantiles_repeated j (pick test (argsort test))) by auto.
  replace (repeated k (pick test' (argsort' test'))) with (repeated j (pick test (argsort test))); auto.
  destruct (A test) as [P1 S1]. destruct (A' test') as [P2 S2].
  apply strongly_perm; try (apply sorted_repeated, ascending_strongly; auto).
  rewrite (repeated_perm j _ _ (pick_perm test _ P1)), (repeated_perm k _ _ (pick_perm test' _ P2)). auto.
Qed.
