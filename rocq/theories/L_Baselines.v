(** * Proofs about CC, PCC, AC, PAC, PWKQuantifier and DeBias. *)

From Coq Require Import Reals List ZArith Lia Lra Permutation Bool.
From Verif Require Import Num Spec L_Num M_Baselines.
Import ListNotations.
Open Scope R_scope.

(** ** CC and PCC *)

Lemma CC_frequencies : forall classes preds, NoDup classes -> preds <> [] ->
  exists p, CC_predict classes preds = Val p /\ length p = length classes /\
    (forall i, (i < length classes)%nat -> nth i p 0 = fraction (nth i classes 0%Z) preds) /\
    (distribution p <-> (forall x, In x preds -> In x classes)).
Proof.
  intros classes preds Hnd Hne.
  exists (map (fun c => INR (zcount c preds) / INR (length preds)) classes).
  assert (Hl : 0 < INR (length preds)) by (apply length_pos; auto).
  split; [|split; [|split]].
  - unfold CC_predict, class_frequencies. destruct preds; [congruence|auto].
  - apply map_length.
  - intros. rewrite (nth_map_R _ _ _ 0%Z); auto.
  - unfold distribution. rewrite rsum_map_div, sum_zcount by auto. split.
    + intros [_ Hs]. apply known_all. apply INR_eq.
      apply (Rmult_eq_compat_r (INR (length preds))) in Hs. unfold Rdiv in Hs.
      rewrite Rmult_assoc, Rinv_l in Hs by lra. lra.
    + intros. split.
      * apply Forall_forall. intros x Hx. apply in_map_iff in Hx. destruct Hx as [c [<- _]].
        apply Rmult_le_pos; [apply pos_INR|left; apply Rinv_0_lt_compat; auto].
      * rewrite (proj2 (known_all classes preds)) by auto. field. lra.
Qed.

Lemma PCC_valid : forall k preds, preds <> [] -> distributions k preds ->
  exists p, PCC_predict k preds = Val p /\ distribution_over k p /\
    (forall j, (j < k)%nat -> nth j p 0 = rsum (map (fun r => nth j r 0) preds) / INR (length preds)).
Proof.
  intros. exists (col_means k preds). split; [|split].
  - unfold PCC_predict, mean_rows. destruct preds; [congruence|auto].
  - apply distribution_over_col_means; auto.
  - intros. unfold col_means. rewrite (nth_map_R _ _ _ O) by (rewrite seq_length; auto).
    rewrite seq_nth by auto. unfold rmean, col. rewrite map_length. auto.
Qed.

(** ** Binary correction *)

Lemma map_clip_nonneg : forall l, Forall (fun x => 0 <= x) (map clip01 l).
Proof.
  intros. apply Forall_forall. intros x Hx. apply in_map_iff in Hx.
  destruct Hx as [y [<- _]]. apply clip01_range.
Qed.

Lemma clip_pair_distribution : forall p, let c := map clip01 [1 - p; p] in
  rsum c = 1 /\ distribution c.
Proof.
  intros. assert (rsum c = 1) by (unfold c; simpl; pose proof (clip01_compl p); lra).
  split; auto. split; auto. apply map_clip_nonneg.
Qed.

Definition informative (cm : list (option (list R))) : Prop :=
  exists r0 r1 t, cm = Some r0 :: Some r1 :: t /\ 1/1000 < Rabs (nth 1 r1 0 - nth 1 r0 0).

Lemma binary_adjust_informative : forall r0 r1 t p0,
  1/1000 < Rabs (nth 1 r1 0 - nth 1 r0 0) ->
  binary_adjust (Some r0 :: Some r1 :: t) p0 =
    map clip01 [1 - (nth 1 p0 0 - nth 1 r0 0) / (nth 1 r1 0 - nth 1 r0 0);
                (nth 1 p0 0 - nth 1 r0 0) / (nth 1 r1 0 - nth 1 r0 0)].
Proof.
  intros. unfold binary_adjust. destruct (Rlt_dec (1/1000) _); [|lra].
  match goal with |- context [1 - ?x] => set (p := x) end.
  destruct (clip_pair_distribution p) as [Hs _].
  destruct (Rlt_dec 0 _); [|lra]. rewrite Hs. apply vdiv_1.
Qed.

Lemma binary_adjust_uninformative : forall cm p0, ~ informative cm ->
  binary_adjust cm p0 = let c := map clip01 p0 in
    if Rlt_dec 0 (rsum c) then vdiv c (rsum c) else c.
Proof.
  intros. unfold binary_adjust.
  destruct cm as [|[r0|] [|[r1|] t]]; auto.
  destruct (Rlt_dec (1/1000) _); auto.
  exfalso. apply H. exists r0, r1, t. auto.
Qed.

Lemma informative_dec : forall cm, informative cm \/ ~ informative cm.
Proof.
  intros. destruct cm as [|[r0|] [|[r1|] t]];
    try (right; intros [a [b [c [H _]]]]; discriminate).
  destruct (Rlt_dec (1/1000) (Rabs (nth 1 r1 0 - nth 1 r0 0))).
  - left; exists r0, r1, t; auto.
  - right. intros [a [b [c [H H1]]]]. inversion H; subst. lra.
Qed.

Lemma binary_adjust_length : forall cm p0, length p0 = 2%nat -> length (binary_adjust cm p0) = 2%nat.
Proof.
  intros. destruct (informative_dec cm) as [[r0 [r1 [t [-> Hi]]]]|Hn].
  - rewrite binary_adjust_informative; auto.
  - rewrite binary_adjust_uninformative by auto. cbv zeta.
    destruct (Rlt_dec 0 _); [rewrite vdiv_length|]; rewrite map_length; auto.
Qed.

Lemma binary_adjust_valid : forall cm p0, length p0 = 2%nat ->
  Forall (fun x => 0 <= x <= 1) p0 -> 0 < rsum p0 ->
  distribution_over 2 (binary_adjust cm p0).
Proof.
  intros. split; [apply binary_adjust_length; auto|].
  destruct (informative_dec cm) as [[r0 [r1 [t [-> Hi]]]]|Hn].
  - rewrite binary_adjust_informative by auto. apply clip_pair_distribution.
  - rewrite binary_adjust_uninformative by auto. cbv zeta.
    assert (E : map clip01 p0 = p0).
    { rewrite <- (map_id p0) at 2. apply map_ext_in. intros. apply clip01_id.
      rewrite Forall_forall in H0; auto. }
    rewrite E. destruct (Rlt_dec 0 (rsum p0)); [|lra].
    apply vdiv_distribution; auto. eapply Forall_impl; [|apply H0]. simpl; intros; lra.
Qed.

(** Exactly when the (crisp) binary correction gives a distribution. *)
Lemma class_frequencies_val : forall classes preds p0,
  class_frequencies classes preds = Val p0 ->
  preds <> [] /\ p0 = map (fun c => fraction c preds) classes.
Proof.
  unfold class_frequencies. intros. destruct preds; [discriminate|].
  inversion H. split; [congruence|auto].
Qed.

Lemma fraction_range : forall c l, l <> [] -> 0 <= fraction c l <= 1.
Proof.
  intros. assert (0 < INR (length l)) by (apply length_pos; auto).
  unfold fraction. split.
  - apply Rmult_le_pos; [apply pos_INR|left; apply Rinv_0_lt_compat; auto].
  - apply (Rmult_le_reg_r (INR (length l))); auto.
    unfold Rdiv. rewrite Rmult_assoc, Rinv_l by lra. rewrite Rmult_1_r, Rmult_1_l.
    apply le_INR. unfold zcount. apply count_occ_bound.
Qed.

Lemma fraction_absent : forall c l, ~ In c l -> fraction c l = 0.
Proof.
  intros. unfold fraction.
  assert (zcount c l = O) by (unfold zcount; apply count_occ_not_In; auto).
  rewrite H0. simpl. unfold Rdiv. lra.
Qed.

Lemma fractions_sum : forall classes preds, NoDup classes ->
  rsum (map (fun c => fraction c preds) classes) = INR (known classes preds) / INR (length preds).
Proof.
  intros. unfold fraction. rewrite rsum_map_div, sum_zcount; auto.
Qed.

Lemma known_pos : forall classes preds, (exists x, In x preds /\ In x classes) ->
  (0 < known classes preds)%nat.
Proof.
  intros classes preds [x [H1 H2]]. unfold known.
  assert (In x (filter (fun x => if in_dec Z.eq_dec x classes then true else false) preds)).
  { apply filter_In. split; auto. destruct (in_dec Z.eq_dec x classes); auto. }
  destruct (filter _ preds); simpl in *; [tauto|lia].
Qed.

Lemma known_zero : forall classes preds, ~ (exists x, In x preds /\ In x classes) ->
  known classes preds = O.
Proof.
  intros. unfold known.
  destruct (filter _ preds) eqn:E; auto. exfalso. apply H. exists z.
  assert (In z (z :: l)) by (left; auto). rewrite <- E in H0. apply filter_In in H0.
  destruct H0. split; auto. destruct (in_dec Z.eq_dec z classes); auto; discriminate.
Qed.

Lemma fractions_sum_pos : forall classes preds, NoDup classes -> preds <> [] ->
  (exists x, In x preds /\ In x classes) -> 0 < rsum (map (fun c => fraction c preds) classes).
Proof.
  intros. rewrite fractions_sum by auto. apply Rdiv_lt_0_compat.
  apply INR_pos, known_pos; auto. apply length_pos; auto.
Qed.

Lemma crisp_binary_valid : forall classes cm preds, NoDup classes -> length classes = 2%nat ->
  preds <> [] -> (exists x, In x preds /\ In x classes) ->
  distribution_over 2 (binary_adjust cm (map (fun c => fraction c preds) classes)).
Proof.
  intros. apply binary_adjust_valid.
  - rewrite map_length; auto.
  - apply Forall_forall. intros x Hx. apply in_map_iff in Hx. destruct Hx as [c [<- _]].
    apply fraction_range; auto.
  - apply fractions_sum_pos; auto.
Qed.

Lemma AC_binary_valid : forall S dist classes cm preds, NoDup classes -> length classes = 2%nat ->
  (exists x, In x preds /\ In x classes) ->
  exists p, AC_predict S dist classes cm preds = Val p /\ distribution_over 2 p.
Proof.
  intros. assert (preds <> []) by (intro; subst; destruct H1 as [x [[] _]]).
  exists (binary_adjust cm (map (fun c => fraction c preds) classes)). split.
  - unfold AC_predict, class_frequencies. destruct preds; [congruence|].
    rewrite H0. reflexivity.
  - apply crisp_binary_valid; auto.
Qed.

Lemma PWKQ_binary_valid : forall S classes cm preds, NoDup classes -> length classes = 2%nat ->
  (exists x, In x preds /\ In x classes) ->
  exists p, PWKQ_predict S classes cm preds = Val p /\ distribution_over 2 p.
Proof.
  intros. assert (preds <> []) by (intro; subst; destruct H1 as [x [[] _]]).
  exists (binary_adjust cm (map (fun c => fraction c preds) classes)). split.
  - unfold PWKQ_predict, class_frequencies. destruct preds; [congruence|].
    rewrite H0. reflexivity.
  - apply crisp_binary_valid; auto.
Qed.

Lemma PAC_binary_valid : forall S dist classes cm preds, length classes = 2%nat ->
  preds <> [] -> distributions 2 preds ->
  exists p, PAC_predict S dist classes cm preds = Val p /\ distribution_over 2 p.
Proof.
  intros. exists (binary_adjust cm (col_means 2 preds)). split.
  - unfold PAC_predict, mean_rows. destruct preds; [congruence|]. rewrite H. reflexivity.
  - destruct (distribution_over_col_means 2 preds H0 H1) as [Hl Hd].
    apply binary_adjust_valid; auto.
    + apply Forall_forall. intros. eapply distribution_le_1; eauto.
    + destruct Hd as [_ ->]. lra.
Qed.

(** ** Multiclass correction *)

Lemma all_some_map : forall {A} (l : list A), all_some (map Some l) = Some l.
Proof. induction l; simpl; auto. rewrite IHl; auto. Qed.

Lemma all_some_inv : forall {A} (l : list (option A)) r, all_some l = Some r -> l = map Some r.
Proof.
  induction l; simpl; intros.
  - inversion H; auto.
  - destruct a; [|discriminate]. destruct (all_some l); [|discriminate].
    inversion H; subst. simpl. f_equal. auto.
Qed.

Definition pos_part (x : R) : R := if Rlt_dec x 0 then 0 else x.

Lemma pos_part_spec : forall x, 0 <= pos_part x /\ x <= pos_part x.
Proof. intros. unfold pos_part. destruct (Rlt_dec x 0); lra. Qed.

(** The entries of [M p0] sum to the sum of [p0] when the columns of [A] sum to one. *)
Lemma inverse_mass : forall n A M p0, inverse_of n A M ->
  (forall j, (j < n)%nat -> sumn n (fun i => A i j) = 1) ->
  sumn n (fun i => sumn n (fun j => M i j * p0 j)) = sumn n p0.
Proof.
  intros n A M p0 HI Hc.
  transitivity (sumn n (fun k => sumn n (fun i => A i k) * sumn n (fun j => M k j * p0 j))).
  - apply sumn_ext. intros. rewrite Hc by auto. lra.
  - rewrite (sumn_ext n _ (fun k => sumn n (fun i => sumn n (fun j => A i k * M k j * p0 j)))).
    2:{ intros k Hk. rewrite <- sumn_scal_r. apply sumn_ext. intros i Hi.
        rewrite <- sumn_scal. apply sumn_ext. intros. lra. }
    rewrite sumn_swap. apply sumn_ext. intros i Hi. rewrite sumn_swap.
    rewrite (sumn_ext n _ (fun j => delta i j * p0 j)).
    2:{ intros j Hj. rewrite sumn_scal_r. f_equal. apply HI; auto. }
    rewrite (sumn_single n i); auto.
    + unfold delta. rewrite Nat.eqb_refl. lra.
    + intros j Hj Hne. unfold delta. destruct (Nat.eqb_spec i j); [congruence|lra].
Qed.

Lemma sumn_list : forall n l, length l = n -> sumn n (fun i => nth i l 0) = rsum l.
Proof. intros. subst. apply sumn_nth. Qed.

Lemma multi_adjust_valid : forall S dist n rows p0 M,
  length rows = n -> Forall (fun r => length r = n /\ rsum r = 1) rows ->
  length p0 = n -> 0 < rsum p0 ->
  inv S n (fun i j => entry rows j i) = Some M ->
  inverse_of n (fun i j => entry rows j i) M ->
  exists p, multi_adjust S dist n (map Some rows) p0 = Val p /\ distribution_over n p.
Proof.
  intros S dist n rows p0 M Hr Hrows Hp Hpos Hinv HI.
  unfold multi_adjust. rewrite all_some_map, Hinv.
  set (v := map _ (matvec n M p0)).
  assert (Hlv : length v = n) by (unfold v, matvec; rewrite map_length, tabulate_length; auto).
  assert (Hv : Forall (fun x => 0 <= x) v).
  { apply Forall_forall. intros x Hx. apply in_map_iff in Hx. destruct Hx as [y [<- _]].
    apply (pos_part_spec y). }
  assert (Hs : 0 < rsum v).
  { apply Rlt_le_trans with (rsum (matvec n M p0)).
    - unfold matvec. rewrite rsum_tabulate, (inverse_mass n _ M (fun j => nth j p0 0) HI).
      + rewrite sumn_list; auto.
      + intros j Hj. rewrite Forall_forall in Hrows.
        destruct (Hrows (nth j rows [])) as [Hl H1]; [apply nth_In; lia|].
        unfold entry. rewrite sumn_list; auto.
    - rewrite <- (map_id (matvec n M p0)) at 1. unfold v. apply rsum_map_le.
      intros. apply (pos_part_spec x). }
  destruct (Req_EM_T (rsum v) 0); [lra|].
  exists (vdiv v (rsum v)). split; auto. split; [rewrite vdiv_length; auto|].
  apply vdiv_distribution; auto.
Qed.

(** Exact recovery. *)
Lemma multi_adjust_exact : forall S dist n rows pi M,
  length rows = n -> distribution_over n pi ->
  inv S n (fun i j => entry rows j i) = Some M ->
  inverse_of n (fun i j => entry rows j i) M ->
  multi_adjust S dist n (map Some rows)
    (tabulate n (fun j => sumn n (fun i => nth i pi 0 * entry rows i j))) = Val pi.
Proof.
  intros S dist n rows pi M Hr [Hl [Hnn Hs]] Hinv HI.
  unfold multi_adjust. rewrite all_some_map, Hinv.
  set (p0 := tabulate n (fun j => sumn n (fun i => nth i pi 0 * entry rows i j))).
  assert (E : matvec n M p0 = pi).
  { apply list_eq_nth. unfold matvec; rewrite tabulate_length; auto.
    unfold matvec at 1. rewrite tabulate_length. intros i Hi. unfold matvec.
    rewrite tabulate_nth by auto.
    rewrite (sumn_ext n _ (fun j => sumn n (fun k => nth k pi 0 * (M i j * entry rows k j)))).
    2:{ intros j Hj. unfold p0. rewrite tabulate_nth by auto. rewrite <- sumn_scal.
        apply sumn_ext. intros; lra. }
    rewrite sumn_swap.
    rewrite (sumn_ext n _ (fun k => nth k pi 0 * delta i k)).
    2:{ intros k Hk. rewrite sumn_scal. f_equal. apply (proj2 (HI i k Hi Hk)). }
    rewrite (sumn_single n i); auto.
    - unfold delta. rewrite Nat.eqb_refl; lra.
    - intros k Hk Hne. unfold delta. destruct (Nat.eqb_spec i k); [congruence|lra]. }
  rewrite E.
  assert (E2 : map (fun x => if Rlt_dec x 0 then 0 else x) pi = pi).
  { rewrite <- (map_id pi) at 2. apply map_ext_in. intros. rewrite Forall_forall in Hnn.
    specialize (Hnn a H). destruct (Rlt_dec a 0); lra. }
  rewrite E2, Hs. destruct (Req_EM_T 1 0); [lra|]. rewrite vdiv_1; auto.
Qed.

Lemma binary_adjust_exact : forall r0 r1 p,
  0 <= p <= 1 -> 1/1000 < Rabs (nth 1 r1 0 - nth 1 r0 0) ->
  forall p0, nth 1 p0 0 = (1 - p) * nth 1 r0 0 + p * nth 1 r1 0 ->
  binary_adjust [Some r0; Some r1] p0 = [1 - p; p].
Proof.
  intros. rewrite binary_adjust_informative by auto.
  assert (nth 1 r1 0 - nth 1 r0 0 <> 0).
  { intro E. rewrite E, Rabs_R0 in H0. lra. }
  replace ((nth 1 p0 0 - nth 1 r0 0) / (nth 1 r1 0 - nth 1 r0 0)) with p.
  - simpl. rewrite !clip01_id; auto; lra.
  - rewrite H1. field. auto.
Qed.

(** ** Structure of the fitted matrices *)

Lemma pair_count_select : forall c d y p, pair_count c d y p = zcount d (select c y p).
Proof.
  unfold pair_count, select. intros. induction (combine y p) as [|[a b] t IH]; auto.
  simpl. destruct (a =? c)%Z; simpl; auto.
  rewrite zcount_cons, <- IH. destruct (Z.eq_dec b d); destruct (Z.eqb_spec b d); simpl; try congruence; lia.
Qed.

Lemma select_in : forall {A} c y (p : list A) x, In x (select c y p) -> In x p.
Proof.
  intros. unfold select in H. apply in_map_iff in H. destruct H as [[a b] [<- H]].
  apply filter_In in H. destruct H. apply in_combine_r in H. auto.
Qed.

Lemma select_length : forall {A} c y (p : list A), length y = length p ->
  length (select c y p) = zcount c y.
Proof.
  induction y; simpl; intros; auto. destruct p; [discriminate|].
  unfold select in *; simpl. rewrite zcount_cons.
  destruct (Z.eqb_spec a c); destruct (Z.eq_dec a c); simpl; try congruence; rewrite IHy; auto.
Qed.

Lemma zcount_pos : forall c y, In c y -> (0 < zcount c y)%nat.
Proof. intros. unfold zcount. apply (count_occ_In Z.eq_dec). auto. Qed.

Lemma select_nonempty : forall {A} c y (p : list A), length y = length p -> In c y ->
  select c y p <> [].
Proof.
  intros. intro E. pose proof (select_length c y p H). rewrite E in H1. simpl in H1.
  pose proof (zcount_pos c y H0). lia.
Qed.

(** A row of the fitted confusion matrix of AC holds the rates. *)
Lemma confusion_row : forall classes y p c, NoDup classes -> length y = length p -> In c y ->
  (forall x, In x p -> In x classes) ->
  norm_row (map (fun d => INR (pair_count c d y p)) classes) =
  Some (map (fun d => rate c d y p) classes).
Proof.
  intros. unfold norm_row.
  assert (E : rsum (map (fun d => INR (pair_count c d y p)) classes) = INR (length (select c y p))).
  { rewrite (rsum_map_ext _ (fun d => INR (zcount d (select c y p))))
      by (intros; rewrite pair_count_select; auto).
    rewrite sum_zcount by auto. rewrite (proj2 (known_all classes (select c y p))); auto.
    intros. apply H2. eapply select_in; eauto. }
  rewrite E. pose proof (length_pos _ (select_nonempty c y p H0 H1)).
  destruct (Req_EM_T _ 0); [lra|]. f_equal. unfold vdiv. rewrite map_map.
  apply map_ext. intros. rewrite pair_count_select. reflexivity.
Qed.

Lemma predictions_of_length : forall {A} r (tr : list (Z * (nat -> A))),
  length (predictions_of r tr) = (r * length tr)%nat.
Proof.
  intros. unfold predictions_of.
  assert (forall l, length (concat (map (fun j => map (fun e : Z * (nat -> A) => snd e j) tr) l)) =
          (length l * length tr)%nat).
  { induction l; simpl; auto. rewrite app_length, map_length, IHl. lia. }
  rewrite H, seq_length. auto.
Qed.

Lemma concat_repeat_length : forall {A} (y : list A) r, length (concat (repeat y r)) = (r * length y)%nat.
Proof. induction r; simpl; auto. rewrite app_length, IHr. lia. Qed.

Lemma y_ext_predictions : forall {A} r (tr : list (Z * (nat -> A))),
  y_ext (labels_of tr) (length (predictions_of r tr)) = repeated_labels r tr.
Proof.
  intros. rewrite predictions_of_length. unfold y_ext, repeated_labels, labels_of.
  rewrite map_length. destruct (Nat.eqb_spec (length tr) (r * length tr)).
  - destruct tr; simpl in *.
    + assert (forall n, concat (repeat (@nil Z) n) = []) by (induction n; simpl; auto).
      rewrite H; auto.
    + assert (r = 1%nat) by nia. subst. simpl. rewrite app_nil_r. auto.
  - destruct tr; [simpl in *; lia|]. rewrite Nat.div_mul by (simpl; lia). auto.
Qed.

Lemma repeated_labels_length : forall {A} r (tr : list (Z * (nat -> A))),
  length (repeated_labels r tr) = length (predictions_of r tr).
Proof.
  intros. unfold repeated_labels, labels_of.
  rewrite concat_repeat_length, predictions_of_length, map_length. auto.
Qed.

Lemma in_repeated_labels : forall {A} r (tr : list (Z * (nat -> A))) c, (0 < r)%nat ->
  In c (labels_of tr) -> In c (repeated_labels r tr).
Proof.
  intros. unfold repeated_labels. destruct r; [lia|]. simpl. apply in_app_iff; auto.
Qed.

Lemma combine_app : forall {A B} (a a' : list A) (b b' : list B), length a = length b ->
  combine (a ++ a') (b ++ b') = combine a b ++ combine a' b'.
Proof.
  induction a; simpl; intros; destruct b; try discriminate; auto. simpl. f_equal. apply IHa; auto.
Qed.

Lemma combine_repeated : forall {A} r (tr : list (Z * (nat -> A))),
  combine (repeated_labels r tr) (predictions_of r tr) =
  concat (map (fun j => map (fun e => (fst e, snd e j)) tr) (seq 0 r)).
Proof.
  intros. unfold repeated_labels, predictions_of.
  assert (forall l, combine (concat (repeat (labels_of tr) (length l)))
            (concat (map (fun j => map (fun e => snd e j) tr) l)) =
          concat (map (fun j => map (fun e : Z * (nat -> A) => (fst e, snd e j)) tr) l)).
  { induction l; simpl; auto.
    rewrite combine_app by (unfold labels_of; rewrite !map_length; auto).
    rewrite IHl. f_equal. unfold labels_of. clear.
    induction tr; simpl; congruence. }
  rewrite <- H. rewrite seq_length. auto.
Qed.

Lemma combine_repeated_perm : forall {A} r (tr tr' : list (Z * (nat -> A))), Permutation tr tr' ->
  Permutation (combine (repeated_labels r tr) (predictions_of r tr))
              (combine (repeated_labels r tr') (predictions_of r tr')).
Proof.
  intros. rewrite !combine_repeated. induction (seq 0 r); simpl; auto.
  apply Permutation_app; auto. apply Permutation_map; auto.
Qed.

Lemma filter_perm : forall {A} (f : A -> bool) a b, Permutation a b ->
  Permutation (filter f a) (filter f b).
Proof.
  induction 1; simpl; auto.
  - destruct (f x); auto.
  - destruct (f x); destruct (f y); auto. constructor.
  - eapply perm_trans; eauto.
Qed.

(** ** Fit: training-order invariance *)

Lemma AC_fit_perm : forall r (tr tr' : list (Z * (nat -> Z))), Permutation tr tr' ->
  AC_fit (labels_of tr) (predictions_of r tr) = AC_fit (labels_of tr') (predictions_of r tr').
Proof.
  intros. unfold AC_fit. rewrite !y_ext_predictions, !repeated_labels_length, !Nat.eqb_refl.
  f_equal. f_equal. unfold confusion.
  assert (E : np_unique (labels_of tr) = np_unique (labels_of tr')).
  { apply np_unique_perm. unfold labels_of. apply Permutation_map; auto. }
  rewrite E. apply map_ext. intros c. apply map_ext. intros d. f_equal.
  unfold pair_count. apply Permutation_length, filter_perm, combine_repeated_perm; auto.
Qed.

Lemma select_repeated_perm : forall {A} r c (tr tr' : list (Z * (nat -> A))), Permutation tr tr' ->
  Permutation (select c (repeated_labels r tr) (predictions_of r tr))
              (select c (repeated_labels r tr') (predictions_of r tr')).
Proof.
  intros. unfold select. apply Permutation_map, filter_perm, combine_repeated_perm; auto.
Qed.

Lemma PAC_fit_perm : forall r (tr tr' : list (Z * (nat -> list R))), Permutation tr tr' ->
  PAC_fit (labels_of tr) (predictions_of r tr) = PAC_fit (labels_of tr') (predictions_of r tr').
Proof.
  intros. unfold PAC_fit. rewrite !y_ext_predictions, !repeated_labels_length, !Nat.eqb_refl.
  f_equal.
  assert (E : np_unique (labels_of tr) = np_unique (labels_of tr')).
  { apply np_unique_perm. unfold labels_of. apply Permutation_map; auto. }
  rewrite E. apply map_ext. intros c. unfold class_mean.
  pose proof (select_repeated_perm r c tr tr' H).
  destruct (select c (repeated_labels r tr) _) eqn:E1;
  destruct (select c (repeated_labels r tr') _) eqn:E2; auto.
  - apply Permutation_nil in H0. discriminate.
  - apply Permutation_sym, Permutation_nil in H0. discriminate.
  - f_equal. apply col_means_perm; auto.
Qed.

Lemma predictions_of_perm : forall {A} r (tr tr' : list (Z * (nat -> A))), Permutation tr tr' ->
  Permutation (predictions_of r tr) (predictions_of r tr').
Proof.
  intros. unfold predictions_of. induction (seq 0 r); simpl; auto.
  apply Permutation_app; auto. apply Permutation_map; auto.
Qed.

Lemma DeBias_fit_perm : forall r (tr tr' : list (Z * (nat -> list R))), Permutation tr tr' ->
  DeBias_fit (labels_of tr) (predictions_of r tr) = DeBias_fit (labels_of tr') (predictions_of r tr').
Proof.
  intros. unfold DeBias_fit.
  assert (P : Permutation (labels_of tr) (labels_of tr')) by (unfold labels_of; apply Permutation_map; auto).
  rewrite (np_unique_perm _ _ P).
  destruct (np_unique (labels_of tr')) as [|c0 [|c1 [|]]]; auto.
  rewrite (zcount_perm c0 _ _ P), (zcount_perm c1 _ _ P), (Permutation_length P).
  pose proof (predictions_of_perm r tr tr' H) as Q.
  destruct (predictions_of r tr) eqn:E1; destruct (predictions_of r tr') eqn:E2; auto.
  - apply Permutation_nil in Q; discriminate.
  - apply Permutation_sym, Permutation_nil in Q; discriminate.
  - rewrite (rmean_perm _ _ (Permutation_map _ Q)). auto.
Qed.

(** ** Predict: order and replication invariance *)

Lemma class_frequencies_perm : forall classes a b, Permutation a b ->
  class_frequencies classes a = class_frequencies classes b.
Proof.
  intros. unfold class_frequencies.
  destruct a; destruct b; auto.
  - apply Permutation_nil in H; discriminate.
  - apply Permutation_sym, Permutation_nil in H; discriminate.
  - f_equal. apply map_ext. intros.
    rewrite (zcount_perm _ _ _ H), (Permutation_length H). auto.
Qed.

Lemma mean_rows_perm : forall k a b, Permutation a b -> mean_rows k a = mean_rows k b.
Proof.
  intros. unfold mean_rows. destruct a; destruct b; auto.
  - apply Permutation_nil in H; discriminate.
  - apply Permutation_sym, Permutation_nil in H; discriminate.
  - f_equal. apply col_means_perm; auto.
Qed.

Lemma class_frequencies_repeated : forall classes k a, (0 < k)%nat ->
  class_frequencies classes (repeated k a) = class_frequencies classes a.
Proof.
  intros. destruct a; [reflexivity|].
  assert (z :: a <> []) by congruence.
  pose proof (repeated_nil k (z :: a) H H0).
  unfold class_frequencies. destruct (repeated k (z :: a)) eqn:E; [congruence|].
  rewrite <- E. f_equal. apply map_ext. intros. apply (fraction_repeated a0 k (z :: a)); auto.
Qed.

Lemma mean_rows_repeated : forall m k a, (0 < k)%nat -> mean_rows m (repeated k a) = mean_rows m a.
Proof.
  intros. destruct a; [reflexivity|].
  assert (l :: a <> []) by congruence.
  pose proof (repeated_nil k (l :: a) H H0).
  unfold mean_rows. destruct (repeated k (l :: a)) eqn:E; [congruence|].
  rewrite <- E. f_equal. apply col_means_repeated; auto.
Qed.

Lemma AC_predict_perm : forall S d classes cm a b, Permutation a b ->
  AC_predict S d classes cm a = AC_predict S d classes cm b.
Proof. intros. unfold AC_predict. rewrite (class_frequencies_perm _ _ _ H). auto. Qed.

Lemma PWKQ_predict_perm : forall S classes cm a b, Permutation a b ->
  PWKQ_predict S classes cm a = PWKQ_predict S classes cm b.
Proof. intros. unfold PWKQ_predict. rewrite (class_frequencies_perm _ _ _ H). auto. Qed.

Lemma PAC_predict_perm : forall S d classes cm a b, Permutation a b ->
  PAC_predict S d classes cm a = PAC_predict S d classes cm b.
Proof. intros. unfold PAC_predict. rewrite (mean_rows_perm _ _ _ H). auto. Qed.

Lemma AC_predict_repeated : forall S d classes cm k a, (0 < k)%nat ->
  AC_predict S d classes cm (repeated k a) = AC_predict S d classes cm a.
Proof. intros. unfold AC_predict. rewrite class_frequencies_repeated; auto. Qed.

Lemma PWKQ_predict_repeated : forall S classes cm k a, (0 < k)%nat ->
  PWKQ_predict S classes cm (repeated k a) = PWKQ_predict S classes cm a.
Proof. intros. unfold PWKQ_predict. rewrite class_frequencies_repeated; auto. Qed.

Lemma PAC_predict_repeated : forall S d classes cm k a, (0 < k)%nat ->
  PAC_predict S d classes cm (repeated k a) = PAC_predict S d classes cm a.
Proof. intros. unfold PAC_predict. rewrite mean_rows_repeated; auto. Qed.

Lemma DeBias_predict_mean : forall s a b, a <> [] -> b <> [] ->
  rmean (col 1 a) = rmean (col 1 b) -> DeBias_predict s a = DeBias_predict s b.
Proof. intros. unfold DeBias_predict. destruct a; [congruence|]. destruct b; [congruence|]. rewrite H1. auto. Qed.

Lemma DeBias_predict_perm : forall s a b, Permutation a b -> DeBias_predict s a = DeBias_predict s b.
Proof.
  intros. destruct a; destruct b; auto.
  - apply Permutation_nil in H; discriminate.
  - apply Permutation_sym, Permutation_nil in H; discriminate.
  - apply DeBias_predict_mean; try congruence. apply rmean_perm, Permutation_map; auto.
Qed.

Lemma DeBias_predict_repeated : forall s k a, (0 < k)%nat ->
  DeBias_predict s (repeated k a) = DeBias_predict s a.
Proof.
  intros. destruct a; [reflexivity|]. apply DeBias_predict_mean; try congruence.
  - apply repeated_nil; auto; congruence.
  - unfold col. rewrite map_repeated. apply rmean_repeated; auto. simpl; congruence.
Qed.

(** ** Mixtures: the frequencies of a labelled bag *)

Lemma rsum_select_partition : forall {A} (f : A -> R) classes y (p : list A),
  NoDup classes -> length y = length p -> (forall x, In x y -> In x classes) ->
  rsum (map f p) = rsum (map (fun c => rsum (map f (select c y p))) classes).
Proof.
  induction y; simpl; intros.
  - destruct p; [|discriminate]. simpl. rewrite rsum_map_const. lra.
  - destruct p; [discriminate|]. simpl map at 1. simpl rsum at 1.
    rewrite (IHy p); auto.
    rewrite (rsum_map_ext (fun c => rsum (map f (select c (a :: y) (a0 :: p))))
       (fun c => f a0 * (if Z.eq_dec a c then 1 else 0) + rsum (map f (select c y p)))).
    + rewrite rsum_map_plus, rsum_map_scal, sum_indicator by auto.
      destruct (in_dec Z.eq_dec a classes); [lra|]. exfalso. apply n. auto.
    + intros c _. unfold select. simpl. destruct (Z.eqb_spec a c); destruct (Z.eq_dec a c);
        try congruence; simpl; lra.
Qed.

Lemma zcount_as_sum : forall c l, INR (zcount c l) = rsum (map (fun x => if Z.eq_dec x c then 1 else 0) l).
Proof.
  induction l; simpl rsum; [reflexivity|]. rewrite zcount_cons, plus_INR, IHl.
  simpl. destruct (Z.eq_dec a c); simpl; lra.
Qed.

(** Law of total probability for predicted labels. *)
Lemma fraction_mixture : forall classes y p d, NoDup classes -> length y = length p -> p <> [] ->
  (forall x, In x y -> In x classes) ->
  fraction d p = rsum (map (fun c => fraction c y * rate c d y p) classes).
Proof.
  intros. unfold fraction at 1. rewrite zcount_as_sum.
  rewrite (rsum_select_partition _ classes y p) by auto.
  rewrite <- rsum_map_div. apply rsum_map_ext. intros c _.
  rewrite <- zcount_as_sum. unfold rate, fraction. rewrite select_length by auto.
  pose proof (length_pos p H1). rewrite H0.
  destruct (Nat.eq_dec (zcount c y) 0) as [E|E].
  - rewrite E. simpl INR.
    assert (select c y p = []).
    { pose proof (select_length c y p H0). destruct (select c y p); auto. simpl in H4. lia. }
    rewrite H4. unfold zcount; simpl. unfold Rdiv. lra.
  - assert (0 < INR (zcount c y)) by (apply INR_pos; lia). field. lra.
Qed.

Lemma mean_mixture : forall classes y (p : list (list R)) j, NoDup classes -> length y = length p -> p <> [] ->
  (forall x, In x y -> In x classes) ->
  rmean (col j p) = rsum (map (fun c => fraction c y * rmean (col j (select c y p))) classes).
Proof.
  intros. unfold rmean at 1, col at 1. rewrite (rsum_select_partition _ classes y p) by auto.
  rewrite <- rsum_map_div. apply rsum_map_ext. intros c _.
  unfold rmean, fraction, col. rewrite !map_length, select_length by auto.
  pose proof (length_pos p H1). rewrite H0.
  destruct (Nat.eq_dec (zcount c y) 0) as [E|E].
  - assert (select c y p = []).
    { pose proof (select_length c y p H0). destruct (select c y p); auto. simpl in H4. lia. }
    rewrite H4, E. simpl. unfold Rdiv. lra.
  - assert (0 < INR (zcount c y)) by (apply INR_pos; lia). unfold col. field. lra.
Qed.

(** ** Exact recovery, user level *)

Lemma fit_AC_rates : forall r (tr : list (Z * (nat -> Z))), (0 < r)%nat ->
  let classes := np_unique (labels_of tr) in
  (forall x, In x (predictions_of r tr) -> In x classes) ->
  AC_fit (labels_of tr) (predictions_of r tr) =
  Val (map Some (map (fun c => map (fun d => rate c d (repeated_labels r tr) (predictions_of r tr)) classes) classes)).
Proof.
  intros. unfold AC_fit. rewrite y_ext_predictions, repeated_labels_length, Nat.eqb_refl.
  f_equal. unfold confusion. rewrite !map_map. apply map_ext_in. intros c Hc.
  apply confusion_row; auto.
  - apply np_unique_NoDup.
  - apply repeated_labels_length.
  - apply in_repeated_labels; auto. apply np_unique_in. auto.
Qed.

Lemma fit_PAC_means : forall r (tr : list (Z * (nat -> list R))), (0 < r)%nat ->
  let classes := np_unique (labels_of tr) in
  PAC_fit (labels_of tr) (predictions_of r tr) =
  Val (map Some (map (fun c => col_means (length classes)
        (select c (repeated_labels r tr) (predictions_of r tr))) classes)).
Proof.
  intros. unfold PAC_fit. rewrite y_ext_predictions, repeated_labels_length, Nat.eqb_refl.
  f_equal. rewrite map_map. apply map_ext_in. intros c Hc. unfold class_mean.
  pose proof (select_nonempty c (repeated_labels r tr) (predictions_of r tr)
    (repeated_labels_length r tr)
    (in_repeated_labels r tr c H (proj1 (np_unique_in _ _) Hc))).
  destruct (select c _ _); [congruence|auto].
Qed.

Lemma entry_map_map : forall {A B} (f : A -> B -> R) la lb i j da db,
  (i < length la)%nat -> (j < length lb)%nat ->
  entry (map (fun a => map (f a) lb) la) i j = f (nth i la da) (nth j lb db).
Proof.
  intros. unfold entry.
  rewrite (nth_indep _ [] (map (f da) lb)) by (rewrite map_length; auto).
  rewrite (map_nth (fun a => map (f a) lb)).
  rewrite (nth_map_R _ _ _ db); auto.
Qed.

Lemma rsum_map_sumn : forall {A} (f : A -> R) l d, rsum (map f l) = sumn (length l) (fun i => f (nth i l d)).
Proof.
  intros. rewrite <- (map_length f l), <- (sumn_nth (map f l)).
  apply sumn_ext. intros. rewrite map_length in H. apply nth_map_R; auto.
Qed.

Definition oracle_inverts (S : solvers) : Prop :=
  forall n A M, inv S n A = Some M -> inverse_of n A M.

Lemma fractions_distribution : forall classes y, NoDup classes -> y <> [] ->
  (forall x, In x y -> In x classes) ->
  distribution_over (length classes) (map (fun c => fraction c y) classes).
Proof.
  intros. split; [apply map_length|]. split.
  - apply Forall_forall. intros x Hx. apply in_map_iff in Hx. destruct Hx as [c [<- _]].
    apply fraction_range; auto.
  - rewrite fractions_sum by auto. rewrite (proj2 (known_all classes y)) by auto.
    pose proof (length_pos y H0). field; lra.
Qed.

(** Common core: a matrix of class-conditional rows and a bag whose observed row is the mixture. *)
Lemma adjust_recovers : forall S dist (classes : list Z) (f : Z -> nat -> R) y p0,
  oracle_inverts S -> NoDup classes -> y <> [] -> (forall x, In x y -> In x classes) ->
  let n := length classes in
  let rows := map (fun c => map (f c) (seq 0 n)) classes in
  length p0 = n ->
  (forall j, (j < n)%nat -> nth j p0 0 = rsum (map (fun c => fraction c y * f c j) classes)) ->
  (n = 2%nat -> 1/1000 < Rabs (f (nth 1 classes 0%Z) 1%nat - f (nth 0 classes 0%Z) 1%nat)) ->
  (n <> 2%nat -> inv S n (fun i j => entry rows j i) <> None) ->
  (if Nat.eqb n 2 then Val (binary_adjust (map Some rows) p0)
   else multi_adjust S dist n (map Some rows) p0) = Val (map (fun c => fraction c y) classes).
Proof.
  intros S dist classes f y p0 HO Hnd Hy Hk n rows Hp Hmix H2 Hn.
  pose proof (fractions_distribution classes y Hnd Hy Hk) as HD.
  destruct (Nat.eqb_spec n 2) as [E|E].
  - specialize (H2 E). clear Hn. f_equal.
    unfold n in *. destruct classes as [|c0 [|c1 [|]]]; try discriminate. subst rows. simpl in *.
    destruct HD as [_ [Hnn Hs]]. simpl in Hs. inversion Hnn; subst. inversion H3; subst.
    rewrite (binary_adjust_exact _ _ (fraction c1 y)).
    + replace (1 - fraction c1 y) with (fraction c0 y) by lra. reflexivity.
    + lra.
    + simpl. auto.
    + simpl. rewrite (Hmix 1%nat) by lia. simpl.
      replace (1 - fraction c1 y) with (fraction c0 y) by lra. ring.
  - specialize (Hn E). destruct (inv S n (fun i j => entry rows j i)) as [M|] eqn:HI; [|congruence].
    replace p0 with (tabulate n (fun j => sumn n (fun i => nth i (map (fun c => fraction c y) classes) 0 * entry rows i j))).
    + apply multi_adjust_exact with (M := M); auto.
      unfold rows. apply map_length.
    + apply list_eq_nth; rewrite tabulate_length; auto.
      intros j Hj. rewrite tabulate_nth, Hmix by auto.
      rewrite (rsum_map_sumn _ classes 0%Z). apply sumn_ext. intros i Hi.
      unfold rows. rewrite (entry_map_map f classes (seq 0 n) i j 0%Z O) by (try rewrite seq_length; auto).
      rewrite seq_nth by auto. rewrite (nth_map_R _ _ _ 0%Z) by auto. reflexivity.
Qed.

Lemma seq_nth_map : forall (l : list Z), map (fun j => nth j l 0%Z) (seq 0 (length l)) = l.
Proof.
  intros. apply (nth_ext _ _ 0%Z 0%Z). rewrite map_length, seq_length; auto.
  intros i Hi. rewrite map_length, seq_length in Hi.
  rewrite (nth_indep _ 0%Z (nth 0 l 0%Z)) by (rewrite map_length, seq_length; auto).
  rewrite (map_nth (fun j => nth j l 0%Z) (seq 0 (length l)) O), seq_nth; auto.
Qed.

Lemma AC_recovers : forall S dist r (tr : list (Z * (nat -> Z))) cm ytest ptest,
  oracle_inverts S -> (0 < r)%nat ->
  let classes := np_unique (labels_of tr) in
  let trained := fun c d => rate c d (repeated_labels r tr) (predictions_of r tr) in
  (forall x, In x (predictions_of r tr) -> In x classes) ->
  AC_fit (labels_of tr) (predictions_of r tr) = Val cm ->
  length ytest = length ptest -> ytest <> [] -> (forall x, In x ytest -> In x classes) ->
  (forall c d, In c ytest -> In d classes -> rate c d ytest ptest = trained c d) ->
  (forall c0 c1, classes = [c0; c1] -> 1/1000 < Rabs (trained c1 c1 - trained c0 c1)) ->
  (length classes <> 2%nat -> forall A,
     (forall i j, (i < length classes)%nat -> (j < length classes)%nat ->
        A i j = trained (nth j classes 0%Z) (nth i classes 0%Z)) -> inv S (length classes) A <> None) ->
  AC_predict S dist classes cm ptest = Val (map (fun c => fraction c ytest) classes).
Proof.
  intros S dist r tr cm ytest ptest HO Hr classes trained Hkp Hfit Hlen Hne Hky Hrate H2 Hn.
  rewrite (fit_AC_rates r tr Hr) in Hfit by auto. inversion Hfit as [Hcm]. clear Hfit.
  assert (Hpne : ptest <> []) by (intro; subst; destruct ytest; [congruence|discriminate]).
  unfold AC_predict, class_frequencies. destruct ptest as [|x0 t0] eqn:Ep; [congruence|]. rewrite <- Ep in *.
  cbn [obind]. fold classes.
  pose proof (np_unique_NoDup (labels_of tr)) as Hnd. fold classes in Hnd.
  set (f := fun c j => trained c (nth j classes 0%Z)).
  assert (Erows : map (fun c => map (fun d => trained c d) classes) classes =
                  map (fun c => map (f c) (seq 0 (length classes))) classes).
  { apply map_ext. intros c. unfold f. rewrite <- (seq_nth_map classes) at 1. rewrite map_map. auto. }
  change (map (fun c => map (fun d => rate c d (repeated_labels r tr) (predictions_of r tr)) classes) classes)
    with (map (fun c => map (fun d => trained c d) classes) classes).
  rewrite Erows.
  apply adjust_recovers; auto.
  - apply map_length.
  - intros j Hj. rewrite (nth_map_R _ _ _ 0%Z) by auto.
    change (INR (zcount (nth j classes 0%Z) ptest) / INR (length ptest)) with (fraction (nth j classes 0%Z) ptest).
    rewrite (fraction_mixture classes ytest ptest) by auto.
    apply rsum_map_ext. intros c Hc. unfold f.
    destruct (in_dec Z.eq_dec c ytest).
    + rewrite Hrate; auto. apply nth_In; auto.
    + rewrite fraction_absent by auto. lra.
  - intros E. destruct classes as [|c0 [|c1 [|]]] eqn:EC; try discriminate.
    unfold f. cbn [nth]. apply H2; auto.
  - intros E. apply Hn; auto. intros i j Hi Hj.
    rewrite (entry_map_map f classes (seq 0 (length classes)) j i 0%Z O) by (try rewrite seq_length; auto).
    rewrite seq_nth by auto. reflexivity.
Qed.

Lemma PAC_recovers : forall S dist r (tr : list (Z * (nat -> list R))) cm ytest ptest,
  oracle_inverts S -> (0 < r)%nat ->
  let classes := np_unique (labels_of tr) in
  let n := length classes in
  let trained := fun c j => rmean (col j (select c (repeated_labels r tr) (predictions_of r tr))) in
  PAC_fit (labels_of tr) (predictions_of r tr) = Val cm ->
  length ytest = length ptest -> ytest <> [] -> (forall x, In x ytest -> In x classes) ->
  (forall c j, In c ytest -> (j < n)%nat -> rmean (col j (select c ytest ptest)) = trained c j) ->
  (forall c0 c1, classes = [c0; c1] -> 1/1000 < Rabs (trained c1 1%nat - trained c0 1%nat)) ->
  (n <> 2%nat -> forall A,
     (forall i j, (i < n)%nat -> (j < n)%nat -> A i j = trained (nth j classes 0%Z) i) -> inv S n A <> None) ->
  PAC_predict S dist classes cm ptest = Val (map (fun c => fraction c ytest) classes).
Proof.
  intros S dist r tr cm ytest ptest HO Hr classes n trained Hfit Hlen Hne Hky Hrate H2 Hn.
  rewrite (fit_PAC_means r tr Hr) in Hfit by auto. inversion Hfit as [Hcm]. clear Hfit.
  assert (Hpne : ptest <> []) by (intro; subst; destruct ytest; [congruence|discriminate]).
  unfold PAC_predict, mean_rows. destruct ptest as [|x0 t0] eqn:Ep; [congruence|]. rewrite <- Ep in *.
  cbn [obind]. fold classes.
  pose proof (np_unique_NoDup (labels_of tr)) as Hnd. fold classes in Hnd.
  change (map (fun c => col_means (length classes) (select c (repeated_labels r tr) (predictions_of r tr))) classes)
    with (map (fun c => map (trained c) (seq 0 n)) classes).
  apply adjust_recovers; auto.
  - apply col_means_length.
  - intros j Hj. unfold col_means. rewrite (nth_map_R _ _ _ O) by (rewrite seq_length; auto).
    rewrite seq_nth by auto. cbn [Nat.add].
    rewrite (mean_mixture classes ytest ptest) by auto.
    apply rsum_map_ext. intros c Hc.
    destruct (in_dec Z.eq_dec c ytest).
    + rewrite Hrate; auto.
    + rewrite fraction_absent by auto. lra.
  - intros E. fold n in H2. unfold n in E. destruct classes as [|c0 [|c1 [|]]] eqn:EC; try discriminate.
    cbn [nth]. apply H2; auto.
  - intros E. apply Hn; auto. intros i j Hi Hj.
    unfold n in *; rewrite (entry_map_map trained classes (seq 0 (length classes)) j i 0%Z O) by (try rewrite seq_length; auto).
    rewrite seq_nth by auto. reflexivity.
Qed.

(** ** Multiclass validity, user level *)

Lemma rates_sum : forall classes y p c, NoDup classes -> length y = length p -> In c y ->
  (forall x, In x p -> In x classes) -> rsum (map (fun d => rate c d y p) classes) = 1.
Proof.
  intros. unfold rate. rewrite fractions_sum by auto.
  rewrite (proj2 (known_all classes (select c y p))).
  - pose proof (length_pos _ (select_nonempty c y p H0 H1)). field. lra.
  - intros. apply H2. eapply select_in; eauto.
Qed.

Lemma AC_multi_valid : forall S dist r (tr : list (Z * (nat -> Z))) cm ptest,
  oracle_inverts S -> (0 < r)%nat ->
  let classes := np_unique (labels_of tr) in
  let n := length classes in
  (forall x, In x (predictions_of r tr) -> In x classes) ->
  AC_fit (labels_of tr) (predictions_of r tr) = Val cm ->
  n <> 2%nat ->
  (exists x, In x ptest /\ In x classes) ->
  (forall A, (forall i j, (i < n)%nat -> (j < n)%nat ->
        A i j = rate (nth j classes 0%Z) (nth i classes 0%Z) (repeated_labels r tr) (predictions_of r tr)) ->
     inv S n A <> None) ->
  exists p, AC_predict S dist classes cm ptest = Val p /\ distribution_over n p.
Proof.
  intros S dist r tr cm ptest HO Hr classes n Hkp Hfit Hn Hex Hinv.
  rewrite (fit_AC_rates r tr Hr) in Hfit by auto. inversion Hfit as [Hcm]. clear Hfit. fold classes.
  assert (ptest <> []) by (intro; subst; destruct Hex as [x [[] _]]).
  unfold AC_predict, class_frequencies. destruct ptest as [|x0 t0] eqn:Ep; [congruence|]. rewrite <- Ep in *.
  cbn [obind]. fold n. destruct (Nat.eqb_spec n 2); [congruence|].
  pose proof (np_unique_NoDup (labels_of tr)) as Hnd. fold classes in Hnd.
  set (rows := map (fun c => map (fun d => rate c d (repeated_labels r tr) (predictions_of r tr)) classes) classes).
  destruct (inv S n (fun i j => entry rows j i)) as [M|] eqn:HI.
  - apply multi_adjust_valid with (M := M); auto.
    + unfold rows. apply map_length.
    + apply Forall_forall. intros row Hrow. unfold rows in Hrow. apply in_map_iff in Hrow.
      destruct Hrow as [c [<- Hc]]. split; [apply map_length|].
      apply rates_sum; auto. apply repeated_labels_length.
      apply in_repeated_labels; auto. apply np_unique_in; auto.
    + apply map_length.
    + apply (fractions_sum_pos classes ptest); auto.
  - exfalso. eapply Hinv; [|exact HI]. intros i j Hi Hj. unfold rows.
    apply (entry_map_map (fun c d => rate c d (repeated_labels r tr) (predictions_of r tr))
             classes classes j i 0%Z 0%Z); auto.
Qed.

Lemma PAC_multi_valid : forall S dist r (tr : list (Z * (nat -> list R))) cm ptest,
  oracle_inverts S -> (0 < r)%nat ->
  let classes := np_unique (labels_of tr) in
  let n := length classes in
  distributions n (predictions_of r tr) ->
  PAC_fit (labels_of tr) (predictions_of r tr) = Val cm ->
  n <> 2%nat ->
  ptest <> [] -> distributions n ptest ->
  (forall A, (forall i j, (i < n)%nat -> (j < n)%nat ->
        A i j = rmean (col i (select (nth j classes 0%Z) (repeated_labels r tr) (predictions_of r tr)))) ->
     inv S n A <> None) ->
  exists p, PAC_predict S dist classes cm ptest = Val p /\ distribution_over n p.
Proof.
  intros S dist r tr cm ptest HO Hr classes n Hd Hfit Hn Hne Hdt Hinv.
  rewrite (fit_PAC_means r tr Hr) in Hfit by auto. inversion Hfit as [Hcm]. clear Hfit. fold classes.
  unfold PAC_predict, mean_rows. destruct ptest as [|x0 t0] eqn:Ep; [congruence|]. rewrite <- Ep in *.
  cbn [obind]. fold n. destruct (Nat.eqb_spec n 2); [congruence|].
  set (rows := map (fun c => col_means n (select c (repeated_labels r tr) (predictions_of r tr))) classes).
  destruct (distribution_over_col_means n ptest Hne Hdt) as [Hl [_ Hs]].
  destruct (inv S n (fun i j => entry rows j i)) as [M|] eqn:HI.
  - apply multi_adjust_valid with (M := M); auto; [| |lra].
    + unfold rows. apply map_length.
    + apply Forall_forall. intros row Hrow. unfold rows in Hrow. apply in_map_iff in Hrow.
      destruct Hrow as [c [<- Hc]].
      destruct (distribution_over_col_means n (select c (repeated_labels r tr) (predictions_of r tr))) as [A1 [_ A2]]; auto.
      * apply select_nonempty. apply repeated_labels_length.
        apply in_repeated_labels; auto. apply np_unique_in; auto.
      * unfold distributions in *. rewrite Forall_forall in *. intros. apply Hd. eapply select_in; eauto.
  - exfalso. eapply Hinv; [|exact HI]. intros i j Hi Hj. unfold rows.
    unfold col_means.
    rewrite (entry_map_map (fun c k => rmean (col k (select c (repeated_labels r tr) (predictions_of r tr))))
             classes (seq 0 n) j i 0%Z O) by (try rewrite seq_length; auto).
    rewrite seq_nth by auto. reflexivity.
Qed.

(** ** DeBias *)

Lemma DeBias_fit_binary : forall y p, length (np_unique y) <> 2%nat -> DeBias_fit y p = Err AttributeError.
Proof.
  intros. unfold DeBias_fit. destruct (np_unique y) as [|a [|b [|c t]]]; auto. simpl in H. congruence.
Qed.

Lemma DeBias_predict_valid : forall s preds, preds <> [] ->
  (db_Vt s <> 0 \/ rmean (col 1 preds) <> db_prev1 s) ->
  exists p, DeBias_predict s preds = Val p /\ distribution_over 2 p.
Proof.
  intros. unfold DeBias_predict. destruct preds as [|r t] eqn:E; [congruence|]. rewrite <- E in *.
  destruct (Req_EM_T (db_Vt s) 0).
  - destruct H0; [congruence|]. destruct (Req_EM_T _ 0); [lra|].
    destruct (Rlt_dec 0 _); eexists; (split; [reflexivity|]); (split; [reflexivity|]);
      (split; [repeat (apply Forall_cons; [lra|]); apply Forall_nil | simpl; lra]).
  - set (p := db_prev1 s + _). destruct (clip_pair_distribution p) as [Hs Hd].
    destruct (Rlt_dec 0 _); [|lra]. rewrite Hs, vdiv_1.
    eexists; split; [reflexivity|]. split; [reflexivity|auto].
Qed.

Lemma two_classes : forall y c0 c1, np_unique y = [c0; c1] ->
  c0 <> c1 /\ (forall x, In x y <-> x = c0 \/ x = c1) /\ y <> [] /\
  fraction c0 y + fraction c1 y = 1 /\ 0 < fraction c0 y /\ 0 < fraction c1 y.
Proof.
  intros. pose proof (np_unique_NoDup y). rewrite H in H0.
  assert (Hin : forall x, In x y <-> x = c0 \/ x = c1).
  { intros. rewrite <- np_unique_in, H. simpl. intuition. }
  assert (y <> []) by (intro; subst; discriminate).
  assert (Hpos : forall c, In c y -> 0 < fraction c y).
  { intros. unfold fraction. apply Rdiv_lt_0_compat; [apply INR_pos, zcount_pos; auto|apply length_pos; auto]. }
  repeat split; auto.
  - inversion H0; subst. intro; subst. apply H4; left; auto.
  - intros; apply Hin; auto.
  - intros; apply Hin; auto.
  - destruct (fractions_distribution [c0; c1] y) as [_ [_ Hs]]; auto.
    + intros x Hx. apply Hin in Hx. simpl; intuition.
    + simpl in Hs. lra.
  - apply Hpos, Hin; auto.
  - apply Hpos, Hin; auto.
Qed.

(** Exactness: [m0], [m1] are the mean scores of the two classes on the training predictions; the
    bag's mean score is their mixture with weight [p]; the classifier is calibrated on
    training: the mean score is the prevalence, and the scatter equals the covariance of score
    and label. *)
Lemma DeBias_exact : forall r (tr : list (Z * (nat -> list R))) c0 c1 s preds p, (0 < r)%nat ->
  let score := fun q : list R => nth 1 q 0 in
  let ytr := repeated_labels r tr in let ptr := predictions_of r tr in
  let prev1 := fraction c1 (labels_of tr) in
  let m0 := rmean (map score (select c0 ytr ptr)) in
  let m1 := rmean (map score (select c1 ytr ptr)) in
  np_unique (labels_of tr) = [c0; c1] ->
  DeBias_fit (labels_of tr) ptr = Val s ->
  rmean (map score ptr) = prev1 ->
  rmean (map (fun q => (score q - prev1) ^ 2) ptr) = prev1 * (1 - prev1) * (m1 - m0) ->
  m1 <> m0 ->
  preds <> [] -> 0 <= p <= 1 -> rmean (map score preds) = (1 - p) * m0 + p * m1 ->
  DeBias_predict s preds = Val [1 - p; p].
Proof.
  intros r tr c0 c1 s preds p Hr score ytr ptr prev1 m0 m1 Hu Hfit Hcal Hcov Hm Hne Hp Hmix.
  destruct (two_classes _ _ _ Hu) as [Hne01 [Hin [Hyne [Hsum [Hf0 Hf1]]]]].
  assert (Hlab : forall c, fraction c ytr = fraction c (labels_of tr)).
  { intros c. unfold fraction, ytr, repeated_labels. rewrite concat_repeat_length.
    assert (zcount c (concat (repeat (labels_of tr) r)) = (r * zcount c (labels_of tr))%nat).
    { clear. induction r; simpl; auto. rewrite zcount_app, IHr. lia. }
    rewrite H, !mult_INR. pose proof (INR_pos r Hr). pose proof (length_pos _ Hyne). field. lra. }
  assert (Hytr : forall x, In x ytr -> In x [c0; c1]).
  { intros x Hx. unfold ytr, repeated_labels in Hx. apply in_concat in Hx. destruct Hx as [l [Hl Hx]].
    apply repeat_spec in Hl. subst l. apply Hin in Hx. simpl; intuition. }
  assert (Hptr : ptr <> []).
  { intro E. pose proof (repeated_labels_length r tr) as HL. fold ytr ptr in HL. rewrite E in HL.
    destruct ytr eqn:Ey; [|discriminate]. unfold ytr, repeated_labels in Ey.
    destruct r; [lia|]. simpl in Ey. apply app_eq_nil in Ey. destruct Ey. congruence. }
  assert (Hmean : prev1 = (1 - prev1) * m0 + prev1 * m1).
  { rewrite <- Hcal at 1.
    change (rmean (map score ptr)) with (rmean (col 1 ptr)).
    rewrite (mean_mixture [c0; c1] ytr ptr) by
      (auto; try (apply repeated_labels_length); rewrite <- Hu; apply np_unique_NoDup).
    simpl. rewrite !Hlab. fold prev1. replace (fraction c0 (labels_of tr)) with (1 - prev1) by (unfold prev1; lra).
    unfold m0, m1. change (map score) with (col 1). lra. }
  unfold DeBias_fit in Hfit. rewrite Hu in Hfit. fold ptr in Hfit.
  destruct ptr as [|q0 qs] eqn:Ep; [congruence|]. rewrite <- Ep in *.
  apply (f_equal (fun o => match o with Val a => a | _ => s end)) in Hfit.
  cbv beta iota zeta in Hfit. rewrite <- Hfit. unfold DeBias_predict. cbn [db_Vt db_prev1].
  change (INR (zcount c1 (labels_of tr)) / INR (length (labels_of tr))) with prev1.
  change (INR (zcount c0 (labels_of tr)) / INR (length (labels_of tr))) with (fraction c0 (labels_of tr)).
  replace (fraction c0 (labels_of tr)) with (1 - prev1) by (unfold prev1; lra).
  change (rmean (map (fun r0 => (nth 1 r0 0 - prev1) ^ 2) ptr))
    with (rmean (map (fun q => (score q - prev1) ^ 2) ptr)).
  rewrite Hcov.
  assert (Hp1 : 0 < prev1) by auto. assert (Hp0 : 0 < 1 - prev1) by (unfold prev1; lra).
  replace (prev1 * (1 - prev1) * (m1 - m0) / (prev1 * (1 - prev1))) with (m1 - m0) by (field; lra).
  destruct preds as [|pa pt] eqn:Epp; [congruence|]. rewrite <- Epp in *.
  destruct (Req_EM_T (m1 - m0) 0); [lra|].
  replace (prev1 + (rmean (col 1 preds) - prev1) / (m1 - m0)) with p.
  - destruct (clip_pair_distribution p) as [Hs1 _]. destruct (Rlt_dec 0 _); [|lra].
    rewrite Hs1, vdiv_1. simpl. rewrite !clip01_id by lra. reflexivity.
  - change (rmean (col 1 preds)) with (rmean (map score preds)). rewrite Hmix.
    apply (Rmult_eq_reg_r (m1 - m0)); [|lra]. field_simplify; [|lra].
    clear - Hmean. nra.
Qed.

(** ** Packaged statements and witnesses for Properties_Baselines *)

Lemma AC_unknown_zero : exists classes cm preds, forall S dist,
  NoDup classes /\ length classes = 2%nat /\ preds <> [] /\
  AC_predict S dist classes cm preds = Val [0; 0].
Proof.
  exists [0; 1]%Z, [None; None], [5]%Z. intros.
  split; [repeat constructor; simpl; intuition lia|]. split; [reflexivity|]. split; [congruence|].
  unfold AC_predict, class_frequencies, zcount. simpl. f_equal.
  unfold binary_adjust. replace (0/1) with 0 by lra. simpl.
  rewrite !clip01_id by lra. destruct (Rlt_dec 0 _); auto. lra.
Qed.

Lemma bag_order : forall S dist classes cm s k (a b : list Z) (pa pb : list (list R)),
  Permutation a b -> Permutation pa pb ->
  CC_predict classes a = CC_predict classes b /\
  PCC_predict k pa = PCC_predict k pb /\
  AC_predict S dist classes cm a = AC_predict S dist classes cm b /\
  PAC_predict S dist classes cm pa = PAC_predict S dist classes cm pb /\
  PWKQ_predict S classes cm a = PWKQ_predict S classes cm b /\
  DeBias_predict s pa = DeBias_predict s pb.
Proof.
  intros. repeat split.
  - apply class_frequencies_perm; auto.
  - apply mean_rows_perm; auto.
  - apply AC_predict_perm; auto.
  - apply PAC_predict_perm; auto.
  - apply PWKQ_predict_perm; auto.
  - apply DeBias_predict_perm; auto.
Qed.

Lemma bag_replication : forall S dist classes cm s k m (a : list Z) (pa : list (list R)),
  (0 < m)%nat ->
  CC_predict classes (repeated m a) = CC_predict classes a /\
  PCC_predict k (repeated m pa) = PCC_predict k pa /\
  AC_predict S dist classes cm (repeated m a) = AC_predict S dist classes cm a /\
  PAC_predict S dist classes cm (repeated m pa) = PAC_predict S dist classes cm pa /\
  PWKQ_predict S classes cm (repeated m a) = PWKQ_predict S classes cm a /\
  DeBias_predict s (repeated m pa) = DeBias_predict s pa.
Proof.
  intros. repeat split.
  - apply class_frequencies_repeated; auto.
  - apply mean_rows_repeated; auto.
  - apply AC_predict_repeated; auto.
  - apply PAC_predict_repeated; auto.
  - apply PWKQ_predict_repeated; auto.
  - apply DeBias_predict_repeated; auto.
Qed.

Lemma train_order_AC : forall r (tr tr' : list (Z * (nat -> Z))), Permutation tr tr' ->
  np_unique (labels_of tr) = np_unique (labels_of tr') /\
  AC_fit (labels_of tr) (predictions_of r tr) = AC_fit (labels_of tr') (predictions_of r tr').
Proof.
  intros. split; [|apply AC_fit_perm; auto].
  apply np_unique_perm. apply Permutation_map; auto.
Qed.

Lemma train_order_PAC_DeBias : forall r (tr tr' : list (Z * (nat -> list R))), Permutation tr tr' ->
  PAC_fit (labels_of tr) (predictions_of r tr) = PAC_fit (labels_of tr') (predictions_of r tr') /\
  DeBias_fit (labels_of tr) (predictions_of r tr) = DeBias_fit (labels_of tr') (predictions_of r tr').
Proof. intros. split; [apply PAC_fit_perm|apply DeBias_fit_perm]; auto. Qed.

(** An inverse oracle that inverts exactly the involutions. *)
Definition involution (n : nat) (A : nat -> nat -> R) : bool :=
  forallb (fun i => forallb (fun j =>
    if Req_EM_T (sumn n (fun k => A i k * A k j)) (delta i j) then true else false) (seq 0 n)) (seq 0 n).
Definition involution_solver : solvers :=
  {| inv := fun n A => if involution n A then Some A else None;
     solve := fun _ _ _ _ => NotANumber |}.

Lemma involution_inverts : oracle_inverts involution_solver.
Proof.
  intros n A M H. simpl in H. destruct (involution n A) eqn:E; [|discriminate].
  inversion H; subst. unfold involution in E. rewrite forallb_forall in E.
  assert (forall i j, (i < n)%nat -> (j < n)%nat -> sumn n (fun k => M i k * M k j) = delta i j).
  { intros i j Hi Hj. specialize (E i). rewrite in_seq in E. specialize (E ltac:(lia)).
    rewrite forallb_forall in E. specialize (E j). rewrite in_seq in E. specialize (E ltac:(lia)).
    destruct (Req_EM_T _ _); [auto|discriminate]. }
  intros i j Hi Hj. split; auto.
Qed.

Lemma involution_intro : forall n A,
  (forall i j, (i < n)%nat -> (j < n)%nat -> sumn n (fun k => A i k * A k j) = delta i j) ->
  involution n A = true.
Proof.
  intros. unfold involution. apply forallb_forall. intros i Hi. apply forallb_forall. intros j Hj.
  apply in_seq in Hi. apply in_seq in Hj. destruct (Req_EM_T _ _); auto. exfalso. apply n0, H; lia.
Qed.

Lemma three_class_witness :
  let S := involution_solver in
  let tr := [(0, fun _ => 0); (1, fun _ => 2); (2, fun _ => 1); (2, fun _ => 1)]%Z in
  let ytest := [2; 2; 0; 1; 2]%Z in let ptest := [1; 1; 0; 2; 1]%Z in
  let classes := np_unique (labels_of tr) in
  let trained := fun c d => rate c d (repeated_labels 1 tr) (predictions_of 1 tr) in
  (forall n A M, inv S n A = Some M -> inverse_of n A M) /\
  classes = [0; 1; 2]%Z /\
  (forall x, In x (predictions_of 1 tr) -> In x classes) /\
  (exists cm, AC_fit (labels_of tr) (predictions_of 1 tr) = Val cm) /\
  (exists x, In x ptest /\ In x classes) /\
  length ytest = length ptest /\ (forall x, In x ytest -> In x classes) /\
  (forall c d, In c ytest -> In d classes -> rate c d ytest ptest = trained c d) /\
  (forall A, (forall i j, (i < 3)%nat -> (j < 3)%nat ->
        A i j = trained (nth j classes 0%Z) (nth i classes 0%Z)) -> inv S 3 A <> None).
Proof.
  intros. split; [exact involution_inverts|]. split; [reflexivity|].
  split; [simpl; intuition|]. split; [eexists; reflexivity|].
  split; [exists 1%Z; simpl; auto|]. split; [reflexivity|].
  split; [simpl; intuition|].
  split.
  - intros c d Hc Hd. simpl in Hc, Hd. unfold trained, rate, fraction, zcount.
    intuition subst; simpl; field.
  - intros A HA.
    assert (H00 : A 0%nat 0%nat = 1) by (rewrite HA by lia; cbv [trained rate fraction zcount]; simpl; field).
    assert (H01 : A 0%nat 1%nat = 0) by (rewrite HA by lia; cbv [trained rate fraction zcount]; simpl; field).
    assert (H02 : A 0%nat 2%nat = 0) by (rewrite HA by lia; cbv [trained rate fraction zcount]; simpl; field).
    assert (H10 : A 1%nat 0%nat = 0) by (rewrite HA by lia; cbv [trained rate fraction zcount]; simpl; field).
    assert (H11 : A 1%nat 1%nat = 0) by (rewrite HA by lia; cbv [trained rate fraction zcount]; simpl; field).
    assert (H12 : A 1%nat 2%nat = 1) by (rewrite HA by lia; cbv [trained rate fraction zcount]; simpl; field).
    assert (H20 : A 2%nat 0%nat = 0) by (rewrite HA by lia; cbv [trained rate fraction zcount]; simpl; field).
    assert (H21 : A 2%nat 1%nat = 1) by (rewrite HA by lia; cbv [trained rate fraction zcount]; simpl; field).
    assert (H22 : A 2%nat 2%nat = 0) by (rewrite HA by lia; cbv [trained rate fraction zcount]; simpl; field).
    unfold S. simpl. rewrite involution_intro; [congruence|].
    intros i j Hi Hj. simpl.
    destruct i as [|[|[|]]]; [| | |lia]; destruct j as [|[|[|]]]; try lia;
      rewrite ?H00, ?H01, ?H02, ?H10, ?H11, ?H12, ?H20, ?H21, ?H22; unfold delta; simpl; lra.
Qed.

Lemma debias_witness :
  let score := fun q : list R => nth 1 q 0 in
  let tr := [(0%Z, fun _ : nat => [3/4; 1/4]); (0%Z, fun _ => [3/4; 1/4]); (0%Z, fun _ => [3/4; 1/4]); (0%Z, fun _ => [1/4; 3/4]);
             (1%Z, fun _ => [3/4; 1/4]); (1%Z, fun _ => [1/4; 3/4]); (1%Z, fun _ => [1/4; 3/4]); (1%Z, fun _ => [1/4; 3/4])] in
  let ytr := repeated_labels 1 tr in let ptr := predictions_of 1 tr in
  let prev1 := fraction 1%Z (labels_of tr) in
  let m0 := rmean (map score (select 0%Z ytr ptr)) in
  let m1 := rmean (map score (select 1%Z ytr ptr)) in
  np_unique (labels_of tr) = [0; 1]%Z /\ rmean (map score ptr) = prev1 /\
  rmean (map (fun q => (score q - prev1) ^ 2) ptr) = prev1 * (1 - prev1) * (m1 - m0) /\ m1 <> m0.
Proof.
  intros.
  assert (E1 : prev1 = 1/2) by (unfold prev1, tr, fraction, zcount; simpl; field).
  assert (E2 : m0 = 3/8) by (unfold m0, ytr, ptr, tr, score, rmean; simpl; field).
  assert (E3 : m1 = 5/8) by (unfold m1, ytr, ptr, tr, score, rmean; simpl; field).
  split; [reflexivity|]. rewrite E2, E3, E1. split; [|split].
  - unfold rmean, ptr, tr, score; simpl; field.
  - unfold rmean, ptr, tr, score; simpl; field.
  - intro; lra.
Qed.

(** ** C70: misaligned training predictions *)

Lemma y_ext_mismatch : forall y m, y <> [] -> Nat.modulo m (length y) <> O -> length (y_ext y m) <> m.
Proof.
  intros y m Hy Hm. unfold y_ext. destruct (Nat.eqb_spec (length y) m).
  - subst. rewrite Nat.mod_same in Hm; [congruence|]. destruct y; simpl; congruence.
  - assert (E : forall k, length (concat (repeat y k)) = (length y * k)%nat).
    { induction k; simpl; [lia|]. rewrite app_length, IHk. lia. }
    rewrite E. intros H. apply Hm.
    pose proof (Nat.div_mod_eq m (length y)). lia.
Qed.

Lemma AC_fit_misaligned : forall y preds, y <> [] -> Nat.modulo (length preds) (length y) <> O ->
  AC_fit y preds = Err ValueError.
Proof.
  intros. unfold AC_fit. destruct (Nat.eqb_spec (length (y_ext y (length preds))) (length preds)); auto.
  exfalso. eapply y_ext_mismatch; eauto.
Qed.

Lemma PAC_fit_misaligned : forall y preds, y <> [] -> Nat.modulo (length preds) (length y) <> O ->
  PAC_fit y preds = Err IndexError.
Proof.
  intros. unfold PAC_fit. destruct (Nat.eqb_spec (length (y_ext y (length preds))) (length preds)); auto.
  exfalso. eapply y_ext_mismatch; eauto.
Qed.
