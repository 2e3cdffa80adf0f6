(** * Proofs: the loss of an ensemble. *)

From Coq Require Import Reals List ZArith Lra Lia Permutation Bool.
From Verif Require Import Num Spec L_Num M_Baselines M_Metrics Spec_Metrics L_Metrics L_Metrics2 M_Bags Spec_Bags L_Bags2 L_Bags3 M_Match Spec_Match
  M_Reg Spec_Reg M_Eoq Spec_Eoq L_Eoq L_Eoq6 L_Eoq7 Spec_Losses L_Losses L_Losses2.
Import ListNotations.
Open Scope R_scope.

Lemma average_answer_of : forall n answers sel r, average_answer n answers sel r ->
  average_of n (map (fun i => nth i answers []) sel) r.
Proof. intros n answers sel r [L A]. split; [exact L|]. intros c Hc. rewrite map_map. apply A. exact Hc. Qed.

Lemma averaging_stronger : forall n (T D T' D' : list R -> Prop) h d, (forall p, T' p -> T p) -> (forall p, D' p -> D p) ->
  averaging_helps n T D h d -> averaging_helps n T' D' h d.
Proof.
  intros n T D T' D' h d HT HD H p answers r Tp NE HA AV. apply H; auto. eapply Forall_impl; [|exact HA]. exact HD.
Qed.

Lemma EoQ_mean_loss : forall Q argsort distance (b : base Q) p X y preds q k' X' preds' answers,
  trained b p X y preds q -> members_answer b q X' preds' answers -> distributions (length (np_unique y)) answers ->
  (0 < ep_n p)%nat -> ep_combination p = CMean ->
  exists r, EoQ_predict argsort distance b p q k' X' preds' = Val (Vector r) /\
    forall T h d t, averaging_helps (length (np_unique y)) T (distribution_over (length (np_unique y))) h d -> T t ->
    exists v vs, d t r = Val v /\ Forall2 (fun a w => d t a = Val w) answers vs /\ h v <= rmean (map h vs).
Proof.
  intros Q argsort distance b p X y preds q k' X' preds' answers HF HM HD Hn HC.
  destruct (trained_size _ _ _ _ _ _ HF) as (HN & HK & _).
  destruct (mean_after_fit Q argsort distance b p X y preds q k' X' preds' answers HF HM HD Hn HC) as (r & E & A & _).
  destruct HM as (HL & _). rewrite HN in HL.
  exists r. split; [exact E|]. intros T h d t AH Tt.
  apply average_answer_of in A. rewrite <- HL, (tabulate_id answers []) in A.
  apply (AH t answers r Tt); [|exact HD|exact A].
  intro N. subst answers. simpl in HL. lia.
Qed.

(** All the losses at once. *)
Lemma all_averaging : forall n, (0 < n)%nat -> let dist := distribution_over n in
  averaging_helps n dist dist (fun v => v) (fun p q => l1 (vec p) (vec q)) /\
  averaging_helps n dist dist (fun v => v) (fun p q => mean_absolute_error (vec p) (vec q)) /\
  averaging_helps n dist dist (fun v => v) (fun p q => mean_squared_error (vec p) (vec q)) /\
  averaging_helps n dist dist (fun v => v) (fun p q => l2 (vec p) (vec q)) /\
  averaging_helps n dist dist (fun v => v) (fun p q => emd (vec p) (vec q)) /\
  averaging_helps n dist dist (fun v => v) (fun p q => bray_curtis (vec p) (vec q)) /\
  averaging_helps n dist dist (fun v => v ^ 2) (fun p q => hdist (vec p) (vec q)) /\
  (forall e, 0 < e -> averaging_helps n dist dist (fun v => v) (fun p q => probsymmetric e (vec p) (vec q))) /\
  (forall e, 0 < e -> averaging_helps n (fun p => dist p /\ Forall (fun x => 0 < x) p) dist (fun v => v) (fun p q => kld e (vec p) (vec q))).
Proof.
  intros n Hn dist.
  assert (DL : forall p, dist p -> length p = n) by (intros p (? & ?); assumption).
  assert (DN : forall p, dist p -> length p = n /\ Forall (fun x => 0 <= x) p) by (intros p (? & ? & ?); split; assumption).
  repeat match goal with |- _ /\ _ => split end.
  - exact (averaging_stronger n _ _ _ _ _ _ DL DL (l1_averaging n Hn)).
  - exact (averaging_stronger n _ _ _ _ _ _ DL DL (mae_averaging n Hn)).
  - exact (averaging_stronger n _ _ _ _ _ _ DL DL (mse_averaging n Hn)).
  - exact (averaging_stronger n _ _ _ _ _ _ DL DL (l2_averaging n Hn)).
  - exact (averaging_stronger n _ _ _ _ _ _ DL DL (emd_averaging n Hn)).
  - exact (bray_curtis_averaging n).
  - exact (averaging_stronger n _ _ _ _ _ _ DN DN (hd_averaging n Hn)).
  - intros e He. exact (averaging_stronger n _ _ _ _ _ _ DN DN (ps_averaging e n He Hn)).
  - intros e He. refine (averaging_stronger n _ _ _ _ _ _ _ DN (kld_averaging e n He Hn)).
    intros p [Dp Pp]. split; [apply DL; exact Dp|exact Pp].
Qed.

Lemma EoQ_mean_losses : forall Q argsort distance (b : base Q) p X y preds q k' X' preds' answers t,
  trained b p X y preds q -> members_answer b q X' preds' answers -> distributions (length (np_unique y)) answers ->
  (0 < ep_n p)%nat -> ep_combination p = CMean -> distribution_over (length (np_unique y)) t ->
  exists r, EoQ_predict argsort distance b p q k' X' preds' = Val (Vector r) /\
    forall h d, In (h, d) [((fun v => v), fun p q => l1 (vec p) (vec q)); ((fun v => v), fun p q => mean_absolute_error (vec p) (vec q));
        ((fun v => v), fun p q => mean_squared_error (vec p) (vec q)); ((fun v => v), fun p q => l2 (vec p) (vec q));
        ((fun v => v), fun p q => emd (vec p) (vec q)); ((fun v => v), fun p q => bray_curtis (vec p) (vec q));
        ((fun v => v ^ 2), fun p q => hdist (vec p) (vec q))] ->
    exists v vs, d t r = Val v /\ Forall2 (fun a w => d t a = Val w) answers vs /\ h v <= rmean (map h vs).
Proof.
  intros Q argsort distance b p X y preds q k' X' preds' answers t HF HM HD Hn HC Dt.
  destruct (EoQ_mean_loss Q argsort distance b p X y preds q k' X' preds' answers HF HM HD Hn HC) as (r & E & H).
  exists r. split; [exact E|]. intros h d Hin.
  destruct (all_averaging _ (dist_nonempty _ _ Dt)) as (A1 & A2 & A3 & A4 & A5 & A6 & A7 & _).
  cbn [In] in Hin.
  repeat (destruct Hin as [Hin|Hin]; [injection Hin as <- <-;
    first [exact (H _ _ _ t A1 Dt)|exact (H _ _ _ t A2 Dt)|exact (H _ _ _ t A3 Dt)|exact (H _ _ _ t A4 Dt)|exact (H _ _ _ t A5 Dt)
          |exact (H _ _ _ t A6 Dt)|exact (H _ _ _ t A7 Dt)]|]).
  destruct Hin.
Qed.

(** Any strategy that averages selected members. *)
Lemma selected_loss : forall n answers sel r T h d t, distributions n answers ->
  sel <> [] -> Forall (fun i => (i < length answers)%nat) sel -> average_answer n answers sel r ->
  averaging_helps n T (distribution_over n) h d -> T t ->
  exists v vs, d t r = Val v /\ Forall2 (fun i w => d t (nth i answers []) = Val w) sel vs /\ h v <= rmean (map h vs).
Proof.
  intros n answers sel r T h d t HD NE HS A AH Tt. apply average_answer_of in A.
  assert (NE' : map (fun i => nth i answers []) sel <> []) by (destruct sel; [congruence|discriminate]).
  assert (D' : Forall (distribution_over n) (map (fun i => nth i answers []) sel)).
  { apply Forall_map. eapply Forall_impl; [|exact HS]. intros i Hi. unfold distributions in HD. rewrite Forall_forall in HD.
    apply HD. apply nth_In. exact Hi. }
  destruct (AH t _ r Tt NE' D' A) as (v & vs & Ev & F & L). exists v, vs. split; [exact Ev|]. split; [|exact L].
  clear - F. revert vs F. induction sel as [|i sel IH]; intros vs F; cbn [map] in F; inversion F; subst; constructor; auto.
Qed.

(** ** The median: an ensemble worse than each of its members *)

Definition pair_bags : list bag := [([1/2; 0; 0; 1/2], [0; 3]%nat); ([0; 1/2; 0; 1/2], [1; 3]%nat); ([0; 0; 1/2; 1/2], [2; 3]%nat)].
Definition pair_answers : list (list R) := [[1/2; 0; 0; 1/2]; [0; 1/2; 0; 1/2]; [0; 0; 1/2; 1/2]].
Definition pair_q : eoq (list R) :=
  {| eq_classes := [0; 1; 2; 3]%Z; eq_bags := pair_bags; eq_cuts := repeat (repeat (Fin 0) 3) 4; eq_quantifiers := pair_answers;
     eq_distributions := repeat (repeat 0 8) 3 |}.

Lemma fraction_pair : forall (c d d' : Z), fraction c [d; d'] = (if Z.eq_dec d c then 1 / 2 else 0) + (if Z.eq_dec d' c then 1 / 2 else 0).
Proof.
  intros c d d'. unfold fraction, zcount. cbn [count_occ length]. destruct (Z.eq_dec d c), (Z.eq_dec d' c); cbn; lra.
Qed.

Lemma pair_priors : forall a : nat, (a < 3)%nat ->
  tabulate 4 (fun c => fraction (Z.of_nat c) [Z.of_nat a; 3%Z]) = nth a pair_answers [].
Proof.
  intros a Ha. unfold tabulate. cbn [map seq]. rewrite !fraction_pair.
  destruct a as [|[|[|a]]]; [| | |lia]; cbn [Z.of_nat Pos.of_succ_nat Pos.succ nth pair_answers];
  repeat match goal with |- context [Z.eq_dec ?a ?b] =>
    destruct (Z.eq_dec a b) as [e|e]; [try discriminate e|try (exfalso; apply e; reflexivity)]; clear e end;
  repeat (apply f_equal2; [lra|]); reflexivity.
Qed.

Lemma pair_fit : forall c ppf,
  EoQ_fit no_generator ppf (prior_using 4) (ep3 c) 0 [] [0; 1; 2; 3]%Z (Crisp [0; 1; 2; 3]%Z) (Some pair_bags) tt = Some (Val pair_q, tt).
Proof.
  intros c ppf. unfold EoQ_fit, eoq_bags, prior_using, fit_using. cbn [obind n_predictions].
  change (y_ext [0%Z; 1%Z; 2%Z; 3%Z] (length [0%Z; 1%Z; 2%Z; 3%Z])) with [0; 1; 2; 3]%Z. change (np_unique [0; 1; 2; 3]%Z) with [0; 1; 2; 3]%Z.
  unfold extended_indexes. cbn [length Nat.eqb obind pair_bags map snd ep3 ep_n seq].
  unfold collect at 1. cbn [item nth_error obind items map collect omap member_predictions].
  rewrite (pair_priors 0 ltac:(lia) : tabulate 4 (fun c => fraction (Z.of_nat c) [0%Z; 3%Z]) = _).
  rewrite (pair_priors 1 ltac:(lia) : tabulate 4 (fun c => fraction (Z.of_nat c) [1%Z; 3%Z]) = _).
  rewrite (pair_priors 2 ltac:(lia) : tabulate 4 (fun c => fraction (Z.of_nat c) [2%Z; 3%Z]) = _).
  unfold eoq_prediction_cuts. cbn [described obind omap]. reflexivity.
Qed.

Lemma pair_trained : forall c, trained (prior_using 4) (ep3 c) [] [0; 1; 2; 3]%Z (Crisp [0; 1; 2; 3]%Z) pair_q.
Proof. intros c. exists unit, no_generator, (fun x => x), 0%nat, (Some pair_bags), tt, tt. apply pair_fit. Qed.

Lemma pair_members : forall X ps, members_answer (prior_using 4) pair_q X (Crisp ps) pair_answers.
Proof.
  intros X ps. split; [reflexivity|]. intros i m Hi. exists (Crisp ps). split; [reflexivity|].
  destruct i as [|[|[|i]]]; cbn in Hi; try (inversion Hi; subst; reflexivity). destruct i; discriminate.
Qed.

Lemma pair_distributions : distributions 4 pair_answers.
Proof.
  apply Forall_cons; [|apply Forall_cons; [|apply Forall_cons; [|apply Forall_nil]]]; (split; [reflexivity|]); split;
    try (repeat (apply Forall_cons; [lra|]); apply Forall_nil); cbn; lra.
Qed.

Lemma pair_medians : medians 4 pair_answers [0; 0; 0; 1/2].
Proof.
  split; [reflexivity|]. intros c Hc. destruct c as [|[|[|[|c]]]]; [| | | |lia].
  - exists [0; 0; 1/2]. split; [symmetry; apply (Permutation_cons_append [0; 0] (1/2))|]. split.
    + intros i Hi. cbn in Hi. destruct i as [|[|i]]; cbn; try lra. lia.
    + left. exists 1%nat. split; reflexivity.
  - exists [0; 0; 1/2]. split; [apply perm_skip, perm_swap|]. split.
    + intros i Hi. cbn in Hi. destruct i as [|[|i]]; cbn; try lra. lia.
    + left. exists 1%nat. split; reflexivity.
  - exists [0; 0; 1/2]. split; [reflexivity|]. split.
    + intros i Hi. cbn in Hi. destruct i as [|[|i]]; cbn; try lra. lia.
    + left. exists 1%nat. split; reflexivity.
  - exists [1/2; 1/2; 1/2]. split; [reflexivity|]. split.
    + intros i Hi. cbn in Hi. destruct i as [|[|i]]; cbn; try lra. lia.
    + left. exists 1%nat. split; reflexivity.
Qed.

Lemma pair_median_answer : forall argsort distance k X ps,
  EoQ_predict argsort distance (prior_using 4) (ep3 CMedian) pair_q k X (Crisp ps) = Val (Vector [0; 0; 0; 1]).
Proof.
  intros argsort distance k X ps.
  destruct (median_after_fit _ argsort distance (prior_using 4) (ep3 CMedian) [] [0; 1; 2; 3]%Z (Crisp [0; 1; 2; 3]%Z) pair_q k X (Crisp ps)
    pair_answers (pair_trained _) (pair_members X ps) pair_distributions [0; 0; 0; 1/2] ltac:(cbn; lia) eq_refl pair_medians) as [_ H].
  destruct H as [H _]; [cbn; lra|]. rewrite H. do 2 apply f_equal. unfold vdiv. cbn [map rsum].
  repeat (apply f_equal2; [lra|]); reflexivity.
Qed.

Definition pair_truth : list R := [1/6; 1/6; 1/6; 1/2].

Lemma pair_truth_dist : distribution_over 4 pair_truth.
Proof. split; [reflexivity|]. split; [repeat (apply Forall_cons; [lra|]); apply Forall_nil|cbn; lra]. Qed.

Ltac l1_of := rewrite l1_val by (reflexivity || discriminate); unfold dsum, pair_truth; cbn [length sumn nth];
  repeat match goal with |- context [Rabs ?x] => first [rewrite (Rabs_pos_eq x) by lra|rewrite (Rabs_left1 x) by lra] end;
  apply f_equal; lra.

Lemma pair_losses : l1 (vec pair_truth) (vec [0; 0; 0; 1]) = Val 1 /\
  Forall (fun a => l1 (vec pair_truth) (vec a) = Val (2 / 3)) pair_answers.
Proof.
  split; [l1_of|]. apply Forall_cons; [|apply Forall_cons; [|apply Forall_cons; [|apply Forall_nil]]]; l1_of.
Qed.
