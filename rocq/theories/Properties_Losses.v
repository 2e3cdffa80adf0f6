(** * Properties: how the losses relate to one another (C108) and the loss of an average (C109).

    [related n d e rel]: for all distributions [p], [q] over [n] classes, d p q = x and e p q = y are
    defined and [rel x y] holds.  [related_on D]: the same for vectors in [D]. *)

From Coq Require Import Reals List ZArith Lra Lia Permutation.
From Verif Require Import Num Spec L_Num M_Metrics Spec_Metrics L_Metrics L_Metrics2 M_Bags Spec_Bags M_Match Spec_Match
  M_Reg Spec_Reg M_Eoq Spec_Eoq L_Eoq7 Spec_Losses L_Losses L_Losses2 L_Losses3.
Import ListNotations.
Open Scope R_scope.

(** ** C108 *)

(** l1 is n times mean_absolute_error, and l2 squared is n times mean_squared_error: for all vectors. *)
Theorem C108_l1_mae : forall n, (0 < n)%nat ->
  related_on (fun p => length p = n) (fun p q => l1 (vec p) (vec q)) (fun p q => mean_absolute_error (vec p) (vec q))
    (fun x y => x = INR n * y).
Proof. exact l1_mae. Qed.
Print Assumptions C108_l1_mae.

Theorem C108_l2_mse : forall n, (0 < n)%nat ->
  related_on (fun p => length p = n) (fun p q => l2 (vec p) (vec q)) (fun p q => mean_squared_error (vec p) (vec q))
    (fun x y => 0 <= x /\ x ^ 2 = INR n * y).
Proof. exact mse_l2. Qed.
Print Assumptions C108_l2_mse.

Theorem C108_l2_l1 : forall n, (0 < n)%nat ->
  related_on (fun p => length p = n) (fun p q => l2 (vec p) (vec q)) (fun p q => l1 (vec p) (vec q))
    (fun x y => x <= y <= sqrt (INR n) * x).
Proof. exact l2_l1. Qed.
Print Assumptions C108_l2_l1.

Theorem C108_bray_curtis_l1 : forall n,
  related n (fun p q => bray_curtis (vec p) (vec q)) (fun p q => l1 (vec p) (vec q)) (fun x y => x = y / 2).
Proof. exact bray_curtis_l1. Qed.
Print Assumptions C108_bray_curtis_l1.

Theorem C108_hd_l1 : forall n,
  related n (fun p q => hdist (vec p) (vec q)) (fun p q => l1 (vec p) (vec q)) (fun x y => x ^ 2 <= y <= 2 * x).
Proof. exact hd_l1. Qed.
Print Assumptions C108_hd_l1.

Theorem C108_emd_l1 : forall n,
  related n (fun p q => emd (vec p) (vec q)) (fun p q => l1 (vec p) (vec q)) (fun x y => y / 2 <= x <= INR (n - 1) * (y / 2)).
Proof. exact emd_l1. Qed.
Print Assumptions C108_emd_l1.

(** With two classes the earth mover's distance is half of l1. *)
Theorem C108_emd_two :
  related 2 (fun p q => emd (vec p) (vec q)) (fun p q => l1 (vec p) (vec q)) (fun x y => x = y / 2).
Proof.
  intros p q Dp Dq. destruct (emd_l1 2 p q Dp Dq) as (x & y & Ex & Ey & H1 & H2). exists x, y.
  split; [exact Ex|]. split; [exact Ey|]. cbn in H2. lra.
Qed.
Print Assumptions C108_emd_two.

(** The mean class of the prediction is at most emd away from the mean class of the truth. *)
Theorem C108_emd_mean_class : forall n p q, distribution_over n p -> distribution_over n q ->
  exists x, emd (vec p) (vec q) = Val x /\ Rabs (mean_class n p - mean_class n q) <= x.
Proof. exact emd_mean_class. Qed.
Print Assumptions C108_emd_mean_class.

Theorem C108_probsymmetric_l1 : forall e n, 0 < e ->
  related n (fun p q => probsymmetric e (vec p) (vec q)) (fun p q => l1 (vec p) (vec q))
    (fun x y => x <= 2 * y /\ y ^ 2 <= (2 + INR n * e) * (x / 2)).
Proof. exact ps_l1. Qed.
Print Assumptions C108_probsymmetric_l1.

Theorem C108_topsoe_probsymmetric : forall e n, 0 < e ->
  related n (fun p q => topsoe e (vec p) (vec q)) (fun p q => probsymmetric e (vec p) (vec q)) (fun x y => x <= y / 2).
Proof. exact topsoe_ps. Qed.
Print Assumptions C108_topsoe_probsymmetric.

Theorem C108_topsoe_l1 : forall e n, 0 < e ->
  related n (fun p q => topsoe e (vec p) (vec q)) (fun p q => l1 (vec p) (vec q))
    (fun x y => x <= y /\ y ^ 2 <= (8 + 4 * (INR n * e)) * x).
Proof. exact topsoe_l1. Qed.
Print Assumptions C108_topsoe_l1.

(** The bits of kld are turned into nats by the factor ln 2; the smoothing [e] adds n e. *)
Theorem C108_kld_l1 : forall e n p q, 0 < e -> distribution_over n p -> distribution_over n q -> Forall (fun x => 0 < x) p ->
  exists x y, kld e (vec p) (vec q) = Val x /\ l1 (vec p) (vec q) = Val y /\ 0 <= x * ln 2 + INR n * e /\
    y <= INR n * e + sqrt ((4 + 2 * (INR n * e)) * (x * ln 2 + INR n * e)).
Proof. exact kld_l1. Qed.
Print Assumptions C108_kld_l1.

(** Two distributions over three classes: l1 = 5/6, emd = 7/12, the mean classes differ by 7/12. *)
Example C108_values : distribution_over 3 [1/2; 1/4; 1/4] /\ distribution_over 3 [1/3; 0; 2/3] /\ Forall (fun x => 0 < x) [1/2; 1/4; 1/4] /\
  l1 (vec [1/2; 1/4; 1/4]) (vec [1/3; 0; 2/3]) = Val (5/6) /\ emd (vec [1/2; 1/4; 1/4]) (vec [1/3; 0; 2/3]) = Val (7/12) /\
  mean_class 3 [1/3; 0; 2/3] - mean_class 3 [1/2; 1/4; 1/4] = 7/12.
Proof.
  split; [split; [reflexivity|split; [repeat (apply Forall_cons; [lra|]); apply Forall_nil|simpl; lra]]|].
  split; [split; [reflexivity|split; [repeat (apply Forall_cons; [lra|]); apply Forall_nil|simpl; lra]]|].
  split; [repeat (apply Forall_cons; [lra|]); apply Forall_nil|].
  split; [|split].
  - rewrite l1_val by (reflexivity || discriminate). unfold dsum. cbn [length sumn nth].
    repeat match goal with |- context [Rabs ?x] => first [rewrite (Rabs_pos_eq x) by lra|rewrite (Rabs_left1 x) by lra] end. apply f_equal. lra.
  - rewrite emd_val by (reflexivity || discriminate). unfold cum. cbn [length sumn nth].
    repeat match goal with |- context [Rabs ?x] => first [rewrite (Rabs_pos_eq x) by lra|rewrite (Rabs_left1 x) by lra] end. apply f_equal. lra.
  - unfold mean_class. cbn. lra.
Qed.

(** ** C109

    [averaging_helps n T D h d]: for a truth in [T] and predictions in [D], h of the loss [d] of the
    average of the predictions is at most the mean of h of the losses of the predictions. *)

Theorem C109_l1 : forall n, (0 < n)%nat ->
  averaging_helps n (fun p => length p = n) (fun p => length p = n) (fun v => v) (fun p q => l1 (vec p) (vec q)).
Proof. exact l1_averaging. Qed.
Print Assumptions C109_l1.

Theorem C109_mae : forall n, (0 < n)%nat ->
  averaging_helps n (fun p => length p = n) (fun p => length p = n) (fun v => v) (fun p q => mean_absolute_error (vec p) (vec q)).
Proof. exact mae_averaging. Qed.
Print Assumptions C109_mae.

Theorem C109_mse : forall n, (0 < n)%nat ->
  averaging_helps n (fun p => length p = n) (fun p => length p = n) (fun v => v) (fun p q => mean_squared_error (vec p) (vec q)).
Proof. exact mse_averaging. Qed.
Print Assumptions C109_mse.

Theorem C109_l2 : forall n, (0 < n)%nat ->
  averaging_helps n (fun p => length p = n) (fun p => length p = n) (fun v => v) (fun p q => l2 (vec p) (vec q)).
Proof. exact l2_averaging. Qed.
Print Assumptions C109_l2.

Theorem C109_emd : forall n, (0 < n)%nat ->
  averaging_helps n (fun p => length p = n) (fun p => length p = n) (fun v => v) (fun p q => emd (vec p) (vec q)).
Proof. exact emd_averaging. Qed.
Print Assumptions C109_emd.

Theorem C109_bray_curtis : forall n,
  averaging_helps n (distribution_over n) (distribution_over n) (fun v => v) (fun p q => bray_curtis (vec p) (vec q)).
Proof. exact bray_curtis_averaging. Qed.
Print Assumptions C109_bray_curtis.

(** For the Hellinger distance, its square. *)
Theorem C109_hd : forall n, (0 < n)%nat ->
  averaging_helps n (fun p => length p = n /\ Forall (fun x => 0 <= x) p) (fun p => length p = n /\ Forall (fun x => 0 <= x) p)
    (fun v => v ^ 2) (fun p q => hdist (vec p) (vec q)).
Proof. exact hd_averaging. Qed.
Print Assumptions C109_hd.

Theorem C109_probsymmetric : forall e n, 0 < e -> (0 < n)%nat ->
  averaging_helps n (fun p => length p = n /\ Forall (fun x => 0 <= x) p) (fun p => length p = n /\ Forall (fun x => 0 <= x) p)
    (fun v => v) (fun p q => probsymmetric e (vec p) (vec q)).
Proof. exact ps_averaging. Qed.
Print Assumptions C109_probsymmetric.

Theorem C109_kld : forall e n, 0 < e -> (0 < n)%nat ->
  averaging_helps n (fun p => length p = n /\ Forall (fun x => 0 < x) p) (fun p => length p = n /\ Forall (fun x => 0 <= x) p)
    (fun v => v) (fun p q => kld e (vec p) (vec q)).
Proof. exact kld_averaging. Qed.
Print Assumptions C109_kld.

(** The ensemble with the strategy 'mean': its loss is at most the mean loss of its members. *)
Theorem C109_EoQ_mean : forall Q argsort distance (b : base Q) p X y preds q k' X' preds' answers t,
  trained b p X y preds q -> members_answer b q X' preds' answers -> distributions (length (np_unique y)) answers ->
  (0 < ep_n p)%nat -> ep_combination p = CMean -> distribution_over (length (np_unique y)) t ->
  exists r, EoQ_predict argsort distance b p q k' X' preds' = Val (Vector r) /\
    forall h d, In (h, d) [((fun v => v), fun p q => l1 (vec p) (vec q)); ((fun v => v), fun p q => mean_absolute_error (vec p) (vec q));
        ((fun v => v), fun p q => mean_squared_error (vec p) (vec q)); ((fun v => v), fun p q => l2 (vec p) (vec q));
        ((fun v => v), fun p q => emd (vec p) (vec q)); ((fun v => v), fun p q => bray_curtis (vec p) (vec q));
        ((fun v => v ^ 2), fun p q => hdist (vec p) (vec q))] ->
    exists v vs, d t r = Val v /\ Forall2 (fun a w => d t a = Val w) answers vs /\ h v <= rmean (map h vs).
Proof. exact EoQ_mean_losses. Qed.
Print Assumptions C109_EoQ_mean.

(** The same for any loss for which averaging helps. *)
Theorem C109_EoQ_mean_any : forall Q argsort distance (b : base Q) p X y preds q k' X' preds' answers,
  trained b p X y preds q -> members_answer b q X' preds' answers -> distributions (length (np_unique y)) answers ->
  (0 < ep_n p)%nat -> ep_combination p = CMean ->
  exists r, EoQ_predict argsort distance b p q k' X' preds' = Val (Vector r) /\
    forall T h d t, averaging_helps (length (np_unique y)) T (distribution_over (length (np_unique y))) h d -> T t ->
    exists v vs, d t r = Val v /\ Forall2 (fun a w => d t a = Val w) answers vs /\ h v <= rmean (map h vs).
Proof. exact EoQ_mean_loss. Qed.
Print Assumptions C109_EoQ_mean_any.

(** The strategies that average the selected members [sel] (C58): at most the mean loss of those members. *)
Theorem C109_EoQ_selected : forall n answers sel r T h d t, distributions n answers ->
  sel <> [] -> Forall (fun i => (i < length answers)%nat) sel -> average_answer n answers sel r ->
  averaging_helps n T (distribution_over n) h d -> T t ->
  exists v vs, d t r = Val v /\ Forall2 (fun i w => d t (nth i answers []) = Val w) sel vs /\ h v <= rmean (map h vs).
Proof. exact selected_loss. Qed.
Print Assumptions C109_EoQ_selected.

(** The strategy 'median' can be worse than every one of its members: each has l1 = 2/3, the ensemble 1. *)
Theorem C109_median_refuted : exists q answers t r,
  trained (prior_using 4) (ep3 CMedian) [] [0; 1; 2; 3]%Z (Crisp [0; 1; 2; 3]%Z) q /\
  (forall X ps, members_answer (prior_using 4) q X (Crisp ps) answers) /\ distributions 4 answers /\
  (forall argsort distance k X ps, EoQ_predict argsort distance (prior_using 4) (ep3 CMedian) q k X (Crisp ps) = Val (Vector r)) /\
  distribution_over 4 t /\ l1 (vec t) (vec r) = Val 1 /\ Forall (fun a => l1 (vec t) (vec a) = Val (2 / 3)) answers.
Proof.
  exists pair_q, pair_answers, pair_truth, [0; 0; 0; 1]. split; [exact (pair_trained CMedian)|]. split; [exact pair_members|].
  split; [exact pair_distributions|]. split; [exact pair_median_answer|]. split; [exact pair_truth_dist|]. exact pair_losses.
Qed.
Print Assumptions C109_median_refuted.

(** The same three members meet the hypotheses with the strategy 'mean'. *)
Example C109_hypotheses :
  trained (prior_using 4) (ep3 CMean) [] [0; 1; 2; 3]%Z (Crisp [0; 1; 2; 3]%Z) pair_q /\
  (forall X ps, members_answer (prior_using 4) pair_q X (Crisp ps) pair_answers) /\
  distributions (length (np_unique [0; 1; 2; 3]%Z)) pair_answers /\ (0 < ep_n (ep3 CMean))%nat /\
  distribution_over (length (np_unique [0; 1; 2; 3]%Z)) pair_truth /\
  average_of 4 pair_answers [1/6; 1/6; 1/6; 1/2] /\ Forall (fun x => 0 < x) pair_truth /\
  average_answer 4 pair_answers [0; 2]%nat [1/4; 0; 1/4; 1/2].
Proof.
  split; [exact (pair_trained CMean)|]. split; [exact pair_members|]. split; [exact pair_distributions|]. split; [cbn; lia|].
  split; [exact pair_truth_dist|]. split; [|split].
  - split; [reflexivity|]. intros c Hc. destruct c as [|[|[|[|c]]]]; [| | | |lia]; unfold rmean; cbn; lra.
  - repeat (apply Forall_cons; [lra|]); apply Forall_nil.
  - split; [reflexivity|]. intros c Hc. destruct c as [|[|[|[|c]]]]; [| | | |lia]; unfold rmean; cbn; lra.
Qed.
