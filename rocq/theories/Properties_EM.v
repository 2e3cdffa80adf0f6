(** * Property theorems: EM (C10-C12 and the EM part of C06-C08). *)

From Coq Require Import Reals List ZArith Lia Lra Permutation Bool.
From Verif Require Import Num Spec Spec_EM M_EM L_Num L_Baselines L_EM.
Import ListNotations.
Open Scope R_scope.

(** The hypotheses of the theorems below are met by a training set and a bag with a zero posterior. *)
Example EM_hypotheses : exists train, EM_fit [1; 2; 2]%Z = Val train /\
  [[1/2; 1/2]; [0; 1]; [9/10; 1/10]] <> [] /\
  distributions (length (np_unique [1; 2; 2]%Z)) [[1/2; 1/2]; [0; 1]; [9/10; 1/10]].
Proof.
  eexists. split; [reflexivity|]. split; [congruence|].
  repeat (apply Forall_cons; [split; [reflexivity|split;
    [repeat (apply Forall_cons; [lra|]); apply Forall_nil|simpl; lra]]|]); apply Forall_nil.
Qed.

(** C10: the result is a distribution ... *)
Theorem C10_em_distribution : forall y train eps max_iter preds, EM_fit y = Val train ->
  preds <> [] -> distributions (length (np_unique y)) preds ->
  exists p, EM_predict eps max_iter train preds = Val p /\ distribution_over (length (np_unique y)) p /\
    (max_iter = O -> p = train).
Proof. exact EM_distribution. Qed.
Print Assumptions C10_em_distribution.

(** ... namely the textbook iterate number [m], where [m] is between min(10, max_iter) and max_iter,
    and is the first number from 10 on whose change is at most epsilon, if the budget allows. *)
Theorem C10_em_stopping : forall y train eps max_iter preds, EM_fit y = Val train ->
  preds <> [] -> distributions (length (np_unique y)) preds ->
  exists m, EM_run eps max_iter train preds = Val (em_iterate train preds m, m) /\
    (Nat.min 10 max_iter <= m <= max_iter)%nat /\
    ((m < max_iter)%nat -> em_change train preds m <= eps) /\
    (forall k, (10 <= k)%nat -> (k < m)%nat -> eps < em_change train preds k).
Proof. exact EM_spec. Qed.
Print Assumptions C10_em_stopping.

Theorem C10_em_training_prevalences : forall y train, EM_fit y = Val train ->
  Forall (fun x => 0 < x) train /\ distribution_over (length (np_unique y)) train /\
  (forall i, (i < length (np_unique y))%nat -> nth i train 0 = fraction (nth i (np_unique y) 0%Z) y).
Proof. exact EM_fit_train. Qed.
Print Assumptions C10_em_training_prevalences.

(** An all-zero posterior gives NaN after one iteration, and ValueError if a second one is attempted. *)
Theorem C10_em_zero_posterior : forall y train eps max_iter preds, EM_fit y = Val train ->
  In (repeat 0 (length train)) preds -> Forall (fun r => length r = length train) preds ->
  EM_run eps 1 train preds = NotANumber /\ EM_run eps (S (S max_iter)) train preds = Err ValueError.
Proof. exact EM_zero_row. Qed.
Print Assumptions C10_em_zero_posterior.

(** C11 *)
Theorem C11_em_likelihood_monotone : forall y train eps max_iter preds, EM_fit y = Val train ->
  preds <> [] -> distributions (length (np_unique y)) preds ->
  (forall k, log_likelihood train preds (em_iterate train preds k) <=
             log_likelihood train preds (em_iterate train preds (S k))) /\
  exists p, EM_predict eps max_iter train preds = Val p /\
    log_likelihood train preds train <= log_likelihood train preds p.
Proof. exact EM_likelihood. Qed.
Print Assumptions C11_em_likelihood_monotone.

(** C12 *)
Theorem C12_em_no_shift : forall y train eps max_iter preds, EM_fit y = Val train ->
  preds <> [] -> distributions (length (np_unique y)) preds ->
  (forall j, (j < length (np_unique y))%nat ->
     rsum (map (fun r => nth j r 0) preds) / INR (length preds) = nth j train 0) ->
  EM_predict eps max_iter train preds = Val train.
Proof. exact EM_no_shift. Qed.
Print Assumptions C12_em_no_shift.

Example C12_hypotheses : exists train, EM_fit [1; 2; 2]%Z = Val train /\
  forall j, (j < 2)%nat ->
    rsum (map (fun r => nth j r 0) [[1/2; 1/2]; [0; 1]; [1/2; 1/2]]) / INR 3 = nth j train 0.
Proof.
  eexists. split; [reflexivity|]. intros j Hj. unfold zcount. destruct j as [|[|j]]; [| |lia]; simpl; lra.
Qed.

Theorem C12_em_fixed_point : forall y train eps max_iter preds k, EM_fit y = Val train ->
  preds <> [] -> distributions (length (np_unique y)) preds ->
  em_update train preds (em_iterate train preds k) = em_iterate train preds k ->
  (k <= Nat.min 10 max_iter)%nat ->
  EM_predict eps max_iter train preds = Val (em_iterate train preds k).
Proof. exact EM_fixed. Qed.
Print Assumptions C12_em_fixed_point.

(** EM part of C06, C07, C08. *)
Theorem C06_em_bag_order : forall eps mi train a b, Permutation a b ->
  EM_predict eps mi train a = EM_predict eps mi train b.
Proof. exact EM_bag_order. Qed.
Print Assumptions C06_em_bag_order.

Theorem C07_em_bag_replication : forall eps mi train k b, (0 < k)%nat ->
  EM_predict eps mi train (repeated k b) = EM_predict eps mi train b.
Proof. exact EM_bag_repeated. Qed.
Print Assumptions C07_em_bag_replication.

Theorem C08_em_training_order : forall y y', Permutation y y' -> EM_fit y = EM_fit y'.
Proof. exact EM_training_order. Qed.
Print Assumptions C08_em_training_order.
