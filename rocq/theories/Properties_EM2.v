(** * Property theorems: convergence of EM (C95) and its consistency under prior shift (C96). *)

From Coq Require Import Reals List ZArith Lia Lra.
From Verif Require Import Num Spec Spec_EM M_EM L_Num L_EM L_EM2 L_EM3.
Import ListNotations.
Open Scope R_scope.

(** C95: if no class had a smaller fraction than [c] in the training set, then after [m] iterations the
    log-likelihood of the bag is within N ln(1/c)/(m+1) of its largest value.  With a negative tolerance
    all the iterations are done, so the result gets as close as wanted. *)
Theorem C95_em_near_best : forall y train eps max_iter preds c, EM_fit y = Val train ->
  preds <> [] -> distributions (length (np_unique y)) preds -> 0 < c -> Forall (fun t => c <= t) train ->
  exists p m, EM_run eps max_iter train preds = Val (p, m) /\
    within_of_best (INR (length preds) * ln (1 / c) / INR (S m)) train preds p /\
    (Nat.min 10 max_iter <= m <= max_iter)%nat /\ (eps < 0 -> m = max_iter).
Proof. exact EM_near_best. Qed.
Print Assumptions C95_em_near_best.

Example C95_hypotheses : exists train, EM_fit [1; 2; 2]%Z = Val train /\ Forall (fun t => 1 / 3 <= t) train /\
  distributions 2 [[1/2; 1/2]; [0; 1]; [9/10; 1/10]].
Proof.
  eexists. split; [reflexivity|]. split.
  - cbn. repeat (apply Forall_cons; [unfold zcount; simpl; lra|]); apply Forall_nil.
  - repeat (apply Forall_cons; [split; [reflexivity|split;
      [repeat (apply Forall_cons; [lra|]); apply Forall_nil|simpl; lra]]|]); apply Forall_nil.
Qed.

(** What the last update says: if no prevalence grew by a factor of more than 1+d, the log-likelihood
    before it was within N ln(1+d) of the largest one ... *)
Theorem C95_em_certificate : forall y train preds k d, EM_fit y = Val train ->
  preds <> [] -> distributions (length (np_unique y)) preds -> 0 <= d ->
  (forall j, (j < length (np_unique y))%nat ->
     nth j (em_iterate train preds (S k)) 0 <= (1 + d) * nth j (em_iterate train preds k) 0) ->
  within_of_best (INR (length preds) * ln (1 + d)) train preds (em_iterate train preds k).
Proof. exact EM_certificate. Qed.
Print Assumptions C95_em_certificate.

(** ... so prevalences that an iteration leaves unchanged have the largest likelihood. *)
Theorem C95_em_fixed_point_best : forall y train preds k, EM_fit y = Val train ->
  preds <> [] -> distributions (length (np_unique y)) preds ->
  em_update train preds (em_iterate train preds k) = em_iterate train preds k ->
  within_of_best 0 train preds (em_iterate train preds k).
Proof. exact EM_fixed_best. Qed.
Print Assumptions C95_em_fixed_point_best.

(** But the test of the code, a small absolute change, says little: for every tolerance there are a
    training set and a bag whose only best prevalences are (1, 0) where EM stops after ten iterations with a first
    prevalence of at most the tolerance, whatever the budget of iterations is. *)
Theorem C95_em_tolerance_refuted : forall eps, 0 < eps ->
  exists y train preds, EM_fit y = Val train /\ preds <> [] /\ distributions (length (np_unique y)) preds /\
    np_unique y = [1; 2]%Z /\
    (forall q, within_of_best 0 train preds q <-> q = [1; 0]) /\
    forall max_iter, (10 <= max_iter)%nat ->
      exists p, EM_predict eps max_iter train preds = Val p /\ nth 0 p 0 <= eps.
Proof. exact EM_early_stop. Qed.
Print Assumptions C95_em_tolerance_refuted.

(** C96: a calibrated classifier, the same class-conditional probabilities in training and test, and a bag
    whose frequencies are those of the prevalences [pi].  Then [pi] has the largest likelihood and is left unchanged
    by the update, and after [m] iterations the mixture of the result is close to the bag.  If the classes
    can be told apart (the rows of G undo F) the result itself is close to [pi]. *)
Theorem C96_em_prior_shift : forall y train M F pi bag eps max_iter c, EM_fit y = Val train ->
  class_conditional (length (np_unique y)) M F -> distribution_over (length (np_unique y)) pi ->
  bag_of (length (np_unique y)) M F pi bag -> 0 < c -> Forall (fun t => c <= t) train ->
  let preds := map (calibrated_posterior train F) bag in
  within_of_best 0 train preds pi /\ em_update train preds pi = pi /\
  exists p m, EM_run eps max_iter train preds = Val (p, m) /\
    hellinger2 M (value_probability (length (np_unique y)) F pi) (value_probability (length (np_unique y)) F p)
      <= ln (1 / c) / INR (S m) /\
    (forall G g j, (j < length (np_unique y))%nat ->
       (forall d, (d < length (np_unique y))%nat -> sumn M (fun x => G j x * F d x) = delta j d) ->
       (forall x, (x < M)%nat -> Rabs (G j x) <= g) ->
       Rabs (nth j p 0 - nth j pi 0) <= 2 * g * sqrt (ln (1 / c) / INR (S m))).
Proof. exact EM_prior_shift. Qed.
Print Assumptions C96_em_prior_shift.

(** Two values, each three times likelier in its class; a bag with one of each. *)
Example C96_hypotheses :
  let F := fun c x => if Nat.eqb c x then 3 / 4 else 1 / 4 in
  let G := fun c x => if Nat.eqb c x then 3 / 2 else - (1 / 2) in
  class_conditional 2 2 F /\ distribution_over 2 [1 / 2; 1 / 2] /\ bag_of 2 2 F [1 / 2; 1 / 2] [0; 1]%nat /\
  (forall j d, (j < 2)%nat -> (d < 2)%nat -> sumn 2 (fun x => G j x * F d x) = delta j d) /\
  (forall j x, (j < 2)%nat -> (x < 2)%nat -> Rabs (G j x) <= 3 / 2).
Proof.
  cbv zeta. split; [|split; [|split; [|split]]].
  - intros c Hc. split.
    + intros x Hx. destruct (Nat.eqb c x); lra.
    + destruct c as [|[|]]; [| |lia]; simpl; lra.
  - split; [reflexivity|]. split; [|simpl; lra]. repeat (apply Forall_cons; [lra|]); apply Forall_nil.
  - split; [congruence|]. split; [repeat constructor|]. intros x Hx. unfold value_probability.
    destruct x as [|[|]]; [| |lia]; simpl; lra.
  - intros j d Hj Hd. unfold delta. destruct j as [|[|]]; [| |lia]; (destruct d as [|[|]]; [| |lia]); simpl; lra.
  - intros j x _ _. destruct (Nat.eqb j x); apply Rabs_le; lra.
Qed.
