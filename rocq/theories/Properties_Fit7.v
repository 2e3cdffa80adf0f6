(** * Property theorems: ACOrdinal after calls of fit that raise (C135). *)

From Coq Require Import Reals List ZArith Bool Lia Lra Permutation.
From Verif Require Import Num Spec M_Baselines M_Base M_Optim Spec_Optim M_Match Spec_Match M_Fit M_Fit2 M_Fit7 Spec_Fit Spec_Fit4 Spec_Fit7
  L_Match5 L_Match11 L_Fit3 L_Fit14.
Import ListNotations.
Open Scope R_scope.

(** C135: a fit that returns makes the object answer as the model of a single fit (C52, C56), whatever calls returned or raised before. *)
Theorem C135_fit_returns : forall (X M : Type) (A : nat -> algorithm X M) N cvx fuel x y l s w s' w' m,
  ACOrdinal_calls A N cvx s -> ACOrdinal_object_fit A x y (Some (Labels l)) s w = (Val tt, s', w') ->
  ACOrdinal_fit N fuel y l = Val m ->
  forall t bag w2, snd (ACOrdinal_object_predict A N cvx t (Some (Labels bag)) s' w2) = snd (ACOrdinal_predict N cvx m bag).
Proof. exact @ar_fit_returns. Qed.
Print Assumptions C135_fit_returns.

(** Without estimators, it returns if and only if the number of predictions is that of the labels or a multiple of it. *)
Theorem C135_returns : forall (X M : Type) (A : nat -> algorithm X M) N cvx x y l s w,
  ACOrdinal_calls A N cvx s -> estimator_train (ar_base s) = None -> estimator_test (ar_base s) = None ->
  ((exists s' w', ACOrdinal_object_fit A x y (Some (Labels l)) s w = (Val tt, s', w')) <-> length (y_ext y (length l)) = length l).
Proof. exact @ar_returns. Qed.
Print Assumptions C135_returns.

(** While every fit has raised, predict raises. *)
Theorem C135_never_fitted : forall (X M : Type) (A : nat -> algorithm X M) N cvx s, ACOrdinal_only_failed A N cvx s ->
  forall t p w, raises (snd (ACOrdinal_object_predict A N cvx t p s w)).
Proof. exact @ar_never_fitted. Qed.
Print Assumptions C135_never_fitted.

(** After a fit that raised, whatever raised: if its labels were of the same classes, the answers stay the same ... *)
Theorem C135_same_classes : forall (X M : Type) (A : nat -> algorithm X M) N cvx y0 s x y given w r s' w',
  ACOrdinal_after_fit A N cvx y0 s -> ACOrdinal_object_fit A x y given s w = (r, s', w') -> raises r -> np_unique y = np_unique y0 ->
  forall t p w2, snd (ACOrdinal_object_predict A N cvx t p s' w2) = snd (ACOrdinal_object_predict A N cvx t p s w2).
Proof. exact @ar_same_classes. Qed.
Print Assumptions C135_same_classes.

(** ... if they were of as many other classes, the object takes the i-th new label for the i-th old one ... *)
Theorem C135_renamed : forall (X M : Type) (A : nat -> algorithm X M) N cvx y0 s x y given w r s' w',
  ACOrdinal_after_fit A N cvx y0 s -> ACOrdinal_object_fit A x y given s w = (r, s', w') -> raises r ->
  length (np_unique y) = length (np_unique y0) ->
  forall t t' bag bag' w2 w3, renamed (np_unique y) (np_unique y0) bag bag' ->
    snd (ACOrdinal_object_predict A N cvx t (Some (Labels bag)) s' w2) = snd (ACOrdinal_object_predict A N cvx t' (Some (Labels bag')) s w3).
Proof. exact @ar_renamed. Qed.
Print Assumptions C135_renamed.

(** ... so that its answers for predictions with two or more columns stay the same, ... *)
Theorem C135_probabilities : forall (X M : Type) (A : nat -> algorithm X M) N cvx y0 s x y given w r s' w',
  ACOrdinal_after_fit A N cvx y0 s -> ACOrdinal_object_fit A x y given s w = (r, s', w') -> raises r ->
  length (np_unique y) = length (np_unique y0) ->
  forall t t' k rows w2 w3, (2 <= k)%nat -> columns k rows ->
    snd (ACOrdinal_object_predict A N cvx t (Some (Matrix rows)) s' w2) = snd (ACOrdinal_object_predict A N cvx t' (Some (Matrix rows)) s w3).
Proof. exact @ar_probabilities. Qed.
Print Assumptions C135_probabilities.

(** ... and bags without any of the new labels are all answered alike; ... *)
Theorem C135_blind : forall (X M : Type) (A : nat -> algorithm X M) N cvx y0 s x y given w r s' w',
  ACOrdinal_after_fit A N cvx y0 s -> ACOrdinal_object_fit A x y given s w = (r, s', w') -> raises r ->
  forall t t' bag bag' w2 w3, bag <> [] -> bag' <> [] -> (forall z, In z bag -> ~ In z y) -> (forall z, In z bag' -> ~ In z y) ->
    snd (ACOrdinal_object_predict A N cvx t (Some (Labels bag)) s' w2) = snd (ACOrdinal_object_predict A N cvx t' (Some (Labels bag')) s' w3).
Proof. exact @ar_blind. Qed.
Print Assumptions C135_blind.

(** ... and if they were of another number of classes, predict raises. *)
Theorem C135_other_number : forall (X M : Type) (A : nat -> algorithm X M) N cvx y0 s x y given w r s' w',
  ACOrdinal_after_fit A N cvx y0 s -> ACOrdinal_object_fit A x y given s w = (r, s', w') -> raises r ->
  length (np_unique y) <> length (np_unique y0) -> forall t p w2, raises (snd (ACOrdinal_object_predict A N cvx t p s' w2)).
Proof. exact @ar_other_number. Qed.
Print Assumptions C135_other_number.

(** That a fit that raises leaves the answers as they were is refuted: this object tells two bags apart before it, and no longer after it. *)
Theorem C135_keeps_refuted : forall N cvx, exact_qp (solve_qp N) -> answering_qp (solve_qp N) -> exact_cvx cvx -> answering_cvx cvx ->
  let fit := ACOrdinal_object_fit no_algorithm [] in
  let ask s bag := snd (ACOrdinal_object_predict no_algorithm N cvx [] (Some (Labels bag)) s nobody) in
  exists s s', fit [0; 1; 2]%Z (Some (Labels [0; 1; 2]%Z)) (ACOrdinal_new None None) nobody = (Val tt, s, nobody) /\
    fit [10; 20; 30]%Z (Some (Labels [10; 20]%Z)) s nobody = (Err ValueError, s', nobody) /\
    ask s [0]%Z = Val [1; 0; 0] /\ ask s [2]%Z = Val [0; 0; 1] /\ ask s' [0]%Z = ask s' [2]%Z.
Proof. exact ar_keeps_refuted. Qed.
Print Assumptions C135_keeps_refuted.

Example C135_hypotheses : forall N cvx fuel,
  let fit := ACOrdinal_object_fit no_algorithm [] in
  exists s s' s'', fit [0; 1; 2]%Z (Some (Labels [0; 1; 2]%Z)) (ACOrdinal_new None None) nobody = (Val tt, s, nobody) /\
    ACOrdinal_after_fit no_algorithm N cvx [0; 1; 2]%Z s /\ (exists m, ACOrdinal_fit N fuel [0; 1; 2]%Z [0; 1; 2]%Z = Val m) /\
    fit [10; 20; 30]%Z (Some (Labels [10; 20]%Z)) s nobody = (Err ValueError, s', nobody) /\
    length (np_unique [10; 20; 30]%Z) = length (np_unique [0; 1; 2]%Z) /\
    renamed (np_unique [10; 20; 30]%Z) (np_unique [0; 1; 2]%Z) [10; 30]%Z [0; 2]%Z /\
    fit [0; 1]%Z (Some (Labels [0; 1; 1]%Z)) s nobody = (Err ValueError, s'', nobody) /\ length (np_unique [0; 1]%Z) <> length (np_unique [0; 1; 2]%Z) /\
    ACOrdinal_only_failed no_algorithm N cvx (ACOrdinal_new None None).
Proof.
  intros N cvx fuel fit.
  set (s := snd (fst (fit [0; 1; 2]%Z (Some (Labels [0; 1; 2]%Z)) (ACOrdinal_new None None) nobody))).
  set (s' := snd (fst (fit [10; 20; 30]%Z (Some (Labels [10; 20]%Z)) s nobody))).
  set (s'' := snd (fst (fit [0; 1]%Z (Some (Labels [0; 1; 1]%Z)) s nobody))).
  assert (F : fit [0; 1; 2]%Z (Some (Labels [0; 1; 2]%Z)) (ACOrdinal_new None None) nobody = (Val tt, s, nobody)) by reflexivity.
  exists s, s', s''. split; [exact F|]. split.
  { exact (ACOrdinal_after_now _ _ _ _ _ _ _ _ _ _ (ACOrdinal_calls_new _ _ _ None None) F). }
  split; [destruct (aco_facts N fuel) as (m & E & _); exists m; exact E|]. split; [reflexivity|]. split; [reflexivity|]. split.
  { repeat constructor; [exists 0%nat|exists 2%nat]; split; reflexivity. }
  split; [reflexivity|]. split; [cbn; lia|]. constructor.
Qed.
