(** * Property theorems: SORDy after calls of fit that raise (C136). *)

From Coq Require Import Reals List ZArith Bool Lia Lra.
From Verif Require Import Num Spec M_Baselines M_Base M_Estimators M_Search Spec_Search M_Optim M_Fit M_Fit2 M_Fit8 Spec_Fit Spec_Fit4 Spec_Fit8
  L_Search3 L_Invariance L_Fit3 L_Fit15.
Import ListNotations.
Open Scope R_scope.

(** C136: a fit that returns makes the object answer as the model of a single fit (C47), whatever calls returned or raised before. *)
Theorem C136_fit_returns : forall (X M : Type) (A : nat -> algorithm X M) argsort tol, sorts argsort pick ->
  forall x y rows s w s' w' c0 c1 f, SORDy_calls A argsort tol s ->
  SORDy_object_fit A argsort x y (Some (Matrix rows)) s w = (Val tt, s', w') ->
  np_unique y = [c0; c1] -> sorted_fit argsort (np_unique y) (y_ext y (length rows)) (col 1 rows) = Val f ->
  forall t k bag w2, (2 <= k)%nat -> columns k bag ->
    snd (SORDy_object_predict A argsort tol t (Some (Matrix bag)) s' w2) = as_pair (SORDy_predict argsort tol f (col 1 bag)).
Proof. exact @so_fit_returns. Qed.
Print Assumptions C136_fit_returns.

(** Without estimators, it returns if and only if there are at most two classes, two columns or more, and the number of predictions is that
    of the labels or a multiple of it. *)
Theorem C136_returns : forall (X M : Type) (A : nat -> algorithm X M) argsort tol, sorts argsort pick ->
  forall x y k rows s w, SORDy_calls A argsort tol s -> estimator_train (so_base s) = None -> estimator_test (so_base s) = None ->
  columns k rows -> rows <> [] ->
  ((exists s' w', SORDy_object_fit A argsort x y (Some (Matrix rows)) s w = (Val tt, s', w')) <->
   (length (np_unique y) <= 2)%nat /\ (2 <= k)%nat /\ ~ wrong_number y rows).
Proof. exact @so_returns. Qed.
Print Assumptions C136_returns.

(** While every fit has raised, predict raises. *)
Theorem C136_never_fitted : forall (X M : Type) (A : nat -> algorithm X M) argsort tol s, SORDy_only_failed A argsort tol s ->
  forall t p w, raises (snd (SORDy_object_predict A argsort tol t p s w)).
Proof. exact @so_never_fitted. Qed.
Print Assumptions C136_never_fitted.

(** After a fit that raised anything but IndexError (more than two classes, no predictions, an estimator that raises): if the two smallest
    of its labels are the two classes of the object, all the answers stay the same, ... *)
Theorem C136_keeps : forall (X M : Type) (A : nat -> algorithm X M) argsort tol, sorts argsort pick ->
  forall y0 c0 c1 rest s x y given w r s' w', SORDy_after_fit A argsort tol y0 s -> np_unique y0 = [c0; c1] ->
  SORDy_object_fit A argsort x y given s w = (r, s', w') -> raises r -> r <> Err IndexError -> np_unique y = c0 :: c1 :: rest ->
  forall t p w2, snd (SORDy_object_predict A argsort tol t p s' w2) = snd (SORDy_object_predict A argsort tol t p s w2).
Proof. exact @so_keeps. Qed.
Print Assumptions C136_keeps.

(** ... and after any fit that raised, if it shared no label with the last one that returned, all the bags are answered alike. *)
Theorem C136_blind : forall (X M : Type) (A : nat -> algorithm X M) argsort tol, sorts argsort pick ->
  forall y0 s x y given w r s' w', SORDy_after_fit A argsort tol y0 s ->
  SORDy_object_fit A argsort x y given s w = (r, s', w') -> raises r -> (forall z, In z y0 -> ~ In z y) ->
  forall t t' k k' bag bag' w2 w3, (2 <= k)%nat -> columns k bag -> (2 <= k')%nat -> columns k' bag' ->
    snd (SORDy_object_predict A argsort tol t (Some (Matrix bag)) s' w2) = snd (SORDy_object_predict A argsort tol t' (Some (Matrix bag')) s' w3).
Proof. exact @so_blind. Qed.
Print Assumptions C136_blind.

(** A fit with a wrong number of predictions raises IndexError, but its scores are kept with the old labels: if there are as many as before,
    the object answers as if it had been trained with that mixture. *)
Theorem C136_mixes : forall (X M : Type) (A : nat -> algorithm X M) argsort tol, sorts argsort pick ->
  forall y0 rows0 s0 x0 w0 s w0' c0 c1 f x y k0 rows w, SORDy_calls A argsort tol s0 ->
  SORDy_object_fit A argsort x0 y0 (Some (Matrix rows0)) s0 w0 = (Val tt, s, w0') ->
  np_unique y0 = [c0; c1] -> sorted_fit argsort (np_unique y0) (y_ext y0 (length rows0)) (col 1 rows0) = Val f ->
  estimator_train (so_base s) = None -> estimator_test (so_base s) = None ->
  np_unique y = [c0; c1] -> wrong_number y rows -> (2 <= k0)%nat -> columns k0 rows -> length rows = length rows0 ->
  exists s', SORDy_object_fit A argsort x y (Some (Matrix rows)) s w = (Err IndexError, s', w) /\
  forall t k bag w2, (2 <= k)%nat -> columns k bag ->
    snd (SORDy_object_predict A argsort tol t (Some (Matrix bag)) s' w2) =
    as_pair (SORDy_predict argsort tol {| b_classes := [c0; c1]; b_scores := pick (col 1 rows) (argsort (col 1 rows)); b_labels := b_labels f |} (col 1 bag)).
Proof. exact @so_mixes. Qed.
Print Assumptions C136_mixes.

(** That a fit that raises leaves the answers as they were is refuted: this object tells two bags apart before it, and no longer after it. *)
Theorem C136_keeps_refuted : forall argsort tol, sorts argsort pick -> 0 < tol < 1 ->
  let fit := SORDy_object_fit no_algorithm argsort [] in
  let ask s bag := snd (SORDy_object_predict no_algorithm argsort tol [] (Some (Matrix bag)) s nobody) in
  exists s s', fit [0; 1]%Z (Some (Matrix [[1; 0]; [0; 1]])) (SORDy_new None None) nobody = (Val tt, s, nobody) /\
    fit [5; 6]%Z None s nobody = (Err ValueError, s', nobody) /\
    ask s [[1; 0]] <> ask s [[0; 1]] /\ ask s' [[1; 0]] = ask s' [[0; 1]].
Proof. exact so_keeps_refuted. Qed.
Print Assumptions C136_keeps_refuted.

Example C136_hypotheses : sorts some_argsort pick /\ forall tol,
  let fit := SORDy_object_fit no_algorithm some_argsort [] in
  exists s s' s'', fit [0; 1]%Z (Some (Matrix [[1; 0]; [0; 1]])) (SORDy_new None None) nobody = (Val tt, s, nobody) /\
    SORDy_after_fit no_algorithm some_argsort tol [0; 1]%Z s /\
    (exists f, sorted_fit some_argsort (np_unique [0; 1]%Z) (y_ext [0; 1]%Z 2) (col 1 [[1; 0]; [0; 1]]) = Val f) /\
    fit [0; 1; 2]%Z (Some (Matrix [[1; 0]; [0; 1]; [0; 1]])) s nobody = (Err TypeError, s', nobody) /\
    np_unique [0; 1; 2]%Z = 0%Z :: 1%Z :: [2]%Z /\
    fit [5; 6]%Z None s nobody = (Err ValueError, s'', nobody) /\
    wrong_number [0; 0; 1]%Z [[1/2; 1/2]; [1/2; 1/2]] /\ np_unique [0; 0; 1]%Z = [0; 1]%Z /\
    estimator_train (so_base s) = None /\ estimator_test (so_base s) = None /\
    SORDy_only_failed no_algorithm some_argsort tol (SORDy_new None None).
Proof.
  split; [exact some_argsort_sorts|]. intros tol fit.
  set (s := snd (fst (fit [0; 1]%Z (Some (Matrix [[1; 0]; [0; 1]])) (SORDy_new None None) nobody))).
  assert (F : fit [0; 1]%Z (Some (Matrix [[1; 0]; [0; 1]])) (SORDy_new None None) nobody = (Val tt, s, nobody) /\
    so_base s = with_train (with_classes (so_base (SORDy_new None None)) [0; 1]%Z) (Matrix [[1; 0]; [0; 1]]) (Some [0; 1]%Z)).
  { unfold s, fit, SORDy_object_fit. cbn -[pick_checked some_argsort]. rewrite (checked_ok some_argsort some_argsort_sorts) by (cbn; lia). split; reflexivity. }
  destruct F as [F B]. set (s' := snd (fst (fit [0; 1; 2]%Z (Some (Matrix [[1; 0]; [0; 1]; [0; 1]])) s nobody))).
  set (s'' := snd (fst (fit [5; 6]%Z None s nobody))). exists s, s', s''. split; [exact F|]. split.
  { exact (SORDy_after_now _ _ _ _ _ _ _ _ _ _ (SORDy_calls_new _ _ _ None None) F). }
  split; [eexists; reflexivity|]. split; [unfold s', fit, SORDy_object_fit; rewrite B; reflexivity|]. split; [reflexivity|].
  split; [unfold s'', fit, SORDy_object_fit; rewrite B; reflexivity|]. split; [unfold wrong_number; cbn; lia|]. split; [reflexivity|].
  rewrite B. split; [reflexivity|]. split; [reflexivity|]. constructor.
Qed.
