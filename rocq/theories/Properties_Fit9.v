(** * Property theorems: QUANTy after calls of fit that raise (C137). *)

From Coq Require Import Reals List ZArith Bool Lia Lra.
From Verif Require Import Num Spec M_Baselines M_Base M_Estimators M_Search Spec_Search M_Optim M_Fit M_Fit2 M_Fit8 M_Fit9 Spec_Fit Spec_Fit4 Spec_Fit8
  Spec_Fit9 L_Search3 L_Invariance L_Fit3 L_Fit15 L_Fit16 L_Fit17.
Import ListNotations.
Open Scope R_scope.

(** C137: after a fit that returned, and any predictions since, the object answers as the model of a single fit and a first prediction,
    whatever calls returned or raised before. *)
Theorem C137_fit_returns : forall (X M : Type) (A : nat -> algorithm X M) argsort q distance tol, sorts argsort pick ->
  forall x y rows s w s' w' c0 c1 f, QUANTy_calls A argsort q distance tol s ->
  QUANTy_object_fit A argsort x y (Some (Matrix rows)) s w = (Val tt, s', w') ->
  np_unique y = [c0; c1] -> sorted_fit argsort (np_unique y) (y_ext y (length rows)) (col 1 rows) = Val f ->
  forall s2, QUANTy_predictions A argsort q distance tol s' s2 -> forall t k bag w2, (2 <= k)%nat -> columns k bag ->
    snd (QUANTy_object_predict A argsort q distance tol t (Some (Matrix bag)) s2 w2) =
    as_pair (omap snd (QUANTy_predict argsort q distance tol f None (col 1 bag))).
Proof. exact @qa_fit_returns. Qed.
Print Assumptions C137_fit_returns.

(** Without estimators, fit returns if and only if there are at most two classes, two columns or more, and the number of predictions is that
    of the labels or a multiple of it. *)
Theorem C137_returns : forall (X M : Type) (A : nat -> algorithm X M) argsort q distance tol, sorts argsort pick ->
  forall x y k rows s w, QUANTy_calls A argsort q distance tol s ->
  estimator_train (so_base (qa_sorted s)) = None -> estimator_test (so_base (qa_sorted s)) = None -> columns k rows -> rows <> [] ->
  ((exists s' w', QUANTy_object_fit A argsort x y (Some (Matrix rows)) s w = (Val tt, s', w')) <->
   (length (np_unique y) <= 2)%nat /\ (2 <= k)%nat /\ ~ wrong_number y rows).
Proof. exact @qa_returns. Qed.
Print Assumptions C137_returns.

(** While every fit has raised, predict raises. *)
Theorem C137_never_fitted : forall (X M : Type) (A : nat -> algorithm X M) argsort q distance tol s, QUANTy_only_failed A argsort q distance tol s ->
  forall t p w, raises (snd (QUANTy_object_predict A argsort q distance tol t p s w)).
Proof. exact @qa_never_fitted. Qed.
Print Assumptions C137_never_fitted.

(** After a fit that raised anything but IndexError: if the two smallest of its labels are the two classes of the object, all the answers
    stay the same, ... *)
Theorem C137_keeps : forall (X M : Type) (A : nat -> algorithm X M) argsort q distance tol, sorts argsort pick ->
  forall x0 y0 given0 s0 w0 s1 w1 c0 c1 rest s x y given w r s' w', QUANTy_calls A argsort q distance tol s0 ->
  QUANTy_object_fit A argsort x0 y0 given0 s0 w0 = (Val tt, s1, w1) -> np_unique y0 = [c0; c1] ->
  QUANTy_predictions A argsort q distance tol s1 s ->
  QUANTy_object_fit A argsort x y given s w = (r, s', w') -> raises r -> r <> Err IndexError -> np_unique y = c0 :: c1 :: rest ->
  forall t p w2, snd (QUANTy_object_predict A argsort q distance tol t p s' w2) = snd (QUANTy_object_predict A argsort q distance tol t p s w2).
Proof. exact @qa_keeps. Qed.
Print Assumptions C137_keeps.

(** ... and if it comes right after the fit that returned and shares no label with it, predict raises for every bag. *)
Theorem C137_blind : forall (X M : Type) (A : nat -> algorithm X M) argsort q distance tol, sorts argsort pick ->
  forall x0 y0 given0 s0 w0 s c0 c1 w1 x y given w r s' w',
  QUANTy_object_fit A argsort x0 y0 given0 s0 w0 = (Val tt, s, w1) -> np_unique y0 = [c0; c1] ->
  QUANTy_object_fit A argsort x y given s w = (r, s', w') -> raises r -> r <> Err IndexError -> (forall z, In z y0 -> ~ In z y) ->
  forall t p w2, raises (snd (QUANTy_object_predict A argsort q distance tol t p s' w2)).
Proof. exact @qa_blind. Qed.
Print Assumptions C137_blind.

(** A fit with a wrong number of predictions right after one that returned raises IndexError, but its scores are kept with the old labels: if
    there are as many as before, the object answers as if it had been trained with that mixture; otherwise predict raises. *)
Theorem C137_mixes : forall (X M : Type) (A : nat -> algorithm X M) argsort q distance tol, sorts argsort pick ->
  forall y0 rows0 s0 x0 w0 s w0' c0 c1 f x y k0 rows w, QUANTy_calls A argsort q distance tol s0 ->
  QUANTy_object_fit A argsort x0 y0 (Some (Matrix rows0)) s0 w0 = (Val tt, s, w0') ->
  np_unique y0 = [c0; c1] -> sorted_fit argsort (np_unique y0) (y_ext y0 (length rows0)) (col 1 rows0) = Val f ->
  estimator_train (so_base (qa_sorted s)) = None -> estimator_test (so_base (qa_sorted s)) = None ->
  np_unique y = [c0; c1] -> wrong_number y rows -> (2 <= k0)%nat -> columns k0 rows ->
  exists s', QUANTy_object_fit A argsort x y (Some (Matrix rows)) s w = (Err IndexError, s', w) /\
  (length rows = length rows0 -> forall t k bag w2, (2 <= k)%nat -> columns k bag ->
    snd (QUANTy_object_predict A argsort q distance tol t (Some (Matrix bag)) s' w2) =
    as_pair (omap snd (QUANTy_predict argsort q distance tol
      {| b_classes := [c0; c1]; b_scores := pick (col 1 rows) (argsort (col 1 rows)); b_labels := b_labels f |} None (col 1 bag)))) /\
  (length rows <> length rows0 -> forall t p w2, raises (snd (QUANTy_object_predict A argsort q distance tol t p s' w2))).
Proof. exact @qa_mixes. Qed.
Print Assumptions C137_mixes.

Example C137_hypotheses : sorts some_argsort pick /\ forall q distance tol,
  let fit := QUANTy_object_fit no_algorithm some_argsort [] in
  exists s s' s'', fit [0; 1]%Z (Some (Matrix [[1; 0]; [0; 1]])) (QUANTy_new None None) nobody = (Val tt, s, nobody) /\
    QUANTy_calls no_algorithm some_argsort q distance tol (QUANTy_new None None) /\
    QUANTy_predictions no_algorithm some_argsort q distance tol s
      (fst (QUANTy_object_predict no_algorithm some_argsort q distance tol [] (Some (Matrix [[1/2; 1/2]])) s nobody)) /\
    (exists f, sorted_fit some_argsort (np_unique [0; 1]%Z) (y_ext [0; 1]%Z 2) (col 1 [[1; 0]; [0; 1]]) = Val f) /\
    fit [0; 1; 2]%Z (Some (Matrix [[1; 0]; [0; 1]; [0; 1]])) s nobody = (Err TypeError, s', nobody) /\
    np_unique [0; 1; 2]%Z = 0%Z :: 1%Z :: [2]%Z /\
    fit [5; 6]%Z None s nobody = (Err ValueError, s'', nobody) /\
    wrong_number [0; 0; 1]%Z [[1/2; 1/2]; [1/2; 1/2]] /\ np_unique [0; 0; 1]%Z = [0; 1]%Z /\
    estimator_train (so_base (qa_sorted s)) = None /\ estimator_test (so_base (qa_sorted s)) = None /\
    QUANTy_only_failed no_algorithm some_argsort q distance tol (QUANTy_new None None).
Proof.
  split; [exact some_argsort_sorts|]. intros q distance tol fit.
  set (s := snd (fst (fit [0; 1]%Z (Some (Matrix [[1; 0]; [0; 1]])) (QUANTy_new None None) nobody))).
  assert (F : fit [0; 1]%Z (Some (Matrix [[1; 0]; [0; 1]])) (QUANTy_new None None) nobody = (Val tt, s, nobody) /\
    so_base (qa_sorted s) = with_train (with_classes (so_base (SORDy_new None None)) [0; 1]%Z) (Matrix [[1; 0]; [0; 1]]) (Some [0; 1]%Z)).
  { unfold s, fit, QUANTy_object_fit, SORDy_object_fit. cbn -[pick_checked some_argsort].
    rewrite (checked_ok some_argsort some_argsort_sorts) by (cbn; lia). split; reflexivity. }
  destruct F as [F B]. set (s' := snd (fst (fit [0; 1; 2]%Z (Some (Matrix [[1; 0]; [0; 1]; [0; 1]])) s nobody))).
  set (s'' := snd (fst (fit [5; 6]%Z None s nobody))). exists s, s', s''. split; [exact F|]. split; [constructor|].
  split; [apply QUANTy_one_more; constructor|]. split; [eexists; reflexivity|].
  split; [unfold s', fit, QUANTy_object_fit, SORDy_object_fit; rewrite B; reflexivity|]. split; [reflexivity|].
  split; [unfold s'', fit, QUANTy_object_fit, SORDy_object_fit; rewrite B; reflexivity|]. split; [unfold wrong_number; cbn; lia|]. split; [reflexivity|].
  rewrite B. split; [reflexivity|]. split; [reflexivity|]. constructor.
Qed.
