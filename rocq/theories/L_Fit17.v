(** * Proofs about QUANTy: which fits return, and after a wrong number of predictions (C137). *)

From Coq Require Import Reals List ZArith Bool Lia Lra Permutation.
From Verif Require Import Num Spec M_Baselines M_Base M_Estimators M_Search Spec_Search M_Optim M_Fit M_Fit2 M_Fit8 M_Fit9 Spec_Fit Spec_Fit4 Spec_Fit8
  Spec_Fit9 L_Num L_Estimators L_Baselines L_Sord L_Search L_Search2 L_Search3 L_Fit3 L_Fit6 L_Fit11 L_Fit15 L_Fit16.
Import ListNotations.
Open Scope R_scope.

Section Object.
Context {X M : Type} (A : nat -> algorithm X M) (argsort : list R -> list nat) (q : nat) (distance : list R -> list R -> R) (tol : R).
Context (SO : sorts argsort pick).
Notation calls := (QUANTy_calls A argsort q distance tol).
Notation fit := (QUANTy_object_fit A argsort).
Notation predict := (QUANTy_object_predict A argsort q distance tol).

Lemma qa_returns x y k rows s w : calls s -> estimator_train (so_base (qa_sorted s)) = None -> estimator_test (so_base (qa_sorted s)) = None ->
  Spec_Fit4.columns k rows -> rows <> [] ->
  ((exists s' w', fit x y (Some (Matrix rows)) s w = (Val tt, s', w')) <->
   (length (np_unique y) <= 2)%nat /\ (2 <= k)%nat /\ ~ wrong_number y rows).
Proof.
  intros C E1 E2 HC HN. rewrite <- (so_returns A argsort tol SO x y k rows (qa_sorted s) w (qa_calls A argsort q distance tol s C) E1 E2 HC HN). split.
  - intros (s' & w' & F). destruct (qa_fit_inv A argsort _ _ _ _ _ _ _ _ F) as [F1 _]. eauto.
  - intros (o & w' & F). unfold QUANTy_object_fit. rewrite F. eauto.
Qed.

Lemma qa_mixes y0 rows0 s0 x0 w0 s w0' c0 c1 f x y k0 rows w : calls s0 -> fit x0 y0 (Some (Matrix rows0)) s0 w0 = (Val tt, s, w0') ->
  np_unique y0 = [c0; c1] -> sorted_fit argsort (np_unique y0) (y_ext y0 (length rows0)) (col 1 rows0) = Val f ->
  estimator_train (so_base (qa_sorted s)) = None -> estimator_test (so_base (qa_sorted s)) = None ->
  np_unique y = [c0; c1] -> wrong_number y rows -> (2 <= k0)%nat -> Spec_Fit4.columns k0 rows ->
  exists s', fit x y (Some (Matrix rows)) s w = (Err IndexError, s', w) /\
  (length rows = length rows0 -> forall t k bag w2, (2 <= k)%nat -> Spec_Fit4.columns k bag ->
    snd (predict t (Some (Matrix bag)) s' w2) =
    as_pair (omap snd (QUANTy_predict argsort q distance tol
      {| b_classes := [c0; c1]; b_scores := pick (col 1 rows) (argsort (col 1 rows)); b_labels := b_labels f |} None (col 1 bag)))) /\
  (length rows <> length rows0 -> forall t p w2, raises (snd (predict t p s' w2))).
Proof.
  intros C F0 U E E1 E2 UY W HK0 HC0. assert (C' : calls s) by (eapply QUANTy_calls_fit; [exact C|exact F0]).
  destruct (qa_fitted A argsort q SO _ _ _ _ _ _ _ _ _ F0 U) as (_ & EM & p & EP & ES & EL & LL & _ & _). cbv zeta in *.
  destruct (qa_fit_inv A argsort _ _ _ _ _ _ _ _ F0) as [F1 _].
  assert (p = Matrix rows0) as ->.
  { destruct (so_fit_base A argsort _ _ _ _ _ _ _ _ F1) as [r0 UF].
    assert (R0 : r0 = Val tt). { unfold SORDy_object_fit in F1. rewrite UF in F1. destruct r0 as [[]| |]; [reflexivity|discriminate..]. }
    subst r0. pose proof (so_given_train A argsort tol _ _ _ _ _ _ _ (qa_calls A argsort q distance tol _ C) UF). congruence. }
  cbn [as_rows] in *. destruct (so_flags A argsort tol _ (qa_calls A argsort q distance tol _ C')) as [HP HNe].
  assert (LC : length (col 1 rows) = length rows) by apply map_length. assert (LC0 : length (col 1 rows0) = length rows0) by apply map_length.
  assert (LS : (length (y_ext y (length rows)) < length rows)%nat) by (pose proof (y_ext_le y (length rows)); unfold wrong_number in W; lia).
  set (o := snd (fst (SORDy_object_fit A argsort x y (Some (Matrix rows)) (qa_sorted s) w))).
  assert (F : SORDy_object_fit A argsort x y (Some (Matrix rows)) (qa_sorted s) w = (Err IndexError, o, w) /\
    so_scores o = Some (pick (col 1 rows) (argsort (col 1 rows))) /\ so_labels o = so_labels (qa_sorted s)).
  { unfold o. unfold SORDy_object_fit, UC_fit. cbv zeta.
    cbn [with_classes needs_predictions_train estimator_train estimator_test probabilistic]. rewrite HNe, HP, E1, E2. cbn [andb ensure_fitted with_train predictions_train_].
    rewrite !UY. cbn [length Nat.ltb Nat.leb]. rewrite (second_matrix k0 rows HK0 HC0). cbn [as_rows]. rewrite LC, (checked_bad argsort SO) by lia. cbn [fst snd so_scores so_labels]. repeat split. }
  destruct F as (F & FS & FL). set (s' := {| qa_sorted := o; qa_mixtures := qa_mixtures s |}).
  assert (G : fit x y (Some (Matrix rows)) s w = (Err IndexError, s', w)) by (unfold QUANTy_object_fit; rewrite F; reflexivity).
  exists s'. split; [exact G|].
  destruct (so_fit_base A argsort _ _ _ _ _ _ _ _ F) as [r1 UF1]. destruct (UC_fit_keeps A _ _ _ _ _ _ _ _ UF1) as (_ & _ & K3 & _ & K5).
  assert (N : length (pick (y_ext y0 (length rows0)) (argsort (col 1 rows0))) = length rows0).
  { rewrite LL, (picked_length argsort SO) by lia. exact LC0. }
  assert (N' : length (pick (col 1 rows) (argsort (col 1 rows))) = length rows) by (rewrite (picked_length argsort SO) by lia; exact LC).
  split; intros LR.
  - intros t k bag w2 HK HC. rewrite qa_given by (cbn [s' qa_sorted]; congruence). unfold qa_answer. rewrite (second_matrix k bag HK HC).
    cbn [s' qa_sorted qa_mixtures]. rewrite K5, FS, FL, EL, UY, EM. cbv zeta. unfold quanty_mixture. rewrite N, N', LR, Nat.eqb_refl. cbn [obind as_rows].
    apply (f_equal as_pair). unfold sorted_fit in E. rewrite U in E. cbn in E. injection E as <-. unfold QUANTy_predict. cbv zeta.
    cbn [b_classes b_scores b_labels nth]. reflexivity.
  - intros t p w2. rewrite qa_predict_val. cbn [s' qa_sorted]. destruct (UC_predict A (so_base o) w2 t p) as [[[]| |] b]; try (intros v; discriminate).
    destruct (predictions_test_ b) as [u|]; [|intros v; discriminate]. unfold qa_answer. destruct (has_second_column u); [|intros v; discriminate].
    cbn [s' qa_sorted qa_mixtures]. rewrite K5, FS, FL, EL, UY. cbv zeta. unfold quanty_mixture. rewrite N, N'.
    destruct (Nat.eqb_spec (length rows0) (length rows)) as [e|_]; [congruence|]. cbn [obind]. intros v. discriminate.
Qed.
End Object.
