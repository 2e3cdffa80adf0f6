(** * Property theorems: FriedmanME after calls of fit that raise (C133). *)

From Coq Require Import Reals List ZArith Bool Lia Lra.
From Verif Require Import Num Spec M_Baselines M_Base M_Optim Spec_Optim M_Match Spec_Match M_Fit M_Fit2 M_Fit3 M_Fit4 M_Fit5 Spec_Fit Spec_Fit4 Spec_Fit5
  L_Fit3 L_Fit12.
Import ListNotations.
Open Scope R_scope.

(** C133: a fit that returns makes the object answer as the model of a single fit (C51 to C53), whatever calls returned or raised before. *)
Theorem C133_fit_returns : forall (X M : Type) (A : nat -> algorithm X M) N cvx fuel crit tol x y P s w s' w',
  Friedman_calls A N cvx fuel crit tol s -> y <> [] ->
  Friedman_object_fit A N fuel crit x y (Some (Matrix P)) s w = (Val tt, s', w') ->
  exists m, FriedmanME_fit N fuel crit y P = Val m /\
  forall t rows w2, rows <> [] -> columns (length (np_unique y)) rows ->
    snd (Friedman_object_predict A N cvx crit tol t (Some (Matrix rows)) s' w2) = snd (matching_predict N cvx crit tol m rows).
Proof. exact @fr_fit_returns. Qed.
Print Assumptions C133_fit_returns.

(** Without estimators, it returns on exactly the data on which the single fit does. *)
Theorem C133_returns : forall (X M : Type) (A : nat -> algorithm X M) N cvx fuel crit tol x y P s w,
  Friedman_calls A N cvx fuel crit tol s -> estimator_train (fr_base s) = None -> estimator_test (fr_base s) = None ->
  y <> [] -> columns (length (np_unique y)) P ->
  ((exists m, FriedmanME_fit N fuel crit y P = Val m) <->
   exists s' w', Friedman_object_fit A N fuel crit x y (Some (Matrix P)) s w = (Val tt, s', w')).
Proof. exact @fr_fit_when. Qed.
Print Assumptions C133_returns.

(** When the base class raises (no predictions, or estimators that cannot be trained), the answers stay the same if the number of
    classes did; otherwise predict raises. *)
Theorem C133_early : forall (X M : Type) (A : nat -> algorithm X M) N cvx fuel crit tol y0 s x y given w,
  Friedman_after_fit A N cvx fuel crit tol y0 s -> raises (fst (fst (UC_fit A (fr_base s) w x y given))) ->
  exists r s' w', Friedman_object_fit A N fuel crit x y given s w = (r, s', w') /\ raises r /\
  (length (np_unique y) = length (np_unique y0) -> forall t p w2,
     snd (Friedman_object_predict A N cvx crit tol t p s' w2) = snd (Friedman_object_predict A N cvx crit tol t p s w2)) /\
  (length (np_unique y) <> length (np_unique y0) -> forall t p w2, raises (snd (Friedman_object_predict A N cvx crit tol t p s' w2))).
Proof. exact @fr_early. Qed.
Print Assumptions C133_early.

(** Predictions with fewer columns than classes make fit raise IndexError.  Afterwards the object compares the bag, with the thresholds
    of the labels of the fit that failed, to the distributions of the last fit that returned; with another number of classes
    predict raises. *)
Theorem C133_few_columns : forall (X M : Type) (A : nat -> algorithm X M) N cvx fuel crit tol y0 s x y P k w,
  Friedman_after_fit A N cvx fuel crit tol y0 s -> estimator_train (fr_base s) = None -> estimator_test (fr_base s) = None ->
  P <> [] -> columns k P -> (k < length (np_unique y))%nat ->
  exists s', Friedman_object_fit A N fuel crit x y (Some (Matrix P)) s w = (Err IndexError, s', w) /\
  (length (np_unique y) = length (np_unique y0) ->
   exists answer, forall t rows w2, rows <> [] -> columns (length (np_unique y0)) rows ->
     snd (Friedman_object_predict A N cvx crit tol t (Some (Matrix rows)) s w2) = answer (above (class_shares y0) rows) /\
     snd (Friedman_object_predict A N cvx crit tol t (Some (Matrix rows)) s' w2) = answer (above (class_shares y) rows)) /\
  (length (np_unique y) <> length (np_unique y0) -> forall t p w2, raises (snd (Friedman_object_predict A N cvx crit tol t p s' w2))).
Proof. exact @few_columns. Qed.
Print Assumptions C133_few_columns.

(** The same mix of two fits answers after a wrong number of predictions, with HD or L1, once the object has answered. *)
Theorem C133_wrong_number_after_an_answer :
  forall (X M : Type) (A : nat -> algorithm X M) N cvx fuel crit tol y0 s1 t1 p1 w1 s2 r1 x y P w,
  needs_cvx crit = true -> Friedman_after_fit A N cvx fuel crit tol y0 s1 ->
  estimator_train (fr_base s1) = None -> estimator_test (fr_base s1) = None ->
  Friedman_object_predict A N cvx crit tol t1 p1 s1 w1 = (s2, Val r1) ->
  y <> [] -> length (np_unique y) = length (np_unique y0) -> columns (length (np_unique y)) P -> wrong_number y P ->
  exists s3 answer, Friedman_object_fit A N fuel crit x y (Some (Matrix P)) s2 w = (Err IndexError, s3, w) /\
  forall t rows w2, rows <> [] -> columns (length (np_unique y0)) rows ->
     snd (Friedman_object_predict A N cvx crit tol t (Some (Matrix rows)) s2 w2) = answer (above (class_shares y0) rows) /\
     snd (Friedman_object_predict A N cvx crit tol t (Some (Matrix rows)) s3 w2) = answer (above (class_shares y) rows).
Proof. exact @fr_short_cached. Qed.
Print Assumptions C133_wrong_number_after_an_answer.

(** If it had not answered yet, it forgets what it was fitted with: it answers as an object on which only the failing fit was called. *)
Theorem C133_wrong_number_before_an_answer :
  forall (X M : Type) (A : nat -> algorithm X M) N cvx fuel crit tol x0 y0 given0 s0 w0 s w1 x y P w,
  crit <> Named L2 -> Friedman_calls A N cvx fuel crit tol s0 ->
  estimator_train (fr_base s0) = None -> estimator_test (fr_base s0) = None ->
  Friedman_object_fit A N fuel crit x0 y0 given0 s0 w0 = (Val tt, s, w1) ->
  y <> [] -> columns (length (np_unique y)) P -> wrong_number y P ->
  exists s' s'', Friedman_object_fit A N fuel crit x y (Some (Matrix P)) s w = (Err IndexError, s', w) /\
  Friedman_object_fit A N fuel crit x y (Some (Matrix P)) (Friedman_new None None) w = (Err IndexError, s'', w) /\
  forall t p w2, snd (Friedman_object_predict A N cvx crit tol t p s' w2) = snd (Friedman_object_predict A N cvx crit tol t p s'' w2).
Proof. exact @fr_short_forgets. Qed.
Print Assumptions C133_wrong_number_before_an_answer.

(** With L2 it answers every bag alike, whatever it was fitted with before. *)
Theorem C133_wrong_number_L2 : forall (X M : Type) (A : nat -> algorithm X M) N cvx fuel crit tol x y P s w,
  crit = Named L2 -> Friedman_calls A N cvx fuel crit tol s ->
  estimator_train (fr_base s) = None -> estimator_test (fr_base s) = None ->
  y <> [] -> columns (length (np_unique y)) P -> wrong_number y P ->
  exists s' r, Friedman_object_fit A N fuel crit x y (Some (Matrix P)) s w = (Err IndexError, s', w) /\
  forall t rows w2, rows <> [] -> columns (length (np_unique y)) rows ->
    snd (Friedman_object_predict A N cvx crit tol t (Some (Matrix rows)) s' w2) = r.
Proof. exact @fr_short_l2. Qed.
Print Assumptions C133_wrong_number_L2.

(** That a FriedmanME none of whose fits returned never answers is refuted: it answers after every such fit. *)
Theorem C133_never_fitted_refuted : forall (X M : Type) (A : nat -> algorithm X M) N cvx fuel crit tol x y P w rows t w2,
  answering_cvx cvx -> needs_cvx crit = true ->
  y <> [] -> columns (length (np_unique y)) P -> wrong_number y P -> rows <> [] -> columns (length (np_unique y)) rows ->
  exists s p, Friedman_object_fit A N fuel crit x y (Some (Matrix P)) (Friedman_new None None) w = (Err IndexError, s, w) /\
    snd (Friedman_object_predict A N cvx crit tol t (Some (Matrix rows)) s w2) = Val p.
Proof. exact @fr_never_fitted. Qed.
Print Assumptions C133_never_fitted_refuted.

Example C133_hypotheses : forall N fuel, answering_qp (solve_qp N) ->
  let y := [0; 1]%Z in let preds := [[9/10; 1/10]; [1/2; 1/2]] in
  let fit := Friedman_object_fit no_algorithm N fuel (Named HD) [] y in
  columns 2 preds /\ wrong_number y ([1/2; 1/2] :: preds) /\ columns 1 [[9/10]; [1/2]] /\
  (forall s, Friedman_after_fit no_algorithm N L_Optim5.ideal_cvx fuel (Named HD) 0 y s ->
     estimator_train (fr_base s) = None -> raises (fst (fst (UC_fit no_algorithm (fr_base s) nobody [] y None)))) /\
  above (class_shares [0; 1]%Z) preds = [1; 1/2] /\ above (class_shares [0; 0; 0; 1]%Z) preds = [1/2; 1/2] /\
  exists s w r, fit (Some (Matrix preds)) (Friedman_new None None) nobody = (Val tt, s, w) /\
    estimator_train (fr_base s) = None /\ estimator_test (fr_base s) = None /\
    snd (Friedman_object_predict no_algorithm N L_Optim5.ideal_cvx (Named HD) 0 [] (Some (Matrix preds)) s nobody) = Val r.
Proof.
  intros N fuel HQ y preds fit.
  assert (HC : columns 2 preds) by (repeat constructor).
  split; [exact HC|]. split; [unfold wrong_number; cbn; lia|]. split; [repeat constructor|]. split.
  { intros s HA HE v. destruct (fr_flags _ _ _ _ _ _ _ (fr_after_calls _ _ _ _ _ _ _ _ HA)) as [_ HN].
    unfold UC_fit. cbv zeta. cbn [with_classes needs_predictions_train estimator_train]. rewrite HN, HE. discriminate. }
  split; [|split].
  { unfold above, class_shares, preds. change (np_unique [0; 1]%Z) with [0; 1]%Z. cbn. repeat (destruct (Rle_dec _ _); try lra). f_equal; [lra|]. f_equal. lra. }
  { unfold above, class_shares, preds. change (np_unique [0; 0; 0; 1]%Z) with [0; 1]%Z. cbn. repeat (destruct (Rle_dec _ _); try lra). f_equal; [lra|]. f_equal. lra. }
  assert (K : Friedman_calls no_algorithm N L_Optim5.ideal_cvx fuel (Named HD) 0 (Friedman_new None None)) by constructor.
  destruct (L_Match10.Friedman_HD_wrong N fuel L_Optim5.ideal_cvx 0 L_Optim5.ideal_cvx_exact) as (m & Em & _ & HO).
  assert (NE : y <> []) by discriminate.
  destruct (proj1 (C133_returns _ _ _ _ _ _ _ _ [] y preds _ nobody K eq_refl eq_refl NE HC)) as (s & w & F); [exists m; exact Em|].
  destruct (C133_fit_returns _ _ _ _ _ _ _ _ _ _ _ _ _ _ _ K NE F) as (m' & Em' & HP).
  exists s, w. assert (E : Val m' = Val m) by (rewrite <- Em'; exact Em). injection E as ->.
  destruct (fr_fit_base _ _ _ _ _ _ _ _ _ _ _ _ F) as [r0 U]. destruct (UC_fit_keeps _ _ _ _ _ _ _ _ _ U) as (K1 & K2 & _).
  eexists. split; [exact F|]. split; [exact K1|]. split; [exact K2|]. rewrite (HP [] preds nobody) by (try discriminate; exact HC).
  apply (proj2 HO); [exact L_Optim5.ideal_cvx_answers|exact HQ].
Qed.
