(** * Property theorems: DFy after calls of fit that raise (C132). *)

From Coq Require Import Reals List ZArith Bool Lia Lra.
From Verif Require Import Num Spec M_Baselines M_Base M_Optim Spec_Optim M_Match Spec_Match M_Fit M_Fit2 M_Fit3 M_Fit4 Spec_Fit Spec_Fit4 L_Fit3 L_Fit11.
Import ListNotations.
Open Scope R_scope.

(** C132: a fit that returns makes the object answer as the model of a single fit (C51 to C53), whatever calls returned or raised before. *)
Theorem C132_fit_returns : forall (X M : Type) (A : nat -> algorithm X M) ppf N cvx fuel kind n_bins strat crit tol x y P s w s' w',
  DFy_calls A ppf N cvx fuel kind n_bins strat crit tol s -> y <> [] -> columns (length (np_unique y)) P ->
  DFy_object_fit A ppf N fuel kind n_bins strat crit x y (Some (Matrix P)) s w = (Val tt, s', w') ->
  exists m, DFy_fit ppf N fuel kind n_bins strat crit y P = Val m /\
  forall t rows w2, rows <> [] -> columns (length (np_unique y)) rows ->
    snd (DFy_object_predict A N cvx kind crit tol t (Some (Matrix rows)) s' w2) = snd (matching_predict N cvx crit tol m rows).
Proof. exact @fit_returns. Qed.
Print Assumptions C132_fit_returns.

(** Without estimators, it returns on exactly the data on which the single fit does. *)
Theorem C132_returns : forall (X M : Type) (A : nat -> algorithm X M) ppf N cvx fuel kind n_bins strat crit tol x y P s w,
  DFy_calls A ppf N cvx fuel kind n_bins strat crit tol s -> estimator_train (dy_base s) = None -> estimator_test (dy_base s) = None ->
  y <> [] -> columns (length (np_unique y)) P ->
  ((exists m, DFy_fit ppf N fuel kind n_bins strat crit y P = Val m) <->
   exists s' w', DFy_object_fit A ppf N fuel kind n_bins strat crit x y (Some (Matrix P)) s w = (Val tt, s', w')).
Proof. exact @fit_when. Qed.
Print Assumptions C132_returns.

(** When the base class raises (no predictions, or estimators that cannot be trained), the answers stay the same if the number of
    classes did; if the number of columns that are used changed, predict raises. *)
Theorem C132_early : forall (X M : Type) (A : nat -> algorithm X M) ppf N cvx fuel kind n_bins strat crit tol y0 s x y given w,
  DFy_after_fit A ppf N cvx fuel kind n_bins strat crit tol y0 s -> raises (fst (fst (UC_fit A (dy_base s) w x y given))) ->
  exists r s' w', DFy_object_fit A ppf N fuel kind n_bins strat crit x y given s w = (r, s', w') /\ raises r /\
  (length (np_unique y) = length (np_unique y0) -> forall t p w2,
     snd (DFy_object_predict A N cvx kind crit tol t p s' w2) = snd (DFy_object_predict A N cvx kind crit tol t p s w2)) /\
  (n_descriptors (length (np_unique y)) <> n_descriptors (length (np_unique y0)) -> forall t p w2,
     raises (snd (DFy_object_predict A N cvx kind crit tol t p s' w2))).
Proof. exact @early. Qed.
Print Assumptions C132_early.

(** A fit with a wrong number of predictions raises IndexError.  With HD or L1, once the object has answered, its answers stay the same. *)
Theorem C132_wrong_number_after_an_answer :
  forall (X M : Type) (A : nat -> algorithm X M) ppf N cvx fuel kind n_bins strat crit tol y0 s1 t1 p1 w1 s2 r1 x y P w,
  needs_cvx crit = true -> strat = EqualWidth -> (0 < n_bins)%nat -> DFy_after_fit A ppf N cvx fuel kind n_bins strat crit tol y0 s1 ->
  estimator_train (dy_base s1) = None -> estimator_test (dy_base s1) = None ->
  DFy_object_predict A N cvx kind crit tol t1 p1 s1 w1 = (s2, Val r1) ->
  y <> [] -> length (np_unique y) = length (np_unique y0) -> columns (length (np_unique y)) P -> wrong_number y P ->
  exists s3, DFy_object_fit A ppf N fuel kind n_bins strat crit x y (Some (Matrix P)) s2 w = (Err IndexError, s3, w) /\
  forall t p w2, snd (DFy_object_predict A N cvx kind crit tol t p s3 w2) = snd (DFy_object_predict A N cvx kind crit tol t p s2 w2).
Proof. exact @short_cached. Qed.
Print Assumptions C132_wrong_number_after_an_answer.

(** If it had not answered yet, it forgets what it was fitted with: it answers as an object on which only the failing fit was called. *)
Theorem C132_wrong_number_before_an_answer :
  forall (X M : Type) (A : nat -> algorithm X M) ppf N cvx fuel kind n_bins strat crit tol x0 y0 given0 s0 w0 s w1 x y P w,
  crit <> Named L2 -> strat = EqualWidth -> (0 < n_bins)%nat -> DFy_calls A ppf N cvx fuel kind n_bins strat crit tol s0 ->
  estimator_train (dy_base s0) = None -> estimator_test (dy_base s0) = None ->
  DFy_object_fit A ppf N fuel kind n_bins strat crit x0 y0 given0 s0 w0 = (Val tt, s, w1) ->
  y <> [] -> columns (length (np_unique y)) P -> wrong_number y P ->
  exists s' s'', DFy_object_fit A ppf N fuel kind n_bins strat crit x y (Some (Matrix P)) s w = (Err IndexError, s', w) /\
  DFy_object_fit A ppf N fuel kind n_bins strat crit x y (Some (Matrix P)) (DFy_new None None) w = (Err IndexError, s'', w) /\
  forall t p w2, snd (DFy_object_predict A N cvx kind crit tol t p s' w2) = snd (DFy_object_predict A N cvx kind crit tol t p s'' w2).
Proof. exact @short_forgets. Qed.
Print Assumptions C132_wrong_number_before_an_answer.

(** With L2 it answers every bag alike, whatever it was fitted with before. *)
Theorem C132_wrong_number_L2 : forall (X M : Type) (A : nat -> algorithm X M) ppf N cvx fuel kind n_bins strat crit tol x y P s w,
  crit = Named L2 -> strat = EqualWidth -> (0 < n_bins)%nat -> DFy_calls A ppf N cvx fuel kind n_bins strat crit tol s ->
  estimator_train (dy_base s) = None -> estimator_test (dy_base s) = None ->
  y <> [] -> columns (length (np_unique y)) P -> wrong_number y P ->
  exists s' r, DFy_object_fit A ppf N fuel kind n_bins strat crit x y (Some (Matrix P)) s w = (Err IndexError, s', w) /\
  forall t rows w2, rows <> [] -> columns (length (np_unique y)) rows ->
    snd (DFy_object_predict A N cvx kind crit tol t (Some (Matrix rows)) s' w2) = r.
Proof. exact @short_l2. Qed.
Print Assumptions C132_wrong_number_L2.

(** That a DFy none of whose fits returned never answers is refuted: it answers after every such fit. *)
Theorem C132_never_fitted_refuted : forall (X M : Type) (A : nat -> algorithm X M) ppf N cvx fuel kind n_bins strat crit tol x y P w rows t w2,
  answering_cvx cvx -> needs_cvx crit = true -> strat = EqualWidth -> (0 < n_bins)%nat ->
  y <> [] -> columns (length (np_unique y)) P -> wrong_number y P -> rows <> [] -> columns (length (np_unique y)) rows ->
  exists s p, DFy_object_fit A ppf N fuel kind n_bins strat crit x y (Some (Matrix P)) (DFy_new None None) w = (Err IndexError, s, w) /\
    snd (DFy_object_predict A N cvx kind crit tol t (Some (Matrix rows)) s w2) = Val p.
Proof. exact @never_fitted. Qed.
Print Assumptions C132_never_fitted_refuted.

Example C132_hypotheses : forall ppf N fuel, answering_qp (solve_qp N) -> let et := @None nat in
  let fit := DFy_object_fit no_algorithm ppf N fuel CDF 2 EqualWidth (Named HD) [] L_Match10.ex_labels in
  columns 2 L_Match10.ex_preds /\ wrong_number L_Match10.ex_labels ([1/2; 1/2] :: L_Match10.ex_preds) /\
  (forall s, DFy_after_fit no_algorithm ppf N L_Optim5.ideal_cvx fuel CDF 2 EqualWidth (Named HD) 0 L_Match10.ex_labels s ->
     estimator_train (dy_base s) = None -> raises (fst (fst (UC_fit no_algorithm (dy_base s) nobody [] L_Match10.ex_labels None)))) /\
  exists s w r, fit (Some (Matrix L_Match10.ex_preds)) (DFy_new None None) nobody = (Val tt, s, w) /\
    estimator_train (dy_base s) = None /\ estimator_test (dy_base s) = None /\
    snd (DFy_object_predict no_algorithm N L_Optim5.ideal_cvx CDF (Named HD) 0 [] (Some (Matrix L_Match10.ex_preds)) s nobody) = Val r.
Proof.
  intros ppf N fuel HQ et fit.
  assert (HC : columns 2 L_Match10.ex_preds) by (repeat constructor).
  split; [exact HC|]. split; [unfold wrong_number; cbn; lia|]. split.
  { intros s HA HE v. destruct (calls_flags _ _ _ _ _ _ _ _ _ _ _ (after_calls _ _ _ _ _ _ _ _ _ _ _ _ HA)) as [_ HN].
    unfold UC_fit. cbv zeta. cbn [with_classes needs_predictions_train estimator_train]. rewrite HN, HE. discriminate. }
  assert (K : DFy_calls no_algorithm ppf N L_Optim5.ideal_cvx fuel CDF 2 EqualWidth (Named HD) 0 (DFy_new et et)) by constructor.
  destruct (L_Match10.DFy_CDF_HD_wrong ppf N fuel L_Optim5.ideal_cvx 0 L_Optim5.ideal_cvx_exact) as (m & Em & _ & HO).
  assert (NE : L_Match10.ex_labels <> []) by discriminate.
  destruct (proj1 (C132_returns _ _ _ _ _ _ _ _ _ _ _ _ [] L_Match10.ex_labels L_Match10.ex_preds _ nobody K eq_refl eq_refl NE HC)) as (s & w & F); [eauto|].
  destruct (C132_fit_returns _ _ _ _ _ _ _ _ _ _ _ _ _ _ _ _ _ _ _ K NE HC F) as (m' & Em' & HP).
  exists s, w. assert (m' = m) by congruence. subst m'.
  destruct (fit_base _ _ _ _ _ _ _ _ _ _ _ _ _ _ _ _ F) as [r0 U]. destruct (UC_fit_keeps _ _ _ _ _ _ _ _ _ U) as (K1 & K2 & _).
  eexists. split; [exact F|]. split; [exact K1|]. split; [exact K2|]. rewrite (HP [] L_Match10.ex_preds nobody) by (try discriminate; exact HC).
  apply (proj2 HO); [exact L_Optim5.ideal_cvx_answers|exact HQ].
Qed.
