(** * Property theorems: PDFOrdinaly after calls of fit that raise (C134). *)

From Coq Require Import Reals List ZArith Bool Lia Lra.
From Verif Require Import Num Spec M_Baselines M_Base M_Optim Spec_Optim M_Match Spec_Match M_Fit M_Fit2 M_Fit3 M_Fit4 M_Fit6 Spec_Fit Spec_Fit4 Spec_Fit6
  L_Match9 L_Match11 L_Fit3 L_Fit13.
Import ListNotations.
Open Scope R_scope.

(** C134: a fit that returns makes the object answer as the model of a single fit (C51 to C53), whatever calls returned or raised before. *)
Theorem C134_fit_returns : forall (X M : Type) (A : nat -> algorithm X M) N cvx fuel n_bins d meth x y P s w s' w',
  PDFO_calls A N cvx fuel n_bins d meth s ->
  PDFO_object_fit A N fuel n_bins d meth x y (Some (Matrix P)) s w = (Val tt, s', w') ->
  exists m, PDFO_fit N fuel n_bins d meth y P = Val m /\
  forall t rows w2, columns (length (np_unique y)) rows ->
    snd (PDFO_object_predict A N cvx n_bins d meth t (Some (Matrix rows)) s' w2) = snd (PDFO_predict N cvx d m rows).
Proof. exact @po_fit_returns. Qed.
Print Assumptions C134_fit_returns.

(** Without estimators, it returns on exactly the data on which the single fit does. *)
Theorem C134_returns : forall (X M : Type) (A : nat -> algorithm X M) N cvx fuel n_bins d meth x y P s w,
  PDFO_calls A N cvx fuel n_bins d meth s -> estimator_train (po_base s) = None -> estimator_test (po_base s) = None ->
  columns (length (np_unique y)) P ->
  ((exists m, PDFO_fit N fuel n_bins d meth y P = Val m) <->
   exists s' w', PDFO_object_fit A N fuel n_bins d meth x y (Some (Matrix P)) s w = (Val tt, s', w')).
Proof. exact @po_fit_when. Qed.
Print Assumptions C134_returns.

(** When the base class raises (no predictions, or estimators that cannot be trained), the answers stay the same if the number of
    classes did; otherwise predict raises. *)
Theorem C134_early : forall (X M : Type) (A : nat -> algorithm X M) N cvx fuel n_bins d meth y0 s x y given w,
  PDFO_after_fit A N cvx fuel n_bins d meth y0 s -> raises (fst (fst (UC_fit A (po_base s) w x y given))) ->
  exists r s' w', PDFO_object_fit A N fuel n_bins d meth x y given s w = (r, s', w') /\ raises r /\
  (length (np_unique y) = length (np_unique y0) -> forall t p w2,
     snd (PDFO_object_predict A N cvx n_bins d meth t p s' w2) = snd (PDFO_object_predict A N cvx n_bins d meth t p s w2)) /\
  (d <> OtherOrdinalDistance -> length (np_unique y) <> length (np_unique y0) -> forall t p w2,
     raises (snd (PDFO_object_predict A N cvx n_bins d meth t p s' w2))).
Proof. exact @po_early. Qed.
Print Assumptions C134_early.

(** Labels of at most two classes make fit raise TypeError, and afterwards predict raises on every bag. *)
Theorem C134_two_classes : forall (X M : Type) (A : nat -> algorithm X M) N cvx fuel n_bins d meth y0 s x y P w,
  d <> OtherOrdinalDistance -> PDFO_after_fit A N cvx fuel n_bins d meth y0 s ->
  estimator_train (po_base s) = None -> estimator_test (po_base s) = None ->
  (length (np_unique y) <= 2)%nat ->
  exists s', PDFO_object_fit A N fuel n_bins d meth x y (Some (Matrix P)) s w = (Err TypeError, s', w) /\
  forall t p w2, raises (snd (PDFO_object_predict A N cvx n_bins d meth t p s' w2)).
Proof. exact @two_classes. Qed.
Print Assumptions C134_two_classes.

(** Predictions with another number of columns make fit raise ValueError ('full_probabilistic'); the answers stay the same if the number
    of classes did, otherwise predict raises. *)
Theorem C134_wrong_columns : forall (X M : Type) (A : nat -> algorithm X M) N cvx fuel n_bins d meth y0 s x y P k w,
  meth = FullProbabilistic -> PDFO_after_fit A N cvx fuel n_bins d meth y0 s ->
  estimator_train (po_base s) = None -> estimator_test (po_base s) = None ->
  P <> [] -> columns k P -> (2 < length (np_unique y))%nat -> k <> length (np_unique y) ->
  exists s', PDFO_object_fit A N fuel n_bins d meth x y (Some (Matrix P)) s w = (Err ValueError, s', w) /\
  (length (np_unique y) = length (np_unique y0) -> forall t p w2,
     snd (PDFO_object_predict A N cvx n_bins d meth t p s' w2) = snd (PDFO_object_predict A N cvx n_bins d meth t p s w2)) /\
  (d <> OtherOrdinalDistance -> length (np_unique y) <> length (np_unique y0) -> forall t p w2,
     raises (snd (PDFO_object_predict A N cvx n_bins d meth t p s' w2))).
Proof. exact @wrong_columns. Qed.
Print Assumptions C134_wrong_columns.

(** A fit with a wrong number of predictions raises IndexError.  With HD or EMD, once the object has answered, its answers stay the same. *)
Theorem C134_wrong_number_after_an_answer :
  forall (X M : Type) (A : nat -> algorithm X M) N cvx fuel n_bins d meth y0 s1 t1 p1 w1 s2 r1 x y P w,
  needs_cvx (pdfo_criterion d) = true -> d <> OtherOrdinalDistance -> PDFO_after_fit A N cvx fuel n_bins d meth y0 s1 ->
  estimator_train (po_base s1) = None -> estimator_test (po_base s1) = None ->
  PDFO_object_predict A N cvx n_bins d meth t1 p1 s1 w1 = (s2, Val r1) ->
  length (np_unique y) = length (np_unique y0) -> columns (length (np_unique y)) P -> wrong_number y P ->
  exists s3, PDFO_object_fit A N fuel n_bins d meth x y (Some (Matrix P)) s2 w = (Err IndexError, s3, w) /\
  forall t p w2, snd (PDFO_object_predict A N cvx n_bins d meth t p s3 w2) = snd (PDFO_object_predict A N cvx n_bins d meth t p s2 w2).
Proof. exact @po_short_cached. Qed.
Print Assumptions C134_wrong_number_after_an_answer.

(** If it had not answered yet, it forgets what it was fitted with: it answers as an object on which only the failing fit was called. *)
Theorem C134_wrong_number_before_an_answer :
  forall (X M : Type) (A : nat -> algorithm X M) N cvx fuel n_bins d meth x0 y0 given0 s0 w0 s w1 x y P w,
  d <> OL2 -> PDFO_calls A N cvx fuel n_bins d meth s0 ->
  estimator_train (po_base s0) = None -> estimator_test (po_base s0) = None ->
  PDFO_object_fit A N fuel n_bins d meth x0 y0 given0 s0 w0 = (Val tt, s, w1) ->
  (2 < length (np_unique y))%nat -> columns (length (np_unique y)) P -> wrong_number y P ->
  exists s' s'', PDFO_object_fit A N fuel n_bins d meth x y (Some (Matrix P)) s w = (Err IndexError, s', w) /\
  PDFO_object_fit A N fuel n_bins d meth x y (Some (Matrix P)) (PDFO_new None None) w = (Err IndexError, s'', w) /\
  forall t p w2, snd (PDFO_object_predict A N cvx n_bins d meth t p s' w2) = snd (PDFO_object_predict A N cvx n_bins d meth t p s'' w2).
Proof. exact @po_short_forgets. Qed.
Print Assumptions C134_wrong_number_before_an_answer.

(** With L2 it answers every bag alike, whatever it was fitted with before. *)
Theorem C134_wrong_number_L2 : forall (X M : Type) (A : nat -> algorithm X M) N cvx fuel n_bins d meth x y P s w,
  d = OL2 -> (0 < n_bins)%nat -> meth <> OtherMethod -> PDFO_calls A N cvx fuel n_bins d meth s ->
  estimator_train (po_base s) = None -> estimator_test (po_base s) = None ->
  (2 < length (np_unique y))%nat -> columns (length (np_unique y)) P -> wrong_number y P ->
  exists s' r, PDFO_object_fit A N fuel n_bins d meth x y (Some (Matrix P)) s w = (Err IndexError, s', w) /\
  forall t rows w2, rows <> [] -> columns (length (np_unique y)) rows ->
    snd (PDFO_object_predict A N cvx n_bins d meth t (Some (Matrix rows)) s' w2) = r.
Proof. exact @po_short_l2. Qed.
Print Assumptions C134_wrong_number_L2.

(** That a PDFOrdinaly none of whose fits returned never answers is refuted: it answers after every such fit. *)
Theorem C134_never_fitted_refuted : forall (X M : Type) (A : nat -> algorithm X M) N cvx fuel n_bins d meth x y P w rows t w2,
  answering_cvx cvx -> needs_cvx (pdfo_criterion d) = true -> d <> OtherOrdinalDistance -> (0 < n_bins)%nat -> meth <> OtherMethod ->
  (2 < length (np_unique y))%nat -> columns (length (np_unique y)) P -> wrong_number y P ->
  rows <> [] -> columns (length (np_unique y)) rows ->
  exists s p, PDFO_object_fit A N fuel n_bins d meth x y (Some (Matrix P)) (PDFO_new None None) w = (Err IndexError, s, w) /\
    snd (PDFO_object_predict A N cvx n_bins d meth t (Some (Matrix rows)) s w2) = Val (Some p).
Proof. exact @po_never_fitted. Qed.
Print Assumptions C134_never_fitted_refuted.

Example C134_hypotheses : forall N fuel d, d <> OtherOrdinalDistance -> exact_qp (solve_qp N) -> answering_qp (solve_qp N) ->
  let y := [0; 1; 2]%Z in let preds := [[1; 0; 0]; [0; 1; 0]; [0; 0; 1]] in
  let bag := [[1; 0; 0]; [0; 1; 0]; [0; 1; 0]; [0; 0; 1]] in
  let fit := PDFO_object_fit no_algorithm N fuel 2 d FullProbabilistic [] y in
  (2 < length (np_unique y))%nat /\ columns 3 preds /\ wrong_number y ([1; 0; 0] :: preds) /\ (length (np_unique [0; 1]%Z) <= 2)%nat /\ columns 2 [[1; 0]] /\
  (forall s, PDFO_after_fit no_algorithm N L_Optim5.ideal_cvx fuel 2 d FullProbabilistic y s ->
     estimator_train (po_base s) = None -> raises (fst (fst (UC_fit no_algorithm (po_base s) nobody [] y None)))) /\
  exists s w r, fit (Some (Matrix preds)) (PDFO_new None None) nobody = (Val tt, s, w) /\
    estimator_train (po_base s) = None /\ estimator_test (po_base s) = None /\
    snd (PDFO_object_predict no_algorithm N L_Optim5.ideal_cvx 2 d FullProbabilistic [] (Some (Matrix bag)) s nobody) = Val (Some r).
Proof.
  intros N fuel d HD HE HQ y preds bag fit.
  assert (HC : columns 3 preds) by (repeat constructor).
  split; [cbn; lia|]. split; [exact HC|]. split; [unfold wrong_number; cbn; lia|]. split; [cbn; lia|]. split; [repeat constructor|]. split.
  { intros s HA HF v. destruct (po_flags _ _ _ _ _ _ _ _ (po_after_calls _ _ _ _ _ _ _ _ _ HA)) as [_ HN].
    unfold UC_fit. cbv zeta. cbn [with_classes needs_predictions_train estimator_train]. rewrite HN, HF. discriminate. }
  assert (K : PDFO_calls no_algorithm N L_Optim5.ideal_cvx fuel 2 d FullProbabilistic (PDFO_new None None)) by constructor.
  assert (HM : FullProbabilistic <> OtherMethod) by discriminate.
  destruct (L_Match11.or_facts N fuel d FullProbabilistic HM) as (m & Em & HI).
  destruct (proj1 (C134_returns _ _ _ _ _ _ _ _ _ [] y preds _ nobody K eq_refl eq_refl HC)) as (s & w & F); [exists m; exact Em|].
  destruct (C134_fit_returns _ _ _ _ _ _ _ _ _ _ _ _ _ _ _ _ K F) as (m' & Em' & HP).
  exists s, w. assert (E : Val m' = Val m) by (rewrite <- Em'; exact Em). injection E as ->.
  destruct (po_fit_base _ _ _ _ _ _ _ _ _ _ _ _ _ _ F) as [r0 U]. destruct (UC_fit_keeps _ _ _ _ _ _ _ _ _ U) as (K1 & K2 & _).
  eexists. split; [exact F|]. split; [exact K1|]. split; [exact K2|]. rewrite (HP [] bag nobody) by (repeat constructor).
  apply (proj2 (L_Match9.PDFO_recovers N fuel L_Optim5.ideal_cvx 2 d FullProbabilistic y preds m [] _ bag L_Optim5.ideal_cvx_exact HE HD Em
    L_Match11.or_distributions HI (proj1 L_Match11.or_copies) ltac:(discriminate))); [exact L_Optim5.ideal_cvx_answers|exact HQ].
Qed.
