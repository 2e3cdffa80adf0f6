(** * Property theorems: CC, PCC, PAC, DeBias and EM after calls of fit that raise (C125). *)

From Coq Require Import Reals List ZArith Bool Lia Lra.
From Verif Require Import Num Spec M_Baselines M_Base M_Optim M_EM M_History M_Fit M_Fit2 Spec_Fit Spec_Fit2 L_Fit L_Fit3 L_Fit6 L_Fit10.
Import ListNotations.
Open Scope R_scope.

(** C125: a CC that gets crisp predictions answers for the classes of the labels in the last call of fit, also if that call raised, and
    with their shares in the predictions; before any call of fit it does not answer. *)
Theorem C125_CC : forall (X M : Type) (A : nat -> algorithm X M) s last, CC_calls A s last -> forall t l w, l <> [] ->
  match last with
  | None => raises (snd (CC_object_predict A t (Some (Labels l)) s w))
  | Some y => snd (CC_object_predict A t (Some (Labels l)) s w) = Val (map (fun c => share c l) (np_unique y))
  end.
Proof. intros X M A. exact (CC_answers A). Qed.
Print Assumptions C125_CC.

(** A PCC that gets probabilities answers their means, whatever calls of fit returned or raised before, even without any. *)
Theorem C125_PCC : forall (X M : Type) (A : nat -> algorithm X M) s, PCC_calls A s -> forall t k rows w, rows <> [] ->
  Forall (fun r => length r = k) rows ->
  snd (PCC_object_predict A t (Some (Matrix rows)) s w) = Val (map (fun j => rmean (col j rows)) (seq 0 k)).
Proof. intros X M A. exact (PCC_answers A). Qed.
Print Assumptions C125_PCC.

(** After a fit of PAC with two classes that raises although predictions were given, PAC answers without any correction, i.e. as
    PCC does, also if it was fitted before. *)
Theorem C125_PAC_uncorrected : forall (X M : Type) (A : nat -> algorithm X M) inv N cvx fuel dist s x y p w r s' w',
  PAC_calls A inv N cvx fuel dist s -> length (np_unique y) = 2%nat ->
  PAC_object_fit A N fuel dist x y (Some p) s w = (r, s', w') -> raises r ->
  forall t rows w2, rows <> [] -> distributions 2 rows ->
  snd (PAC_object_predict A inv N cvx dist t (Some (Matrix rows)) s' w2) = Val (map (fun j => rmean (col j rows)) [0; 1]%nat).
Proof. intros X M A inv N cvx fuel dist. exact (PAC_failed_answers A inv N cvx fuel dist). Qed.
Print Assumptions C125_PAC_uncorrected.

(** A fit of PAC without predictions and without estimators raises, changes no estimator, and does not change the answers if the
    labels have the classes of the object. *)
Theorem C125_PAC_no_predictions : forall (X M : Type) (A : nat -> algorithm X M) inv N cvx fuel dist s x y w r s' w',
  PAC_calls A inv N cvx fuel dist s -> PAC_object_fit A N fuel dist x y None s w = (r, s', w') ->
  raises r /\ w' = w /\ (classes_ (ao_base s) = Some (np_unique y) ->
  forall t pt w2, snd (PAC_object_predict A inv N cvx dist t pt s' w2) = snd (PAC_object_predict A inv N cvx dist t pt s w2)).
Proof. intros X M A inv N cvx fuel dist. exact (PAC_no_predictions A inv N cvx fuel dist). Qed.
Print Assumptions C125_PAC_no_predictions.

(** After a fit that returned, whatever calls came before, PAC answers as the object of C62 fitted once with the same predictions. *)
Theorem C125_PAC_fit_returns : forall (X M : Type) (A : nat -> algorithm X M) inv N cvx fuel dist s0 x y P w s w1,
  PAC_calls A inv N cvx fuel dist s0 -> y <> [] -> Forall (fun r => length r = length (np_unique y)) P ->
  PAC_object_fit A N fuel dist x y (Some (Matrix P)) s0 w = (Val tt, s, w1) ->
  exists cm a, PAC_fit y P = Val cm /\ forall t rows w2, Forall (fun r => length r = length (np_unique y)) rows ->
    snd (PAC_object_predict A inv N cvx dist t (Some (Matrix rows)) s w2) =
    snd (qc_predict (PAC_class inv N cvx fuel dist) rows (assign_adjuster N fuel dist y a cm)).
Proof. intros X M A inv N cvx fuel dist. exact (PAC_fit_returns A inv N cvx fuel dist). Qed.
Print Assumptions C125_PAC_fit_returns.

(** With two classes a PAC fitted with only the probabilities of the second class (one dimension) answers as one fitted with both
    columns ... *)
Theorem C125_PAC_scores_suffice : forall (X M : Type) (A : nat -> algorithm X M) inv N cvx fuel dist s0 s0' x x' y l w w' s s' w1 w1',
  PAC_calls A inv N cvx fuel dist s0 -> PAC_calls A inv N cvx fuel dist s0' -> length (np_unique y) = 2%nat ->
  PAC_object_fit A N fuel dist x y (Some (Scores l)) s0 w = (Val tt, s, w1) ->
  PAC_object_fit A N fuel dist x' y (Some (Matrix (map (fun v => [1 - v; v]) l))) s0' w' = (Val tt, s', w1') ->
  forall t t' rows w2 w2', Forall (fun r => length r = 2%nat) rows ->
  snd (PAC_object_predict A inv N cvx dist t (Some (Matrix rows)) s w2) =
  snd (PAC_object_predict A inv N cvx dist t' (Some (Matrix rows)) s' w2').
Proof. intros X M A inv N cvx fuel dist. exact (PAC_scores_suffice A inv N cvx fuel dist). Qed.
Print Assumptions C125_PAC_scores_suffice.

(** ... and labels given as training predictions count as such numbers. *)
Theorem C125_PAC_labels_are_scores : forall (X M : Type) (A : nat -> algorithm X M) inv N cvx fuel dist s0 x y l w,
  PAC_calls A inv N cvx fuel dist s0 ->
  let fit p := PAC_object_fit A N fuel dist x y (Some p) s0 w in
  fst (fst (fit (Labels l))) = fst (fst (fit (Scores (map IZR l)))) /\
  ao_adjuster (snd (fst (fit (Labels l)))) = ao_adjuster (snd (fst (fit (Scores (map IZR l))))).
Proof. intros X M A inv N cvx fuel dist. exact (PAC_labels_are_scores A inv N cvx fuel dist). Qed.
Print Assumptions C125_PAC_labels_are_scores.

(** "A PAC none of whose fits returned never answers" is false (it is true of AC, C122) ... *)
Theorem C125_PAC_never_fitted_refuted : exists (X M : Type) (A : nat -> algorithm X M) inv N cvx fuel dist w s r x y p t pt,
  PAC_object_fit A N fuel dist x y p (PAC_new None None) w = (r, s, w) /\ raises r /\
  snd (PAC_object_predict A inv N cvx dist t pt s w) = Val [1/4; 3/4].
Proof. exact PAC_never_fitted_answers. Qed.
Print Assumptions C125_PAC_never_fitted_refuted.

(** ... and so is "a fit that raises does not change the answers", even with the same labels. *)
Theorem C125_PAC_refit_refuted : exists (X M : Type) (A : nat -> algorithm X M) inv N cvx fuel dist w s1 s2 r x y p1 p2 t pt,
  PAC_object_fit A N fuel dist x y p1 (PAC_new None None) w = (Val tt, s1, w) /\
  PAC_object_fit A N fuel dist x y p2 s1 w = (r, s2, w) /\ raises r /\
  snd (PAC_object_predict A inv N cvx dist t pt s1 w) = Val [0; 1] /\
  snd (PAC_object_predict A inv N cvx dist t pt s2 w) = Val [1/4; 3/4].
Proof. exact PAC_failed_refit_changes. Qed.
Print Assumptions C125_PAC_refit_refuted.

(** DeBias refuses labels without exactly two classes before it changes anything. *)
Theorem C125_DeBias_not_binary : forall (X M : Type) (A : nat -> algorithm X M) s x y given w r s' w',
  DeBias_object_fit A x y given s w = (r, s', w') -> length (np_unique y) <> 2%nat -> r = Err AttributeError /\ s' = s /\ w' = w.
Proof. intros X M A. exact (DeBias_not_binary A). Qed.
Print Assumptions C125_DeBias_not_binary.

(** A DeBias none of whose fits returned never answers. *)
Theorem C125_DeBias_never_fitted : forall (X M : Type) (A : nat -> algorithm X M) s, DeBias_only_failed A s ->
  forall t pt w, raises (snd (DeBias_object_predict A t pt s w)).
Proof. intros X M A. exact (DeBias_never_fitted A). Qed.
Print Assumptions C125_DeBias_never_fitted.

(** After a fit that returned, whatever calls came before, DeBias answers as fitted once with the same predictions ... *)
Theorem C125_DeBias_fit_returns : forall (X M : Type) (A : nat -> algorithm X M) s0 x y P w s w1, DeBias_calls A s0 ->
  DeBias_object_fit A x y (Some (Matrix P)) s0 w = (Val tt, s, w1) ->
  forall t rows w2, rows <> [] -> Forall (fun r => length r = 2%nat) rows ->
  snd (DeBias_object_predict A t (Some (Matrix rows)) s w2) = obind (DeBias_fit y P) (fun d => DeBias_predict d rows).
Proof. intros X M A. exact (DeBias_fit_returns A). Qed.
Print Assumptions C125_DeBias_fit_returns.

(** ... and refuses test predictions of one column. *)
Theorem C125_DeBias_one_column : forall (X M : Type) (A : nat -> algorithm X M) s0 x y P w s w1, DeBias_calls A s0 ->
  DeBias_object_fit A x y (Some (Matrix P)) s0 w = (Val tt, s, w1) ->
  forall t v l w2, snd (DeBias_object_predict A t (Some (Scores (v :: l))) s w2) = Err IndexError /\
    snd (DeBias_object_predict A t (Some (Matrix (map (fun x => [x]) (v :: l)))) s w2) = Err IndexError.
Proof. intros X M A. exact (DeBias_one_column A). Qed.
Print Assumptions C125_DeBias_one_column.

(** After a fit that returned, one that raises does not change the answers if the second class has the same share in its labels. *)
Theorem C125_DeBias_refit : forall (X M : Type) (A : nat -> algorithm X M) s0 x0 y0 given0 w0 s w1 x y given w r s' w',
  DeBias_calls A s0 -> DeBias_object_fit A x0 y0 given0 s0 w0 = (Val tt, s, w1) ->
  DeBias_object_fit A x y given s w = (r, s', w') -> raises r ->
  (forall a b c d, np_unique y0 = [a; b] -> np_unique y = [c; d] -> share d y = share b y0) ->
  forall t pt w2, snd (DeBias_object_predict A t pt s' w2) = snd (DeBias_object_predict A t pt s w2).
Proof. intros X M A. exact (DeBias_refit A). Qed.
Print Assumptions C125_DeBias_refit.

(** With another share it can, even with the same classes: the new prevalences are used with the old variance. *)
Theorem C125_DeBias_refit_refuted : exists (X M : Type) (A : nat -> algorithm X M) w s1 s2 r x1 y1 p1 x2 y2 p2 t pt,
  DeBias_object_fit A x1 y1 p1 (DeBias_new None None) w = (Val tt, s1, w) /\
  DeBias_object_fit A x2 y2 p2 s1 w = (r, s2, w) /\ raises r /\ np_unique y1 = np_unique y2 /\
  snd (DeBias_object_predict A t pt s1 w) = Val [1/2; 1/2] /\
  snd (DeBias_object_predict A t pt s2 w) = Val [1; 0].
Proof. exact DeBias_failed_refit_changes. Qed.
Print Assumptions C125_DeBias_refit_refuted.

(** An EM none of whose fits returned never answers. *)
Theorem C125_EM_never_fitted : forall (X M : Type) (A : nat -> algorithm X M) eps max_iter s, EM_only_failed A eps max_iter s ->
  forall t pt w, raises (snd (EM_object_predict A eps max_iter t pt s w)).
Proof. intros X M A eps max_iter. exact (EM_never_fitted A eps max_iter). Qed.
Print Assumptions C125_EM_never_fitted.

(** After a fit that returned, whatever calls came before, EM answers as C10-C12 say for the shares of the classes in its labels. *)
Theorem C125_EM_fit_returns : forall (X M : Type) (A : nat -> algorithm X M) eps max_iter s0 x y given w s w1, EM_calls A eps max_iter s0 ->
  EM_object_fit A x y given s0 w = (Val tt, s, w1) ->
  forall t rows w2, Forall (fun r => length r = length (np_unique y)) rows ->
  snd (EM_object_predict A eps max_iter t (Some (Matrix rows)) s w2) = EM_predict eps max_iter (map (fun c => share c y) (np_unique y)) rows.
Proof. intros X M A. exact (EM_fit_returns A). Qed.
Print Assumptions C125_EM_fit_returns.

(** After a fit that returned, one that raises does not change the answers if its labels have the same number of classes ... *)
Theorem C125_EM_refit : forall (X M : Type) (A : nat -> algorithm X M) eps max_iter s0 x0 y0 given0 w0 s w1 x y given w r s' w',
  EM_calls A eps max_iter s0 -> EM_object_fit A x0 y0 given0 s0 w0 = (Val tt, s, w1) ->
  EM_object_fit A x y given s w = (r, s', w') -> raises r -> length (np_unique y) = length (np_unique y0) ->
  forall t pt w2, snd (EM_object_predict A eps max_iter t pt s' w2) = snd (EM_object_predict A eps max_iter t pt s w2).
Proof. intros X M A eps max_iter. exact (EM_refit A eps max_iter). Qed.
Print Assumptions C125_EM_refit.

(** ... and with another number of classes predicting then raises. *)
Theorem C125_EM_refit_other : forall (X M : Type) (A : nat -> algorithm X M) eps max_iter s0 x0 y0 given0 w0 s w1 x y given w r s' w',
  (0 < max_iter)%nat -> EM_object_fit A x0 y0 given0 s0 w0 = (Val tt, s, w1) ->
  EM_object_fit A x y given s w = (r, s', w') -> raises r -> length (np_unique y) <> length (np_unique y0) ->
  forall t pt w2, raises (snd (EM_object_predict A eps max_iter t pt s' w2)).
Proof. intros X M A eps max_iter. exact (EM_failed_other A eps max_iter). Qed.
Print Assumptions C125_EM_refit_other.

(** Histories, and failing fits after successful ones, exist: CC with an untrained classifier and too few examples; EM and DeBias
    without predictions. *)
Example C125_hypotheses :
  (exists s, CC_calls no_algorithm s (Some [2; 5]%Z) /\
     exists w', CC_object_fit no_algorithm [0]%nat [2; 5]%Z (CC_new (Some 0%nat)) nobody = (Err ValueError, s, w')) /\
  (exists s1 s2, EM_object_fit no_algorithm [0; 1]%nat [0; 1]%Z (Some (Matrix [[1; 0]; [0; 1]])) (EM_new None None) nobody = (Val tt, s1, nobody) /\
     EM_object_fit no_algorithm [0; 1; 2]%nat [0; 1; 2]%Z None s1 nobody = (Err ValueError, s2, nobody)) /\
  (exists s1 s2, DeBias_object_fit no_algorithm [0; 1]%nat [0; 1]%Z (Some (Matrix [[1; 0]; [0; 1]])) (DeBias_new None None) nobody = (Val tt, s1, nobody) /\
     DeBias_object_fit no_algorithm [0; 1]%nat [3; 4]%Z None s1 nobody = (Err ValueError, s2, nobody) /\ share 4 [3; 4]%Z = share 1 [0; 1]%Z).
Proof.
  split; [|split].
  - eexists. split; [|eexists; reflexivity]. eapply CC_calls_fit; [apply (CC_calls_new _ (Some 0%nat))|].
    instantiate (4 := [0]%nat). instantiate (3 := nobody). reflexivity.
  - do 2 eexists. split; reflexivity.
  - do 2 eexists. split; [reflexivity|]. split; reflexivity.
Qed.
