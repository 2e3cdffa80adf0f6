(** * Property theorems: what fit leaves behind, also when it raises; data_utils (C120-C123). *)

From Coq Require Import Reals List ZArith Bool Lia Lra Permutation.
From Verif Require Import Num Spec M_Baselines M_Base M_Ordinal M_Estimators M_Optim M_History M_Fit M_Data Spec_Ordinal Spec_Fit
  L_Fit L_Fit2 L_Fit3 L_Fit4 L_Fit5 L_Data.
Import ListNotations.
Open Scope R_scope.

(** C120: after fit, estimator i is a new object: a copy of the user's estimator, with the parameters of problem i, trained to tell
    the labels up to class i (label 1) from the others (label 0).  The order in which joblib runs the problems does not
    matter; no object that existed before has changed. *)
Theorem C120_binary_problems : forall (X Pm Ob : Type) (E : estimator_class X Pm Ob) accepted order x y s store store' s' e original,
  fh_estimator s = Some e -> nth_error store e = Some original -> schedule (n_problems y) order ->
  FH_fit E accepted order x y s store = (store', s', Val tt) ->
  exists more refs, store' = store ++ more /\
    fh_estimator s' = Some e /\ fh_params s' = fh_params s /\
    fh_classes s' = Some (np_unique y) /\ fh_estimators s' = Some (map Some refs) /\
    length refs = n_problems y /\ NoDup refs /\ (forall r, In r refs -> (length store <= r)%nat) /\
    forall i c, (i < n_problems y)%nat -> nth_error (np_unique y) i = Some c ->
      exists t, nth_error store' (nth i refs O) = Some t /\ trained_on E (fh_params s) i original x (up_to c y) t.
Proof. intros X Pm Ob E accepted. exact (FH_fit_result E accepted). Qed.
Print Assumptions C120_binary_problems.

(** What it then answers, from the answers of its members (which may be any arrays with two or more columns): q_i is the
    probability of label 1 according to member i.  The formula of the middle classes is the one of C15. *)
Theorem C120_answers : forall (X Pm Ob : Type) (E : estimator_class X Pm Ob) accepted order x y s store store' s' e original,
  fh_estimator s = Some e -> nth_error store e = Some original -> schedule (n_problems y) order -> (0 < n_problems y)%nat ->
  FH_fit E accepted order x y s store = (store', s', Val tt) ->
  exists members, length members = n_problems y /\
    (forall i c, (i < n_problems y)%nat -> nth_error (np_unique y) i = Some c ->
       exists t, nth_error members i = Some t /\ trained_on E (fh_params s) i original x (up_to c y) t) /\
    forall t answers, Forall2 (fun m rows => ec_proba E m t = Val rows /\ length rows = length t /\
                                 Forall (fun row => (2 <= length row)%nat) rows) members answers ->
      exists probs labels, FH_object_proba E store' s' t = Val probs /\ FH_object_predict E store' s' t = Val labels /\
        length probs = length t /\ length labels = length t /\
        forall k, (k < length t)%nat ->
          let q := fun i => nth 1 (nth k (nth i answers []) []) 0 in
          let p := nth k probs [] in
          length p = length (np_unique y) /\
          nth 0 p 0 = q O /\ nth (n_problems y) p 0 = 1 - q (n_problems y - 1)%nat /\
          (forall i, (0 < i < n_problems y)%nat -> nth i p 0 = 1 - q (i - 1)%nat * q i) /\
          exists b, (b < length p)%nat /\ nth k labels 0%Z = nth b (np_unique y) 0%Z /\
            (forall i, (i < length p)%nat -> nth i p 0 <= nth b p 0) /\ (forall i, (i < b)%nat -> nth i p 0 < nth b p 0).
Proof. intros X Pm Ob E accepted. exact (FH_answers E accepted). Qed.
Print Assumptions C120_answers.

(** Exactly when fit returns: labels, not two classes, data that check_X_y accepts, and every problem can be trained. *)
Theorem C120_when_fit_returns : forall (X Pm Ob : Type) (E : estimator_class X Pm Ob) accepted order x y s store e original,
  fh_estimator s = Some e -> nth_error store e = Some original -> schedule (n_problems y) order ->
  ((exists store' s', FH_fit E accepted order x y s store = (store', s', Val tt)) <->
   y <> [] /\ length (np_unique y) <> 2%nat /\ accepted x y = true /\
   forall i c, (i < n_problems y)%nat -> nth_error (np_unique y) i = Some c ->
     exists t, trained_on E (fh_params s) i original x (up_to c y) t).
Proof. intros X Pm Ob E accepted. exact (FH_fit_when E accepted). Qed.
Print Assumptions C120_when_fit_returns.

(** Two objects with equal estimators and parameters, fitted with the same data, answer alike: whatever happened to them
    before, and in whichever order the problems were trained. *)
Theorem C120_schedule_and_history : forall (X Pm Ob : Type) (E : estimator_class X Pm Ob) accepted order1 order2 x y s1 s2 store1 store2 e1 e2 original,
  fh_estimator s1 = Some e1 -> fh_estimator s2 = Some e2 -> fh_params s1 = fh_params s2 ->
  nth_error store1 e1 = Some original -> nth_error store2 e2 = Some original ->
  schedule (n_problems y) order1 -> schedule (n_problems y) order2 ->
  forall store1' s1', FH_fit E accepted order1 x y s1 store1 = (store1', s1', Val tt) ->
  exists store2' s2', FH_fit E accepted order2 x y s2 store2 = (store2', s2', Val tt) /\
    forall t, FH_object_proba E store1' s1' t = FH_object_proba E store2' s2' t /\
              FH_object_predict E store1' s1' t = FH_object_predict E store2' s2' t.
Proof. intros X Pm Ob E accepted. exact (FH_fit_determined E accepted). Qed.
Print Assumptions C120_schedule_and_history.

(** Later changes of any object that fit has not created (the user's estimator, other classifiers) do not change the answers. *)
Theorem C120_private_copies : forall (X Pm Ob : Type) (E : estimator_class X Pm Ob) accepted order x y s store store' s' e original other,
  fh_estimator s = Some e -> nth_error store e = Some original -> schedule (n_problems y) order ->
  FH_fit E accepted order x y s store = (store', s', Val tt) ->
  (forall r, (length store <= r < length store')%nat -> nth_error other r = nth_error store' r) ->
  forall t, FH_object_proba E other s' t = FH_object_proba E store' s' t /\
            FH_object_predict E other s' t = FH_object_predict E store' s' t.
Proof. intros X Pm Ob E accepted. exact (FH_fit_private E accepted). Qed.
Print Assumptions C120_private_copies.

(** A fit, also one that raises, changes no object that existed before. *)
Theorem C120_nothing_else_changes : forall (X Pm Ob : Type) (E : estimator_class X Pm Ob) accepted order x y s store store' s' r,
  FH_fit E accepted order x y s store = (store', s', r) -> exists more, store' = store ++ more.
Proof. intros X Pm Ob E accepted. exact (FH_fit_extends E accepted). Qed.
Print Assumptions C120_nothing_else_changes.

(** An object none of whose fits returned never answers. *)
Theorem C120_never_fitted : forall (X Pm Ob : Type) (E : estimator_class X Pm Ob) accepted s store x,
  only_failed_fits E accepted s -> raises (FH_object_proba E store s x) /\ raises (FH_object_predict E store s x).
Proof. intros X Pm Ob E accepted. exact (FH_only_failed E accepted). Qed.
Print Assumptions C120_never_fitted.

(** What a fit that raises does to an object: nothing, or it replaces classes_ only, or no answer is possible any more. *)
Theorem C120_failed_fit : forall (X Pm Ob : Type) (E : estimator_class X Pm Ob) accepted order x y s store store' s' r,
  FH_fit E accepted order x y s store = (store', s', r) -> raises r ->
  (fh_estimator s = None \/ y = [] \/ length (np_unique y) = 2%nat -> s' = s) /\
  (fh_estimator s <> None -> y <> [] -> length (np_unique y) <> 2%nat -> accepted x y = false ->
   s' = Build_fh_object (fh_estimator s) (fh_params s) (Some (np_unique y)) (fh_estimators s)) /\
  (fh_estimator s <> None -> y <> [] -> length (np_unique y) <> 2%nat -> accepted x y = true ->
   forall st t, raises (FH_object_proba E st s' t) /\ raises (FH_object_predict E st s' t)).
Proof. intros X Pm Ob E accepted. exact (FH_failed_refit E accepted). Qed.
Print Assumptions C120_failed_fit.

(** So a fitted classifier whose second fit is refused answers with the labels of the refused training set. *)
Theorem C120_refused_fit_relabels : forall (X Pm Ob : Type) (E : estimator_class X Pm Ob) accepted order x y s store classes,
  fh_estimator s <> None -> y <> [] -> length (np_unique y) <> 2%nat -> accepted x y = false ->
  fh_classes s = Some classes -> length classes = length (np_unique y) ->
  exists s', FH_fit E accepted order x y s store = (store, s', Err ValueError) /\
    forall st t, FH_object_proba E st s' t = FH_object_proba E st s t /\
      FH_object_predict E st s' t = omap (map (predict_label (np_unique y))) (FH_object_proba E st s t).
Proof. intros X Pm Ob. exact FH_relabels. Qed.
Print Assumptions C120_refused_fit_relabels.

(** The tree classifier: its tree has each problem once, the best one of each subtree at its root; the score compares the
    share of the labels above class i with the mean answer for the labels up to class i (C18). *)
Theorem C120_tree : forall (X Pm Ob : Type) (E : estimator_class X Pm Ob) accepted measure order x y s store store' s' e original,
  fh_estimator (ft_base s) = Some e -> nth_error store e = Some original -> schedule (n_problems y) order ->
  FHT_object_fit E measure accepted order x y s store = (store', s', Val tt) ->
  FH_fit E accepted order x y (ft_base s) store = (store', ft_base s', Val tt) /\
  exists members answers tree scores, length members = n_problems y /\
    (forall i c, (i < n_problems y)%nat -> nth_error (np_unique y) i = Some c ->
       exists t, nth_error members i = Some t /\ trained_on E (fh_params (ft_base s)) i original x (up_to c y) t) /\
    Forall2 (fun m rows => ec_proba E m x = Val rows) members answers /\
    ft_tree s' = Some tree /\ in_order tree = seq 0 (n_problems y) /\ length scores = n_problems y /\ best_first scores tree /\
    forall i c, (i < n_problems y)%nat -> nth_error (np_unique y) i = Some c ->
      nth i scores 0 = measure (1 - rmean (map IZR (up_to c y))) (rmean (map (fun row => nth 1 row 0) (nth i answers []))).
Proof. intros X Pm Ob E accepted measure. exact (FHT_scores E accepted measure). Qed.
Print Assumptions C120_tree.

(** A fit that raises keeps the old tree. *)
Theorem C120_tree_failed : forall (X Pm Ob : Type) (E : estimator_class X Pm Ob) measure accepted order x y s store store' s' r,
  FHT_object_fit E measure accepted order x y s store = (store', s', r) -> raises r -> ft_tree s' = ft_tree s.
Proof. intros X Pm Ob E measure accepted. exact (FHT_failed E measure accepted). Qed.
Print Assumptions C120_tree_failed.

(** The hypotheses are met: a scikit-learn like estimator with parameters, three classes, the second problem trained first. *)
Example C120_hypotheses :
  schedule (n_problems [4; 2; 9; 2]%Z) [1; 0]%nat /\
  (exists store' s', FH_fit demo same_lengths [1; 0]%nat [10; 20; 30; 40]%nat [4; 2; 9; 2]%Z (FH_new (Some 0%nat) (Some [7; 8]%nat)) [(0%nat, None)]
     = (store', s', Val tt) /\ nth_error store' 0 = Some (0%nat, None)) /\
  (exists s, only_failed_fits demo same_lengths s /\ fh_classes s = Some [2; 4; 9]%Z) /\
  (exists store' s', FHT_object_fit demo (fun a b => Rabs (a - b)) same_lengths [1; 0]%nat [10; 20; 30; 40]%nat [4; 2; 9; 2]%Z
    (Build_fht_object (FH_new (Some 0%nat) None) None) [(0%nat, None)] = (store', s', Val tt)) /\
  same_lengths [10]%nat [4; 2; 9; 2]%Z = false.
Proof.
  exact (conj demo_schedule (conj demo_fits (conj demo_only_failed (conj tree_example eq_refl)))).
Qed.

(** C121: EnsembleOfClassifiers.predict.  With copies in other processes column i is what a copy of the base estimator trained with
    bag i answers, whatever the order of the jobs. *)
Theorem C121_other_processes : forall (X Pm Ob : Type) (E : estimator_class X Pm Ob) accepted order x y bags b store store' s' original,
  bags <> [] -> nth_error store b = Some original -> schedule (length bags) order ->
  EoC_object_fit E accepted false order x y bags (EoC_new (Some b)) store = (store', s', Val tt) ->
  exists more members, store' = store ++ more /\
    Forall2 (fun bag t => trained_with E x y bag original t) bags members /\
    forall t n columns, Forall2 (fun m column => ec_predict E m t = Val column /\ length column = n) members columns ->
      EoC_predict E store' s' t = Val (rows_of_columns n columns).
Proof. intros X Pm Ob E accepted. exact (EoC_other_processes E accepted). Qed.
Print Assumptions C121_other_processes.

(** In the same process all columns are the answers of one object, the base estimator, last trained with the bag of the last job. *)
Theorem C121_same_process : forall (X Pm Ob : Type) (E : estimator_class X Pm Ob) accepted order x y bags b store store' s' original,
  bags <> [] -> nth_error store b = Some original -> schedule (length bags) order ->
  EoC_object_fit E accepted true order x y bags (EoC_new (Some b)) store = (store', s', Val tt) ->
  exists o final, nth_error store' b = Some final /\
    trained_with E x y (nth (last order O) bags []) o final /\
    forall t labels, ec_predict E final t = Val labels ->
      EoC_predict E store' s' t = Val (map (fun v => repeat v (length bags)) labels).
Proof. intros X Pm Ob E accepted. exact (EoC_same_process E accepted). Qed.
Print Assumptions C121_same_process.

(** When training a member raises, the object is lost: all later fits return without training, all predictions raise. *)
Theorem C121_failed_fit_is_final : forall (X Pm Ob : Type) (E : estimator_class X Pm Ob) accepted in_process order x y bags s store store' s' r s'',
  eo_classes s = None -> eo_estimators s = None -> eo_base s <> None -> accepted x y = true ->
  EoC_object_fit E accepted in_process order x y bags s store = (store', s', r) -> raises r ->
  fits_again E accepted s' s'' ->
  (forall ip2 order2 x2 y2 bags2 st, exists s3, EoC_object_fit E accepted ip2 order2 x2 y2 bags2 s'' st = (st, s3, Val tt)) /\
  forall st t, raises (EoC_predict E st s'' t).
Proof. intros X Pm Ob E accepted. exact (EoC_retry E accepted). Qed.
Print Assumptions C121_failed_fit_is_final.

(** A fit refused before that (no base estimator, data refused by check_X_y) changes nothing. *)
Theorem C121_refused_fit : forall (X Pm Ob : Type) (E : estimator_class X Pm Ob) accepted in_process order x y bags s store,
  eo_classes s = None -> eo_estimators s = None -> eo_base s = None \/ accepted x y = false ->
  EoC_object_fit E accepted in_process order x y bags s store = (store, s, Err ValueError).
Proof. intros X Pm Ob E accepted. exact (EoC_unchanged E accepted). Qed.
Print Assumptions C121_refused_fit.

(** A bag with one class only, a corrected second call, and what a new object answers after the corrected call. *)
Theorem C121_retry_refuted : exists store1 s1 store2 s2,
  EoC_object_fit demo same_lengths false [0; 1]%nat [10; 20; 30]%nat [4; 2; 4]%Z [[0; 1]; [0; 2]]%nat (EoC_new (Some 0%nat)) [(0%nat, None)]
    = (store1, s1, Err ValueError) /\
  EoC_object_fit demo same_lengths false [0; 1]%nat [10; 20; 30]%nat [4; 2; 4]%Z [[0; 1]; [1; 2]]%nat s1 store1 = (store2, s2, Val tt) /\
  EoC_predict demo store2 s2 [10]%nat = Err AttributeError /\
  exists store3 s3, EoC_object_fit demo same_lengths false [0; 1]%nat [10; 20; 30]%nat [4; 2; 4]%Z [[0; 1]; [1; 2]]%nat (EoC_new (Some 0%nat)) [(0%nat, None)]
    = (store3, s3, Val tt) /\ EoC_predict demo store3 s3 [10]%nat = Val [[2; 2]]%Z.
Proof. exact EoC_retry_example. Qed.
Print Assumptions C121_retry_refuted.

Example C121_hypotheses :
  (exists store' s', EoC_object_fit demo same_lengths true [0; 1]%nat [10; 20; 30]%nat [4; 2; 9]%Z [[0; 1]; [0; 2]]%nat (EoC_new (Some 0%nat)) [(0%nat, None)]
    = (store', s', Val tt) /\ EoC_predict demo store' s' [10]%nat = Val [[4; 4]]%Z) /\
  (exists store' s', EoC_object_fit demo same_lengths false [1; 0]%nat [10; 20; 30]%nat [4; 2; 9]%Z [[0; 1]; [0; 2]]%nat (EoC_new (Some 0%nat)) [(0%nat, None)]
    = (store', s', Val tt) /\ EoC_predict demo store' s' [10; 10]%nat = Val [[2; 4]; [2; 4]]%Z).
Proof. exact (conj EoC_same_process_example EoC_other_processes_example). Qed.

(** C122: an AC object none of whose fits returned never answers. *)
Theorem C122_never_fitted : forall (X M : Type) (A : nat -> algorithm X M) inv N cvx fuel dist s, AC_only_failed A inv N cvx fuel dist s ->
  forall t pt w, raises (snd (AC_object_predict A inv N cvx dist t pt s w)).
Proof. intros X M A inv N cvx fuel dist. exact (AC_never_fitted A inv N cvx fuel dist). Qed.
Print Assumptions C122_never_fitted.

(** A fit that raises does not change the answers of a fitted object, if its training labels have the classes of the object. *)
Theorem C122_failed_refit_same_classes : forall (X M : Type) (A : nat -> algorithm X M) inv N cvx fuel dist x y given s w r s' w',
  AC_object_fit A N fuel dist x y given s w = (r, s', w') -> raises r ->
  classes_ (ao_base s) = Some (np_unique y) ->
  forall t pt w2, snd (AC_object_predict A inv N cvx dist t pt s' w2) = snd (AC_object_predict A inv N cvx dist t pt s w2).
Proof. intros X M A inv N cvx fuel dist. exact (AC_failed_same_classes A inv N cvx fuel dist). Qed.
Print Assumptions C122_failed_refit_same_classes.

(** With other classes it does: the object then adjusts the frequencies of the new classes with the old confusion matrix. *)
Theorem C122_failed_refit_refuted : exists (X M : Type) (A : nat -> algorithm X M) inv N cvx fuel dist w s1 s2 r x1 y1 p1 x2 y2 p2 t pt,
  AC_object_fit A N fuel dist x1 y1 p1 (AC_new None None) w = (Val tt, s1, w) /\
  AC_object_fit A N fuel dist x2 y2 p2 s1 w = (r, s2, w) /\ raises r /\
  snd (AC_object_predict A inv N cvx dist t pt s1 w) = Val [1/2; 1/2] /\
  snd (AC_object_predict A inv N cvx dist t pt s2 w) = Val [1; 0].
Proof. exact AC_failed_refit_changes. Qed.
Print Assumptions C122_failed_refit_refuted.

Example C122_hypotheses : AC_only_failed no_algorithm (fun _ _ => None) L_History2.no_numerics (fun _ _ _ => None) 0 HD
  {| ao_base := {| estimator_train := None; estimator_test := None; needs_predictions_train := true;
                   probabilistic := false; predictions_train_ := None; predictions_test_ := None;
                   classes_ := Some [5; 7]%Z; y_ext_ := None |}; ao_adjuster := unfitted_adjuster |}.
Proof. exact AC_never_example. Qed.

(** C123: data_utils.normalize.  Every training column gets mean 0 and, unless it is constant, variance 1; a constant one becomes 0; the
    test column gets the same change of origin and scale. *)
Theorem C123_normalize : forall k train test, train <> [] -> test <> [] -> (0 < k)%nat ->
  Forall (fun r => length r = k) train -> Forall (fun r => length r = k) test ->
  exists ntrain ntest, normalize train test = Val (ntrain, ntest) /\
    length ntrain = length train /\ length ntest = length test /\
    Forall (fun r => length r = k) ntrain /\ Forall (fun r => length r = k) ntest /\
    forall j, (j < k)%nat ->
      rmean (col j ntrain) = 0 /\
      ((exists a b, In a (col j train) /\ In b (col j train) /\ a <> b) -> rmean (map (fun v => v * v) (col j ntrain)) = 1) /\
      ((forall a b, In a (col j train) -> In b (col j train) -> a = b) -> Forall (fun v => v = 0) (col j ntrain)) /\
      exists m s, 0 < s /\
        col j ntrain = map (fun v => (v - m) / s) (col j train) /\ col j ntest = map (fun v => (v - m) / s) (col j test) /\
        ((forall a b, In a (col j train) -> In b (col j train) -> a = b) -> s = 1).
Proof. exact normalize_result. Qed.
Print Assumptions C123_normalize.

(** Nothing of the test set leaks: the training set, and each test example, are changed in the same way whatever the rest of the
    test set; an example is changed in the same way in both sets. *)
Theorem C123_no_leak : forall train test1 test2 n1 t1 n2 t2,
  normalize train test1 = Val (n1, t1) -> normalize train test2 = Val (n2, t2) ->
  n1 = n2 /\ (forall k1 k2 r, nth_error test1 k1 = Some r -> nth_error test2 k2 = Some r -> nth_error t1 k1 = nth_error t2 k2) /\
  (forall k1 k2 r, nth_error train k1 = Some r -> nth_error test1 k2 = Some r -> nth_error n1 k1 = nth_error t1 k2).
Proof. exact normalize_no_leak. Qed.
Print Assumptions C123_no_leak.

(** load_data returns the examples and labels that were written, one line per example, the label last ... *)
Theorem C123_load_round_trip : forall k x y, length x = length y -> (2 <= length x)%nat -> (0 < k)%nat -> Forall (fun r => length r = k) x ->
  load_data (map (fun p => fst p ++ [IZR (snd p)]) (combine x y)) = Val (x, y).
Proof. exact load_round_trip. Qed.
Print Assumptions C123_load_round_trip.

(** ... and of any table the last column, without its decimals. *)
Theorem C123_load_labels : forall lines x y, load_data lines = Val (x, y) -> length y = length lines /\ length x = length lines /\
  forall k row, nth_error lines k = Some row ->
    exists a c z, row = a ++ [c] /\ a <> [] /\ nth_error x k = Some a /\ nth_error y k = Some z /\
      Rabs (IZR z) <= Rabs c < Rabs (IZR z) + 1 /\ 0 <= IZR z * c.
Proof. exact load_labels. Qed.
Print Assumptions C123_load_labels.

Example C123_hypotheses : Forall (fun r : list R => length r = 2%nat) [[1; 5]; [3; 5]] /\ In 1 (col 0 [[1; 5]; [3; 5]]) /\ In 3 (col 0 [[1; 5]; [3; 5]]) /\
  (forall a b, In a (col 1 [[1; 5]; [3; 5]]) -> In b (col 1 [[1; 5]; [3; 5]]) -> a = b).
Proof.
  split; [repeat constructor|]. split; [now left|]. split; [now right; left|].
  intros a b [<-|[<-|[]]] [<-|[<-|[]]]; reflexivity.
Qed.
