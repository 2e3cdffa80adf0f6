(** * Property theorems: errors of the estimates on an arbitrary bag (C97-C100). *)

From Coq Require Import Reals List ZArith Lia Lra Permutation Bool.
From Verif Require Import Num Spec M_Baselines L_Num L_Baselines M_Metrics M_Ordinal Spec_Ordinal Spec_Error
  L_Error L_Error2 L_Error3 L_Error4.
Import ListNotations.
Open Scope R_scope.

(** C97: if the rates of the classifier on the bag differ from the ones estimated in training by at most
    [e], the error of AC and PAC is at most [e] times the amplification of the training matrix. *)
Theorem C97_ac_binary_error : forall S dist r (tr : list (Z * (nat -> Z))) cm ytest ptest c0 c1 e, (0 < r)%nat ->
  let trained := fun c d => rate c d (repeated_labels r tr) (predictions_of r tr) in
  np_unique (labels_of tr) = [c0; c1] ->
  (forall x, In x (predictions_of r tr) -> In x [c0; c1]) ->
  AC_fit (labels_of tr) (predictions_of r tr) = Val cm ->
  length ytest = length ptest -> ytest <> [] -> (forall x, In x ytest -> In x [c0; c1]) ->
  1/1000 < Rabs (trained c1 c1 - trained c0 c1) ->
  (forall c, In c ytest -> Rabs (rate c c1 ytest ptest - trained c c1) <= e) ->
  exists p, AC_predict S dist [c0; c1] cm ptest = Val p /\ length p = 2%nat /\
    forall i, (i < 2)%nat ->
      Rabs (nth i p 0 - nth i (prevalences_of [c0; c1] ytest) 0) <= e / Rabs (trained c1 c1 - trained c0 c1).
Proof. exact AC_binary_error. Qed.
Print Assumptions C97_ac_binary_error.

Example C97_hypotheses_binary :
  let tr := [(0, fun _ => 0); (1, fun _ => 1)]%Z in
  let ytest := [0; 0; 1; 1]%Z in let ptest := [0; 1; 1; 1]%Z in
  let trained := fun c d => rate c d (repeated_labels 1 tr) (predictions_of 1 tr) in
  np_unique (labels_of tr) = [0; 1]%Z /\
  (forall x, In x (predictions_of 1 tr) -> In x [0; 1]%Z) /\
  (exists cm, AC_fit (labels_of tr) (predictions_of 1 tr) = Val cm) /\
  length ytest = length ptest /\ (forall x, In x ytest -> In x [0; 1]%Z) /\
  1/1000 < Rabs (trained 1%Z 1%Z - trained 0%Z 1%Z) /\
  (forall c, In c ytest -> Rabs (rate c 1%Z ytest ptest - trained c 1%Z) <= 1/2).
Proof. exact drift_witness_binary. Qed.

Theorem C97_ac_multiclass_error : forall S dist r (tr : list (Z * (nat -> Z))) cm ytest ptest kappa e,
  (forall n A M, inv S n A = Some M -> inverse_of n A M) -> (0 < r)%nat ->
  let classes := np_unique (labels_of tr) in
  let n := length classes in
  let trained := fun c d => rate c d (repeated_labels r tr) (predictions_of r tr) in
  n <> 2%nat ->
  (forall x, In x (predictions_of r tr) -> In x classes) ->
  AC_fit (labels_of tr) (predictions_of r tr) = Val cm ->
  length ytest = length ptest -> ytest <> [] -> (forall x, In x ytest -> In x classes) ->
  (forall x, In x ptest -> In x classes) ->
  (forall A, (forall i j, (i < n)%nat -> (j < n)%nat -> A i j = trained (nth j classes 0%Z) (nth i classes 0%Z)) ->
     inv S n A <> None) ->
  (forall M, inverse_of n (fun i j => trained (nth j classes 0%Z) (nth i classes 0%Z)) M ->
     forall j, (j < n)%nat -> sumn n (fun i => Rabs (M i j)) <= kappa) ->
  (forall c, In c ytest -> rsum (map (fun d => Rabs (rate c d ytest ptest - trained c d)) classes) <= e) ->
  exists p, AC_predict S dist classes cm ptest = Val p /\ distribution_over n p /\
    total_error p (prevalences_of classes ytest) <= kappa * e.
Proof. exact AC_multi_error. Qed.
Print Assumptions C97_ac_multiclass_error.

Example C97_hypotheses_multiclass :
  let S := involution_solver in
  let tr := [(0, fun _ => 0); (1, fun _ => 2); (2, fun _ => 1); (2, fun _ => 1)]%Z in
  let ytest := [2; 2; 0; 1; 2]%Z in let ptest := [1; 1; 0; 2; 2]%Z in
  let classes := np_unique (labels_of tr) in
  let trained := fun c d => rate c d (repeated_labels 1 tr) (predictions_of 1 tr) in
  (forall n A M, inv S n A = Some M -> inverse_of n A M) /\
  classes = [0; 1; 2]%Z /\
  (forall x, In x (predictions_of 1 tr) -> In x classes) /\
  (exists cm, AC_fit (labels_of tr) (predictions_of 1 tr) = Val cm) /\
  length ytest = length ptest /\ (forall x, In x ytest -> In x classes) /\ (forall x, In x ptest -> In x classes) /\
  (forall A, (forall i j, (i < 3)%nat -> (j < 3)%nat ->
        A i j = trained (nth j classes 0%Z) (nth i classes 0%Z)) -> inv S 3 A <> None) /\
  (forall M, inverse_of 3 (fun i j => trained (nth j classes 0%Z) (nth i classes 0%Z)) M ->
     forall j, (j < 3)%nat -> sumn 3 (fun i => Rabs (M i j)) <= 1) /\
  (forall c, In c ytest -> rsum (map (fun d => Rabs (rate c d ytest ptest - trained c d)) classes) <= 2/3).
Proof. exact drift_witness_multi. Qed.

Theorem C97_pac_binary_error : forall S dist r (tr : list (Z * (nat -> list R))) cm ytest ptest c0 c1 e, (0 < r)%nat ->
  let trained := fun c => rmean (col 1 (select c (repeated_labels r tr) (predictions_of r tr))) in
  np_unique (labels_of tr) = [c0; c1] ->
  PAC_fit (labels_of tr) (predictions_of r tr) = Val cm ->
  length ytest = length ptest -> ytest <> [] -> (forall x, In x ytest -> In x [c0; c1]) ->
  1/1000 < Rabs (trained c1 - trained c0) ->
  (forall c, In c ytest -> Rabs (rmean (col 1 (select c ytest ptest)) - trained c) <= e) ->
  exists p, PAC_predict S dist [c0; c1] cm ptest = Val p /\ length p = 2%nat /\
    forall i, (i < 2)%nat ->
      Rabs (nth i p 0 - nth i (prevalences_of [c0; c1] ytest) 0) <= e / Rabs (trained c1 - trained c0).
Proof. exact PAC_binary_error. Qed.
Print Assumptions C97_pac_binary_error.

Example C97_hypotheses_pac_binary :
  let tr := [(0%Z, fun _ => [3/4; 1/4]); (1%Z, fun _ => [1/4; 3/4])] in
  let ytest := [0; 1]%Z in let ptest := [[13/20; 7/20]; [1/4; 3/4]] in
  let trained := fun c => rmean (col 1 (select c (repeated_labels 1 tr) (predictions_of 1 tr))) in
  np_unique (labels_of tr) = [0; 1]%Z /\
  (exists cm, PAC_fit (labels_of tr) (predictions_of 1 tr) = Val cm) /\
  length ytest = length ptest /\ (forall x, In x ytest -> In x [0; 1]%Z) /\
  1/1000 < Rabs (trained 1%Z - trained 0%Z) /\
  (forall c, In c ytest -> Rabs (rmean (col 1 (select c ytest ptest)) - trained c) <= 1/10).
Proof. exact drift_witness_pac. Qed.

Theorem C97_pac_multiclass_error : forall S dist r (tr : list (Z * (nat -> list R))) cm ytest ptest kappa e,
  (forall n A M, inv S n A = Some M -> inverse_of n A M) -> (0 < r)%nat ->
  let classes := np_unique (labels_of tr) in
  let n := length classes in
  let trained := fun c j => rmean (col j (select c (repeated_labels r tr) (predictions_of r tr))) in
  n <> 2%nat ->
  distributions n (predictions_of r tr) ->
  PAC_fit (labels_of tr) (predictions_of r tr) = Val cm ->
  length ytest = length ptest -> ytest <> [] -> (forall x, In x ytest -> In x classes) ->
  distributions n ptest ->
  (forall A, (forall i j, (i < n)%nat -> (j < n)%nat -> A i j = trained (nth j classes 0%Z) i) -> inv S n A <> None) ->
  (forall M, inverse_of n (fun i j => trained (nth j classes 0%Z) i) M ->
     forall j, (j < n)%nat -> sumn n (fun i => Rabs (M i j)) <= kappa) ->
  (forall c, In c ytest -> sumn n (fun j => Rabs (rmean (col j (select c ytest ptest)) - trained c j)) <= e) ->
  exists p, PAC_predict S dist classes cm ptest = Val p /\ distribution_over n p /\
    total_error p (prevalences_of classes ytest) <= kappa * e.
Proof. exact PAC_multi_error. Qed.
Print Assumptions C97_pac_multiclass_error.

Example C97_hypotheses_pac_multiclass :
  let S := involution_solver in
  let tr := [(0%Z, fun _ => [1; 0; 0]); (1%Z, fun _ => [0; 0; 1]); (2%Z, fun _ => [0; 1; 0])] in
  let ytest := [2; 0; 1]%Z in let ptest := [[0; 9/10; 1/10]; [1; 0; 0]; [0; 0; 1]] in
  let classes := np_unique (labels_of tr) in
  let trained := fun c j => rmean (col j (select c (repeated_labels 1 tr) (predictions_of 1 tr))) in
  classes = [0; 1; 2]%Z /\
  distributions 3 (predictions_of 1 tr) /\ distributions 3 ptest /\
  (exists cm, PAC_fit (labels_of tr) (predictions_of 1 tr) = Val cm) /\
  length ytest = length ptest /\ (forall x, In x ytest -> In x classes) /\
  (forall A, (forall i j, (i < 3)%nat -> (j < 3)%nat -> A i j = trained (nth j classes 0%Z) i) -> inv S 3 A <> None) /\
  (forall M, inverse_of 3 (fun i j => trained (nth j classes 0%Z) i) M ->
     forall j, (j < 3)%nat -> sumn 3 (fun i => Rabs (M i j)) <= 1) /\
  (forall c, In c ytest -> sumn 3 (fun j => Rabs (rmean (col j (select c ytest ptest)) - trained c j)) <= 1/5).
Proof. exact drift_witness_pac_multi. Qed.

(** C98: the error of CC on a bag is the balance of false positives and false negatives of each class, and
    at most twice the error rate of the classifier in total; the error of PCC is at most the mean error
    of the posteriors. *)
Theorem C98_cc_error : forall classes ytest ptest, NoDup classes -> ytest <> [] -> length ytest = length ptest ->
  exists p, CC_predict classes ptest = Val p /\ length p = length classes /\
    (forall i, (i < length classes)%nat -> let d := nth i classes 0%Z in
       nth i p 0 - fraction d ytest =
         (INR (false_positives d ytest ptest) - INR (false_negatives d ytest ptest)) / INR (length ytest)) /\
    total_error p (prevalences_of classes ytest) <= 2 * (INR (mistakes ytest ptest) / INR (length ytest)).
Proof. exact CC_error. Qed.
Print Assumptions C98_cc_error.

Example C98_cc_hypotheses : NoDup [0; 1]%Z /\ false_positives 1 [0; 0; 1]%Z [1; 0; 1]%Z = 1%nat /\
  false_negatives 1 [0; 0; 1]%Z [1; 0; 1]%Z = 0%nat /\ mistakes [0; 0; 1]%Z [1; 0; 1]%Z = 1%nat.
Proof. split; [repeat constructor; simpl; intuition lia|repeat split; reflexivity]. Qed.

Theorem C98_pcc_error : forall classes ytest (ptest : list (list R)), ytest <> [] -> length ytest = length ptest ->
  distributions (length classes) ptest ->
  exists p, PCC_predict (length classes) ptest = Val p /\ distribution_over (length classes) p /\
    total_error p (prevalences_of classes ytest) <=
      rmean (map (fun e => total_error (snd e) (indicator classes (fst e))) (combine ytest ptest)).
Proof. exact PCC_error. Qed.
Print Assumptions C98_pcc_error.

Example C98_pcc_hypotheses : distributions 2 [[1/2; 1/2]; [1/4; 3/4]] /\
  rmean (map (fun e => total_error (snd e) (indicator [0; 1]%Z (fst e))) (combine [0; 1]%Z [[1/2; 1/2]; [1/4; 3/4]])) = 3/4.
Proof.
  split.
  - repeat (apply Forall_cons; [split; [reflexivity|split; [repeat (apply Forall_cons; [lra|]); apply Forall_nil|simpl; lra]]|]); apply Forall_nil.
  - unfold rmean, total_error, indicator. simpl. unfold Rabs. repeat destruct (Rcase_abs _); lra.
Qed.

(** C99: the decompositions amplify the errors of their binary quantifiers by at most a constant. *)
Theorem C99_frank_hall_error : forall (E X S : Type) (q : quantifier E X S) x pt (st : list S) left truth e,
  st <> [] -> length left = length st -> unit_interval left -> distribution_over (Datatypes.S (length st)) truth ->
  (forall i s, nth_error st i = Some s -> exists neg rest,
     q_predict q s x (option_map (map (fun r => [1 - nth i r 0; nth i r 0])) pt) = Val (neg :: nth i left 0 :: rest)) ->
  (forall i, (i < length st)%nat -> Rabs (nth i left 0 - cumulated truth i) <= e) ->
  exists p, FHQ_predict q st x pt = Val p /\ distribution_over (Datatypes.S (length st)) p /\
    (forall i, (i < length st)%nat -> Rabs (cumulated p i - cumulated truth i) <= e) /\
    exists d, emd (vec truth) (vec p) = Val d /\ d <= INR (length st) * e.
Proof. exact FHQ_error. Qed.
Print Assumptions C99_frank_hall_error.

Theorem C99_one_vs_rest_error : forall (E X S : Type) (q : quantifier E X S) x pt (st : list S) left truth,
  length left = length st -> Forall (fun v => 0 <= v) left -> Exists (fun v => v <> 0) left ->
  distribution_over (length st) truth ->
  (forall i s, nth_error st i = Some s -> exists neg rest,
     q_predict q s x (option_map (map (fun r => [1 - nth i r 0; nth i r 0])) pt) = Val (neg :: nth i left 0 :: rest)) ->
  exists p, OVR_predict q st x pt = Val p /\ distribution_over (length st) p /\
    total_error p truth <= 2 * total_error left truth.
Proof. exact OVR_error. Qed.
Print Assumptions C99_one_vs_rest_error.

(** Left-group probabilities that are not even ascending, 1/10 away from the truth. *)
Example C99_hypotheses :
  let left := [1/2; 2/5] in let truth := [1/2; 0; 1/2] in
  unit_interval left /\ distribution_over 3 truth /\
  (forall i s, nth_error [tt; tt] i = Some s -> exists neg rest,
     q_predict PCC_quantifier s tt (option_map (map (fun r => [1 - nth i r 0; nth i r 0])) (Some [left])) =
       Val (neg :: nth i left 0 :: rest)) /\
  (forall i, (i < 2)%nat -> Rabs (nth i left 0 - cumulated truth i) <= 1/10).
Proof.
  intros left truth. split; [repeat (apply Forall_cons; [lra|]); apply Forall_nil|].
  split; [split; [reflexivity|split; [repeat (apply Forall_cons; [lra|]); apply Forall_nil|simpl; lra]]|].
  split.
  - intros i s H. destruct i as [|[|i]]; simpl in H; try (destruct i; discriminate);
      eexists; exists []; unfold PCC_quantifier, q_predict, PCC_predict, mean_rows, option_map, col_means, rmean, col; simpl;
      (do 2 f_equal); f_equal; field.
  - intros i Hi. destruct i as [|[|i]]; try lia; unfold cumulated; simpl; unfold Rabs; destruct (Rcase_abs _); lra.
Qed.

(** C100: binary AC, PWKQuantifier and PAC respond monotonically to the bag and are stable. *)
Theorem C100_counts_respond : forall S dist c0 c1 cm a b, c0 <> c1 -> a <> [] -> b <> [] ->
  (forall x, In x a -> In x [c0; c1]) -> (forall x, In x b -> In x [c0; c1]) ->
  exists pa pb, AC_predict S dist [c0; c1] cm a = Val pa /\ AC_predict S dist [c0; c1] cm b = Val pb /\
    PWKQ_predict S [c0; c1] cm a = Val pa /\ PWKQ_predict S [c0; c1] cm b = Val pb /\
    (fraction c1 a <= fraction c1 b ->
       (~ reversed cm -> nth 1 pa 0 <= nth 1 pb 0) /\ (reversed cm -> nth 1 pb 0 <= nth 1 pa 0)) /\
    Rabs (nth 1 pa 0 - nth 1 pb 0) <= 1000 * Rabs (fraction c1 a - fraction c1 b).
Proof. exact counts_respond. Qed.
Print Assumptions C100_counts_respond.

Theorem C100_pac_responds : forall S dist c0 c1 cm a b, a <> [] -> b <> [] -> distributions 2 a -> distributions 2 b ->
  exists pa pb, PAC_predict S dist [c0; c1] cm a = Val pa /\ PAC_predict S dist [c0; c1] cm b = Val pb /\
    (rmean (col 1 a) <= rmean (col 1 b) ->
       (~ reversed cm -> nth 1 pa 0 <= nth 1 pb 0) /\ (reversed cm -> nth 1 pb 0 <= nth 1 pa 0)) /\
    Rabs (nth 1 pa 0 - nth 1 pb 0) <= 1000 * Rabs (rmean (col 1 a) - rmean (col 1 b)).
Proof. exact PAC_responds. Qed.
Print Assumptions C100_pac_responds.

Example C100_hypotheses :
  ~ reversed [Some [3/4; 1/4]; Some [1/4; 3/4]] /\ reversed [Some [1/4; 3/4]; Some [3/4; 1/4]] /\
  fraction 1 [0; 0; 1]%Z <= fraction 1 [0; 1; 1]%Z /\
  distributions 2 [[3/4; 1/4]; [1/2; 1/2]].
Proof.
  split; [intros (r0 & r1 & t & E & H); inversion E; subst; simpl in H; lra|].
  split; [exists [1/4; 3/4], [3/4; 1/4], []; split; [reflexivity|simpl; lra]|].
  split; [unfold fraction, zcount; simpl; lra|].
  repeat (apply Forall_cons; [split; [reflexivity|split; [repeat (apply Forall_cons; [lra|]); apply Forall_nil|simpl; lra]]|]); apply Forall_nil.
Qed.
