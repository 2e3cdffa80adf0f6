(** * C112-C114: the same methods computed with doubles, as numpy does. *)

From Coq Require Import Reals ZArith List Bool Lia Lra.
From Flocq Require Import Core BinarySingleNaN.
From Verif Require Import Num Spec M_Baselines M_Ordinal M_Float M_Float2 M_Float3 Spec_Float L_Float L_Float2 L_Float3 L_Float4 L_Float5 L_Float6 L_Float7 L_Float8 L_Float11 L_Recover.
Import ListNotations.
Open Scope R_scope.

(** What is assumed of np.sum is true of numpy's pairwise summation, and of adding from left to right. *)
Example float_sums : adds_in_some_order numpy_sum /\ adds_few_in_order numpy_sum /\
  adds_in_some_order M_Float.left_to_right /\ adds_few_in_order M_Float.left_to_right.
Proof. exact (conj numpy_sum_ok (conj numpy_sum_few (conj left_to_right_summed (fun l _ => eq_refl)))). Qed.

(** ** C112: with two classes, AC, PAC, PWKQuantifier and DeBias give two numbers in [0, 1] that the machine adds up to
    exactly 1. *)

(** AC, and PWKQuantifier, which does the same with the labels given by its neighbours. *)
Theorem C112_AC_double : forall np_sum c0 c1 y preds_train preds, adds_in_some_order np_sum -> c0 <> c1 ->
  (Z.of_nat (length y) <= 2 ^ 53)%Z -> (Z.of_nat (length preds) <= 2 ^ 53)%Z -> preds <> [] ->
  (forall z, In z preds -> z = c0 \/ z = c1) ->
  exists p q, AC_float np_sum c0 c1 y preds_train preds = [p; q] /\ complementary p q.
Proof. exact AC_float_ok. Qed.
Print Assumptions C112_AC_double.

(** PAC, when the rates are far enough apart for the correction to be applied (as decided by the machine). *)
Theorem C112_PAC_double : forall np_sum c0 c1 y preds_train preds, adds_in_some_order np_sum ->
  Forall (Forall in_unit) preds_train -> Forall (Forall in_unit) preds -> preds <> [] ->
  (Z.of_nat (length preds_train) <= 2 ^ 53)%Z -> (Z.of_nat (length preds) <= 2 ^ 53)%Z ->
  flt f_001 (fabs (fsub (fmean np_sum (fcol 1 (select c1 y preds_train))) (fmean np_sum (fcol 1 (select c0 y preds_train))))) = true ->
  exists p q, PAC_float np_sum c0 c1 y preds_train preds = [p; q] /\ complementary p q.
Proof. exact PAC_float_corrected. Qed.
Print Assumptions C112_PAC_double.

(** In any case PAC gives two numbers in [0, 1], whose sum is 1 up to 2^-51 unless all the probabilities are 0. *)
Theorem C112_PAC_double_any : forall np_sum c0 c1 y preds_train preds, adds_in_some_order np_sum ->
  Forall (Forall in_unit) preds_train -> Forall (Forall in_unit) preds -> preds <> [] ->
  (Z.of_nat (length preds_train) <= 2 ^ 53)%Z -> (Z.of_nat (length preds) <= 2 ^ 53)%Z ->
  exists p q, PAC_float np_sum c0 c1 y preds_train preds = [p; q] /\ in_unit p /\ in_unit q /\
    (0 < val (nth 0 (PCC_float np_sum 2 preds) f0) + val (nth 1 (PCC_float np_sum 2 preds) f0) ->
     Rabs (val p + val q - 1) <= bpow radix2 (-51)).
Proof. exact PAC_float_ok. Qed.
Print Assumptions C112_PAC_double_any.

(** DeBias, whatever the quotient overflows to. *)
Theorem C112_DeBias_double : forall np_sum p1 Vt preds, adds_in_some_order np_sum -> in_unit p1 -> finite Vt -> val Vt <> 0 ->
  preds <> [] -> Forall (Forall in_unit) preds -> (Z.of_nat (length preds) <= 2 ^ 53)%Z ->
  exists p q, DeBias_float np_sum (p1, Vt) preds = [p; q] /\ complementary p q.
Proof. exact DeBias_float_ok. Qed.
Print Assumptions C112_DeBias_double.

(** AC is within 2^-40 of the answer of exact arithmetic, unless the rates differ by 0.001 almost exactly. *)
Theorem C112_AC_accuracy : forall np_sum solv dist c0 c1 y preds_train preds cm, adds_in_some_order np_sum ->
  np_unique y = [c0; c1] -> AC_fit y preds_train = Val cm ->
  (Z.of_nat (length preds_train) <= 2 ^ 53)%Z -> (Z.of_nat (length preds) <= 2 ^ 53)%Z ->
  preds <> [] -> (forall z, In z preds -> z = c0 \/ z = c1) ->
  (forall r0 r1, cm = [Some r0; Some r1] -> bpow radix2 (-51) < Rabs (Rabs (nth 1 r1 0 - nth 1 r0 0) - 1/1000)) ->
  exists p, AC_predict solv dist [c0; c1] cm preds = Val p /\
    within (bpow radix2 (-40)) (AC_float np_sum c0 c1 (y_ext y (length preds_train)) preds_train preds) p.
Proof. exact AC_float_close. Qed.
Print Assumptions C112_AC_accuracy.

(** PAC on [n] examples is within (n+1)*2^-38. *)
Theorem C112_PAC_accuracy : forall np_sum solv dist c0 c1 y preds_train preds cm n, adds_in_some_order np_sum ->
  np_unique y = [c0; c1] -> PAC_fit y (map (map val) preds_train) = Val cm ->
  Forall (Forall in_unit) preds_train -> Forall (Forall in_unit) preds -> preds <> [] ->
  (length preds_train <= n)%nat -> (length preds <= n)%nat -> (Z.of_nat n <= 2 ^ 40)%Z ->
  Forall (fun r => 3/4 <= val (nth 0 r f0) + val (nth 1 r f0)) preds ->
  (forall r0 r1, cm = [Some r0; Some r1] -> INR (n + 1) * bpow radix2 (-49) < Rabs (Rabs (nth 1 r1 0 - nth 1 r0 0) - 1/1000)) ->
  exists p, PAC_predict solv dist [c0; c1] cm (map (map val) preds) = Val p /\
    within (INR (n + 1) * bpow radix2 (-38)) (PAC_float np_sum c0 c1 (y_ext y (length preds_train)) preds_train preds) p.
Proof. exact PAC_float_close. Qed.
Print Assumptions C112_PAC_accuracy.

(** Hence AC recovers the true prevalence, up to 2^-40, when the classifier errs on the test bag at the rates it erred at in
    training (C05 in exact arithmetic) and the two rates differ by more than 0.001. *)
Theorem C112_AC_recovers : forall np_sum r (tr : list (Z * (nat -> Z))) c0 c1 ytest ptest, adds_in_some_order np_sum -> (0 < r)%nat ->
  np_unique (labels_of tr) = [c0; c1] ->
  let trained := fun c d => rate c d (repeated_labels r tr) (predictions_of r tr) in
  (forall x, In x (predictions_of r tr) -> x = c0 \/ x = c1) ->
  length ytest = length ptest -> ytest <> [] -> (forall x, In x ytest -> x = c0 \/ x = c1) -> (forall x, In x ptest -> x = c0 \/ x = c1) ->
  (forall c d, In c ytest -> d = c0 \/ d = c1 -> rate c d ytest ptest = trained c d) ->
  1/1000 + bpow radix2 (-51) < Rabs (trained c1 c1 - trained c0 c1) ->
  (Z.of_nat (length (predictions_of r tr)) <= 2 ^ 53)%Z -> (Z.of_nat (length ptest) <= 2 ^ 53)%Z ->
  within (bpow radix2 (-40)) (AC_float np_sum c0 c1 (repeated_labels r tr) (predictions_of r tr) ptest) [fraction c0 ytest; fraction c1 ytest].
Proof. exact AC_recovers_double. Qed.
Print Assumptions C112_AC_recovers.

(** And so does PAC, up to (n+1)*2^-38, when the mean posteriors of each class are those of training. *)
Theorem C112_PAC_recovers : forall np_sum r (tr : list (Z * (nat -> list float))) c0 c1 ytest ptest n, adds_in_some_order np_sum -> (0 < r)%nat ->
  np_unique (labels_of tr) = [c0; c1] ->
  let mean_of := fun j rows => rmean (map (fun row => val (nth j row f0)) rows) in
  let trained := fun c j => mean_of j (select c (repeated_labels r tr) (predictions_of r tr)) in
  Forall (Forall in_unit) (predictions_of r tr) -> Forall (Forall in_unit) ptest ->
  length ytest = length ptest -> ytest <> [] -> (forall x, In x ytest -> x = c0 \/ x = c1) ->
  (forall c j, In c ytest -> (j < 2)%nat -> mean_of j (select c ytest ptest) = trained c j) ->
  Forall (fun row => 3/4 <= val (nth 0 row f0) + val (nth 1 row f0)) ptest ->
  (length (predictions_of r tr) <= n)%nat -> (length ptest <= n)%nat -> (Z.of_nat n <= 2 ^ 40)%Z ->
  1/1000 + INR (n + 1) * bpow radix2 (-49) < Rabs (trained c1 1%nat - trained c0 1%nat) ->
  within (INR (n + 1) * bpow radix2 (-38)) (PAC_float np_sum c0 c1 (repeated_labels r tr) (predictions_of r tr) ptest)
    [fraction c0 ytest; fraction c1 ytest].
Proof. exact PAC_recovers_double. Qed.
Print Assumptions C112_PAC_recovers.

Ltac compute_counts := repeat match goal with |- context [INR ?n] =>
  let m := eval vm_compute in n in tryif constr_eq n m then fail else change (INR n) with (INR m) end.

(** Training labels 0 0 1 1 predicted as 0 1 1 1, test labels 0 0 1 predicted as 0 1 1. *)
Example C112_hypotheses_recovers : let tr := [(0, fun _ => 0); (0, fun _ => 1); (1, fun _ => 1); (1, fun _ => 1)]%Z in
  let trained := fun c d => rate c d (repeated_labels 1 tr) (predictions_of 1 tr) in
  np_unique (labels_of tr) = [0; 1]%Z /\
  (forall c d, In c [0; 0; 1]%Z -> d = 0%Z \/ d = 1%Z -> rate c d [0; 0; 1]%Z [0; 1; 1]%Z = trained c d) /\
  1/1000 + bpow radix2 (-51) < Rabs (trained 1%Z 1%Z - trained 0%Z 1%Z).
Proof.
  cbv zeta. split; [reflexivity|]. split.
  - intros c d Hc [-> | ->]; cbn in Hc; destruct Hc as [<-|[<-|[<-|[]]]]; unfold rate, fraction; compute_counts; cbn; lra.
  - unfold rate, fraction. compute_counts. cbn -[bpow]. assert (B : bpow radix2 (-51) <= bpow radix2 (-20)) by (apply bpow_le; lia).
    assert (B' : bpow radix2 (-20) = / 1048576) by reflexivity. rewrite B' in B.
    rewrite Rabs_right by lra. lra.
Qed.

(** Posteriors (3/4, 1/4) for class 0 and (1/4, 3/4) for class 1. *)
Example C112_hypotheses_recovers_PAC : let a := [ratio 3 4; ratio 1 4] in let b := [ratio 1 4; ratio 3 4] in
  let tr := [(0%Z, fun _ : nat => a); (1%Z, fun _ => b)] in
  let mean_of := fun j rows => rmean (map (fun row => val (nth j row f0)) rows) in
  let trained := fun c j => mean_of j (select c (repeated_labels 1 tr) (predictions_of 1 tr)) in
  (forall c j, In c [0; 1; 1]%Z -> (j < 2)%nat -> mean_of j (select c [0; 1; 1]%Z [a; b; b]) = trained c j) /\
  Forall (fun row => 3/4 <= val (nth 0 row f0) + val (nth 1 row f0)) [a; b; b] /\
  1/1000 + INR (3 + 1) * bpow radix2 (-49) < Rabs (trained 1%Z 1%nat - trained 0%Z 1%nat).
Proof.
  assert (Q1 : val (ratio 1 4) = 1/4).
  { rewrite (proj2 (ratio_unit 1 4 ltac:(lia) ltac:(lia))). apply nearest_id. replace (1/4) with (IZR 1 * bpow radix2 (-2)) by (cbn; lra). apply format_scaled; lia. }
  assert (Q3 : val (ratio 3 4) = 3/4).
  { rewrite (proj2 (ratio_unit 3 4 ltac:(lia) ltac:(lia))). apply nearest_id. replace (3/4) with (IZR 3 * bpow radix2 (-2)) by (cbn; lra). apply format_scaled; lia. }
  cbv zeta. split; [|split].
  - intros c j Hc Hj. assert (J : j = 0%nat \/ j = 1%nat) by lia.
    destruct J as [-> | ->]; cbn in Hc; destruct Hc as [<-|[<-|[<-|[]]]]; unfold rmean, select; cbn -[val ratio]; rewrite ?Q1, ?Q3; lra.
  - repeat constructor; cbn [nth]; rewrite Q1, Q3; lra.
  - unfold rmean, select. cbn -[bpow val ratio]. rewrite Q1, Q3. assert (B : bpow radix2 (-49) <= bpow radix2 (-20)) by (apply bpow_le; lia).
    assert (B' : bpow radix2 (-20) = / 1048576) by reflexivity. rewrite B' in B.
    rewrite Rabs_right by lra. lra.
Qed.

(** At a difference of exactly 0.001 the two answers are far apart: here 2/3 and 0. *)
Theorem C112_AC_accuracy_refuted : exists y preds_train preds cm p, np_unique y = [0; 1]%Z /\ AC_fit y preds_train = Val cm /\
  (forall solv dist, AC_predict solv dist [0; 1]%Z cm preds = Val p) /\
  nth 1 p 0 = 2/3 /\ val (nth 1 (AC_float numpy_sum 0 1 (y_ext y (length preds_train)) preds_train preds) f0) = 0.
Proof. exact tie_refuted. Qed.
Print Assumptions C112_AC_accuracy_refuted.

(** Hypotheses: labels 0 0 1 1, training predictions 0 1 1 1 (rates 1/2 and 1), test predictions 0 1 1. *)
Example C112_hypotheses : np_unique [0; 0; 1; 1]%Z = [0; 1]%Z /\
  AC_fit [0; 0; 1; 1]%Z [0; 1; 1; 1]%Z = Val [Some [1 / 2; 1 / 2]; Some [0 / 2; 2 / 2]] /\
  bpow radix2 (-51) < Rabs (Rabs (2 / 2 - 1 / 2) - 1/1000) /\
  (let r := AC_float numpy_sum 0 1 [0; 0; 1; 1]%Z [0; 1; 1; 1]%Z [0; 1; 1]%Z in 0 < val (nth 1 r f0) < val (nth 0 r f0)).
Proof.
  split; [reflexivity|]. split; [|split].
  - change (AC_fit [0; 0; 1; 1]%Z [0; 1; 1; 1]%Z) with (Val (map norm_row [[INR 1; INR 1]; [INR 0; INR 2]])).
    apply f_equal. cbn [map]. unfold norm_row.
    assert (E1 : rsum [INR 1; INR 1] = 2) by (cbn; lra). assert (E2 : rsum [INR 0; INR 2] = 2) by (cbn; lra). rewrite E1, E2.
    destruct (Req_EM_T 2 0); [lra|]. unfold vdiv. cbn [map].
    replace (INR 1) with 1 by reflexivity. replace (INR 0) with 0 by reflexivity. replace (INR 2) with 2 by (cbn; lra). reflexivity.
  - rewrite (Rabs_pos_eq (2/2 - 1/2)) by lra. rewrite Rabs_pos_eq by lra. cbn. lra.
  - cbv zeta. destruct f0_ok as (_ & Z). rewrite <- Z. split; apply flt_val; vm_compute; reflexivity.
Qed.

(** DeBias and PAC: the probabilities of two training and two test examples. *)
Example C112_hypotheses_probabilities : let rows := [[ratio 3 10; ratio 7 10]; [ratio 4 5; ratio 1 5]] in
  Forall (Forall in_unit) rows /\ rows <> [] /\
  flt f_001 (fabs (fsub (fmean numpy_sum (fcol 1 (select 1%Z [1; 0]%Z rows))) (fmean numpy_sum (fcol 1 (select 0%Z [1; 0]%Z rows))))) = true /\
  in_unit (fst (DeBias_fit_float numpy_sum 0 1 [1; 0]%Z rows)) /\ finite (snd (DeBias_fit_float numpy_sum 0 1 [1; 0]%Z rows)) /\
  0 < val (snd (DeBias_fit_float numpy_sum 0 1 [1; 0]%Z rows)).
Proof.
  cbv zeta. split; [repeat (apply Forall_cons; [repeat (apply Forall_cons; [apply ratio_unit; lia|]); constructor|]); constructor|].
  split; [discriminate|]. split; [vm_compute; reflexivity|]. split; [|split].
  - change (fst (DeBias_fit_float numpy_sum 0 1 [1; 0]%Z [[ratio 3 10; ratio 7 10]; [ratio 4 5; ratio 1 5]])) with (ratio 1 2). apply ratio_unit; lia.
  - vm_compute. reflexivity.
  - destruct f0_ok as (_ & Z). rewrite <- Z. apply flt_val; vm_compute; reflexivity.
Qed.

(** DeBias, fitted and applied, is close to the answer of exact arithmetic: [e] bounds the rounding errors of the prevalence
    and of the variance it is fitted to, and the answer is within (6 / V + 14) e as long as V is at least 16 e. *)
Theorem C112_DeBias_accuracy : forall np_sum c0 c1 y preds_train preds n, adds_in_some_order np_sum -> np_unique y = [c0; c1] ->
  preds_train <> [] -> preds <> [] -> Forall (Forall in_unit) preds_train -> Forall (Forall in_unit) preds ->
  (length y <= n)%nat -> (length preds_train <= n)%nat -> (length preds <= n)%nat -> (Z.of_nat n <= 2 ^ 40)%Z ->
  let e := INR (n + 7) * bpow radix2 (-51) / (INR (zcount c1 y) / INR (length y) * (INR (zcount c0 y) / INR (length y))) in
  exists s, DeBias_fit y (map (map val) preds_train) = Val s /\
    Rabs (val (fst (DeBias_fit_float np_sum c0 c1 y preds_train)) - db_prev1 s) <= e /\
    Rabs (val (snd (DeBias_fit_float np_sum c0 c1 y preds_train)) - db_Vt s) <= e /\
    (16 * e <= db_Vt s ->
     exists p, DeBias_predict s (map (map val) preds) = Val p /\
       within ((6 / db_Vt s + 14) * e) (DeBias_float np_sum (DeBias_fit_float np_sum c0 c1 y preds_train) preds) p).
Proof. exact DeBias_float_accuracy. Qed.
Print Assumptions C112_DeBias_accuracy.

(** Hypotheses: two examples of opposite classes with certain predictions have V = 1, far above 16 e. *)
Example C112_hypotheses_DeBias : np_unique [1; 0]%Z = [0; 1]%Z /\ Forall (Forall in_unit) [[f0; f1]; [f1; f0]] /\
  exists s, DeBias_fit [1; 0]%Z (map (map val) [[f0; f1]; [f1; f0]]) = Val s /\
    16 * (INR (2 + 7) * bpow radix2 (-51) / (INR (zcount 1 [1; 0]%Z) / INR (length [1; 0]%Z) * (INR (zcount 0 [1; 0]%Z) / INR (length [1; 0]%Z)))) <= db_Vt s.
Proof.
  pose proof f0_unit as U0. pose proof f1_unit as U1. destruct f0_ok as (_ & V0). destruct f1_ok as (_ & V1).
  split; [reflexivity|]. split; [repeat (apply Forall_cons; [repeat (apply Forall_cons; [assumption|]); constructor|]); constructor|].
  unfold DeBias_fit. change (np_unique [1; 0]%Z) with [0; 1]%Z. cbv iota zeta. cbn [map]. eexists. split; [reflexivity|].
  change (zcount 1 [1; 0]%Z) with 1%nat. change (zcount 0 [1; 0]%Z) with 1%nat. change (length [1; 0]%Z) with 2%nat.
  cbn [db_Vt nth]. rewrite V0, V1. assert (B : bpow radix2 (-51) <= bpow radix2 (-20)) by (apply bpow_le; lia).
  assert (B' : bpow radix2 (-20) = / 1048576) by reflexivity. rewrite B' in B. pose proof (bpow_gt_0 radix2 (-51)).
  assert (I1 : INR 1 = 1) by reflexivity. assert (I2 : INR 2 = 2) by (cbn; lra). assert (I9 : INR (2 + 7) = 9) by (cbn; lra).
  unfold rmean. cbn [length rsum fold_right]. rewrite I1, I2, I9. unfold rsum. cbn. lra.
Qed.

(** ** C113: CC gives the correctly rounded fractions, PCC the means up to the rounding errors of the sum. *)

(** Each prevalence of CC is the double nearest to the exact fraction. *)
Theorem C113_CC_rounded : forall classes preds i, (i < length classes)%nat -> preds <> [] -> (Z.of_nat (length preds) <= 2 ^ 53)%Z ->
  in_unit (nth i (CC_float classes preds) f0) /\
  val (nth i (CC_float classes preds) f0) = nearest (fraction (nth i classes 0%Z) preds) /\
  Rabs (val (nth i (CC_float classes preds) f0) - fraction (nth i classes 0%Z) preds) <= bpow radix2 (-54).
Proof. exact CC_float_rounded. Qed.
Print Assumptions C113_CC_rounded.

(** The order of the classes is the order of their counts, in doubles too: rounding merges no two counts. *)
Theorem C113_CC_order : forall classes preds i j, (i < length classes)%nat -> (j < length classes)%nat -> preds <> [] ->
  (Z.of_nat (length preds) < 2 ^ 53)%Z ->
  (val (nth i (CC_float classes preds) f0) < val (nth j (CC_float classes preds) f0) <->
     (zcount (nth i classes 0%Z) preds < zcount (nth j classes 0%Z) preds)%nat) /\
  (val (nth i (CC_float classes preds) f0) = val (nth j (CC_float classes preds) f0) <->
     zcount (nth i classes 0%Z) preds = zcount (nth j classes 0%Z) preds).
Proof. exact CC_float_order. Qed.
Print Assumptions C113_CC_order.

(** With two classes the two prevalences add up to exactly 1 ... *)
Theorem C113_CC_two : forall c0 c1 preds, c0 <> c1 -> (forall z, In z preds -> z = c0 \/ z = c1) -> preds <> [] ->
  (Z.of_nat (length preds) <= 2 ^ 53)%Z ->
  exists p q, CC_float [c0; c1] preds = [p; q] /\ complementary p q.
Proof. exact CC_float_two. Qed.
Print Assumptions C113_CC_two.

(** ... but with three classes they need not: 1/6 + 4/6 + 1/6. *)
Theorem C113_CC_sum_refuted : exists classes preds, NoDup classes /\ preds <> [] /\ (forall z, In z preds -> In z classes) /\
  val (numpy_sum (CC_float classes preds)) <> 1.
Proof. exact CC_sum_refuted. Qed.
Print Assumptions C113_CC_sum_refuted.

(** PCC stays in [0, 1] for every order of summation, and is within (n+1)*2^-52 of the exact mean of [n] examples. *)
Theorem C113_PCC_accuracy : forall np_sum k rows j, adds_in_some_order np_sum -> rows <> [] -> Forall (Forall in_unit) rows ->
  (Z.of_nat (length rows) <= 2 ^ 50)%Z -> (j < k)%nat ->
  in_unit (nth j (PCC_float np_sum k rows) f0) /\
  Rabs (val (nth j (PCC_float np_sum k rows) f0) - exact_mean (fcol j rows)) <= INR (length rows + 1) * bpow radix2 (-52).
Proof. exact PCC_float_accuracy. Qed.
Print Assumptions C113_PCC_accuracy.

(** Three equal probabilities have a different mean, and two classes need not add up to 1. *)
Theorem C113_PCC_equal_refuted : exists x, in_unit x /\ val (fmean numpy_sum [x; x; x]) <> val x.
Proof. exact mean_equal_refuted. Qed.
Print Assumptions C113_PCC_equal_refuted.

Theorem C113_PCC_sum_refuted : exists rows, rows <> [] /\ Forall (fun r => exists p q, r = [p; q] /\ complementary p q) rows /\
  val (numpy_sum (PCC_float numpy_sum 2 rows)) <> 1.
Proof. exact PCC_sum_refuted. Qed.
Print Assumptions C113_PCC_sum_refuted.

Example C113_hypotheses : let rows := [[ratio 3 10; ratio 7 10]; [ratio 4 5; ratio 1 5]; [f0; f1]] in
  Forall (Forall in_unit) rows /\ rows <> [] /\ (Z.of_nat (length rows) <= 2 ^ 50)%Z.
Proof.
  cbv zeta. split; [|split; [discriminate|cbn; lia]].
  repeat (apply Forall_cons; [repeat (apply Forall_cons; [first [apply f0_unit | apply f1_unit | apply ratio_unit; lia]|]); constructor|]); constructor.
Qed.

(** ** C114: Frank and Hall's prevalences. *)

(** The corrected left-group prevalences are in [0, 1], do not decrease, and are within 2^-52 of the exact correction. *)
Theorem C114_correction : forall l, Forall in_unit l ->
  Forall in_unit (fcorrect_asc l) /\
  (forall i, (S i < length l)%nat -> val (nth i (fcorrect_asc l) f0) <= val (nth (S i) (fcorrect_asc l) f0)) /\
  within (bpow radix2 (-52)) (fcorrect_asc l) (correct_asc (map val l)).
Proof. exact fcorrect_spec. Qed.
Print Assumptions C114_correction.

(** Up to eight classes: all the prevalences are in [0, 1] and adding them from left to right gives exactly 1. *)
Theorem C114_few_classes : forall np_sum left, adds_few_in_order np_sum -> left <> [] -> (length left < 8)%nat -> Forall in_unit left ->
  exists p, FHQ_float np_sum left = Val p /\ length p = S (length left) /\ Forall in_unit p /\ val (M_Float.left_to_right p) = 1.
Proof. exact FHQ_few. Qed.
Print Assumptions C114_few_classes.

(** The rows of the monotone classifier are computed by the same loop, without the correction. *)
Theorem C114_few_classes_monotone : forall np_sum left, adds_few_in_order np_sum -> left <> [] -> (length left < 8)%nat -> Forall in_unit left ->
  exists p, from_left_groups_float np_sum left = Val p /\ length p = S (length left) /\ Forall in_unit p /\ val (M_Float.left_to_right p) = 1.
Proof. exact from_left_few. Qed.
Print Assumptions C114_few_classes_monotone.

(** With nine classes the last prevalence can be negative, because numpy adds eight numbers in another order. *)
Theorem C114_nine_classes_refuted : exists left p, Forall in_unit left /\
  (forall i, (S i < length left)%nat -> val (nth i left f0) <= val (nth (S i) left f0)) /\
  FHQ_float numpy_sum left = Val p /\ val (last p f0) < 0.
Proof. exact nine_refuted. Qed.
Print Assumptions C114_nine_classes_refuted.

(** For any number [k] of classes and any order of summation the answer is within k^2*2^-50 + 2^-51 of the exact one. *)
Theorem C114_accuracy : forall np_sum left, adds_in_some_order np_sum -> left <> [] -> (Z.of_nat (length left) < 2 ^ 20)%Z -> Forall in_unit left ->
  exists p q, FHQ_float np_sum left = Val p /\ FHQ_combine (map val left) = Val q /\
    within (INR (S (length left)) * INR (S (length left)) * bpow radix2 (-50) + bpow radix2 (-51)) p q.
Proof. exact FHQ_close. Qed.
Print Assumptions C114_accuracy.

(** Hypotheses: 0.3 0.2 0.6, the example in the documentation of the correction. *)
Example C114_hypotheses : let left := [ratio 3 10; ratio 1 5; ratio 3 5] in Forall in_unit left /\ left <> [] /\ (length left < 8)%nat /\
  fascending left = false.
Proof.
  cbv zeta. split; [repeat (apply Forall_cons; [apply ratio_unit; lia|]); constructor|]. split; [discriminate|]. split; [cbn; lia|].
  vm_compute. reflexivity.
Qed.
