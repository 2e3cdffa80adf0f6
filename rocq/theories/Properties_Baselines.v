(** * Property theorems: CC, PCC, AC, PAC, PWKQuantifier, DeBias (C01-C09). *)

From Coq Require Import Reals List ZArith Lia Lra Permutation Bool.
From Verif Require Import Num Spec M_Baselines L_Num L_Baselines.
Import ListNotations.
Open Scope R_scope.

(** C01: CC.predict returns exactly the fraction of the bag predicted as each class; it is a
    distribution iff every prediction is a known class; an empty bag has no numeric answer. *)
Theorem C01_cc_exact_frequencies : forall classes preds, NoDup classes -> preds <> [] ->
  exists p, CC_predict classes preds = Val p /\ length p = length classes /\
    (forall i, (i < length classes)%nat -> nth i p 0 = fraction (nth i classes 0%Z) preds) /\
    (distribution p <-> (forall x, In x preds -> In x classes)).
Proof. exact CC_frequencies. Qed.
Print Assumptions C01_cc_exact_frequencies.

Example C01_hypotheses : NoDup [3; 7; 9]%Z /\ [7; 7; 3]%Z <> [] /\
  CC_predict [3; 7; 9]%Z [7; 7; 3]%Z = Val [1/3; 2/3; 0/3].
Proof.
  split; [repeat constructor; simpl; intuition lia|split; [congruence|]].
  unfold CC_predict, class_frequencies, zcount; simpl. repeat (f_equal; try lra).
Qed.

Theorem C01_cc_empty_bag : forall classes, CC_predict classes [] = NotANumber.
Proof. exact (fun _ => eq_refl). Qed.
Print Assumptions C01_cc_empty_bag.

(** C02: PCC.predict is the class-wise mean of the posteriors, and a distribution. *)
Theorem C02_pcc_distribution : forall k preds, preds <> [] -> distributions k preds ->
  exists p, PCC_predict k preds = Val p /\ distribution_over k p /\
    (forall j, (j < k)%nat -> nth j p 0 = rsum (map (fun r => nth j r 0) preds) / INR (length preds)).
Proof. exact PCC_valid. Qed.
Print Assumptions C02_pcc_distribution.

Example C02_hypotheses : distributions 3 [[1/2; 1/4; 1/4]; [0; 1; 0]].
Proof.
  repeat (apply Forall_cons; [split; [reflexivity|split;
    [repeat (apply Forall_cons; [lra|]); apply Forall_nil|simpl; lra]]|]); apply Forall_nil.
Qed.

(** C03: binary AC / PWKQuantifier / PAC return distributions, for every confusion matrix
    (informative or not, even with NaN rows) and every bag with at least one known label. *)
Theorem C03_ac_binary_distribution : forall S dist classes cm preds,
  NoDup classes -> length classes = 2%nat -> (exists x, In x preds /\ In x classes) ->
  exists p, AC_predict S dist classes cm preds = Val p /\ distribution_over 2 p.
Proof. exact AC_binary_valid. Qed.
Print Assumptions C03_ac_binary_distribution.

Theorem C03_pwk_binary_distribution : forall S classes cm preds,
  NoDup classes -> length classes = 2%nat -> (exists x, In x preds /\ In x classes) ->
  exists p, PWKQ_predict S classes cm preds = Val p /\ distribution_over 2 p.
Proof. exact PWKQ_binary_valid. Qed.
Print Assumptions C03_pwk_binary_distribution.

Theorem C03_pac_binary_distribution : forall S dist classes cm preds,
  length classes = 2%nat -> preds <> [] -> distributions 2 preds ->
  exists p, PAC_predict S dist classes cm preds = Val p /\ distribution_over 2 p.
Proof. exact PAC_binary_valid. Qed.
Print Assumptions C03_pac_binary_distribution.

Example C03_hypotheses : NoDup [0; 1]%Z /\ (exists x, In x [1; 1; 5]%Z /\ In x [0; 1]%Z).
Proof. split; [repeat constructor; simpl; intuition lia|exists 1%Z; simpl; auto]. Qed.

(** The excluded case: a bag without any known label and an uninformative (or NaN) matrix. *)
Theorem C03_unknown_labels_refuted : exists classes cm preds, forall S dist,
  NoDup classes /\ length classes = 2%nat /\ preds <> [] /\
  AC_predict S dist classes cm preds = Val [0; 0].
Proof. exact AC_unknown_zero. Qed.
Print Assumptions C03_unknown_labels_refuted.

(** C04: with an invertible matrix of rates, multiclass AC/PAC return a distribution. *)
Theorem C04_ac_multiclass_distribution : forall S dist r (tr : list (Z * (nat -> Z))) cm ptest,
  (forall n A M, inv S n A = Some M -> inverse_of n A M) -> (0 < r)%nat ->
  let classes := np_unique (labels_of tr) in
  let n := length classes in
  (forall x, In x (predictions_of r tr) -> In x classes) ->
  AC_fit (labels_of tr) (predictions_of r tr) = Val cm ->
  n <> 2%nat ->
  (exists x, In x ptest /\ In x classes) ->
  (forall A, (forall i j, (i < n)%nat -> (j < n)%nat ->
        A i j = rate (nth j classes 0%Z) (nth i classes 0%Z) (repeated_labels r tr) (predictions_of r tr)) ->
     inv S n A <> None) ->
  exists p, AC_predict S dist classes cm ptest = Val p /\ distribution_over n p.
Proof. exact AC_multi_valid. Qed.
Print Assumptions C04_ac_multiclass_distribution.

Theorem C04_pac_multiclass_distribution : forall S dist r (tr : list (Z * (nat -> list R))) cm ptest,
  (forall n A M, inv S n A = Some M -> inverse_of n A M) -> (0 < r)%nat ->
  let classes := np_unique (labels_of tr) in
  let n := length classes in
  distributions n (predictions_of r tr) ->
  PAC_fit (labels_of tr) (predictions_of r tr) = Val cm ->
  n <> 2%nat ->
  ptest <> [] -> distributions n ptest ->
  (forall A, (forall i j, (i < n)%nat -> (j < n)%nat ->
        A i j = rmean (col i (select (nth j classes 0%Z) (repeated_labels r tr) (predictions_of r tr)))) ->
     inv S n A <> None) ->
  exists p, PAC_predict S dist classes cm ptest = Val p /\ distribution_over n p.
Proof. exact PAC_multi_valid. Qed.
Print Assumptions C04_pac_multiclass_distribution.

(** C05: exact recovery.  The bag has (hidden) true labels [ytest]; on every class present in the
    bag the classifier behaves as on the training data; then the prediction is
    exactly the fraction of each class among [ytest]. *)
Theorem C05_ac_recovers_prevalence : forall S dist r (tr : list (Z * (nat -> Z))) cm ytest ptest,
  (forall n A M, inv S n A = Some M -> inverse_of n A M) -> (0 < r)%nat ->
  let classes := np_unique (labels_of tr) in
  let trained := fun c d => rate c d (repeated_labels r tr) (predictions_of r tr) in
  (forall x, In x (predictions_of r tr) -> In x classes) ->
  AC_fit (labels_of tr) (predictions_of r tr) = Val cm ->
  length ytest = length ptest -> ytest <> [] -> (forall x, In x ytest -> In x classes) ->
  (forall c d, In c ytest -> In d classes -> rate c d ytest ptest = trained c d) ->
  (forall c0 c1, classes = [c0; c1] -> 1/1000 < Rabs (trained c1 c1 - trained c0 c1)) ->
  (length classes <> 2%nat -> forall A,
     (forall i j, (i < length classes)%nat -> (j < length classes)%nat ->
        A i j = trained (nth j classes 0%Z) (nth i classes 0%Z)) -> inv S (length classes) A <> None) ->
  AC_predict S dist classes cm ptest = Val (map (fun c => fraction c ytest) classes).
Proof. exact AC_recovers. Qed.
Print Assumptions C05_ac_recovers_prevalence.

Theorem C05_pac_recovers_prevalence : forall S dist r (tr : list (Z * (nat -> list R))) cm ytest ptest,
  (forall n A M, inv S n A = Some M -> inverse_of n A M) -> (0 < r)%nat ->
  let classes := np_unique (labels_of tr) in
  let n := length classes in
  let trained := fun c j => rmean (col j (select c (repeated_labels r tr) (predictions_of r tr))) in
  PAC_fit (labels_of tr) (predictions_of r tr) = Val cm ->
  length ytest = length ptest -> ytest <> [] -> (forall x, In x ytest -> In x classes) ->
  (forall c j, In c ytest -> (j < n)%nat -> rmean (col j (select c ytest ptest)) = trained c j) ->
  (forall c0 c1, classes = [c0; c1] -> 1/1000 < Rabs (trained c1 1%nat - trained c0 1%nat)) ->
  (n <> 2%nat -> forall A,
     (forall i j, (i < n)%nat -> (j < n)%nat -> A i j = trained (nth j classes 0%Z) i) -> inv S n A <> None) ->
  PAC_predict S dist classes cm ptest = Val (map (fun c => fraction c ytest) classes).
Proof. exact PAC_recovers. Qed.
Print Assumptions C05_pac_recovers_prevalence.

(** A three-class classifier that always exchanges classes 1 and 2, and an inverse oracle that
    knows the inverse of every involution: all hypotheses of C04 and C05 (AC) hold. *)
Example C04_C05_hypotheses :
  let S := involution_solver in
  let tr := [(0, fun _ => 0); (1, fun _ => 2); (2, fun _ => 1); (2, fun _ => 1)]%Z in
  let ytest := [2; 2; 0; 1; 2]%Z in let ptest := [1; 1; 0; 2; 1]%Z in
  let classes := np_unique (labels_of tr) in
  let trained := fun c d => rate c d (repeated_labels 1 tr) (predictions_of 1 tr) in
  (forall n A M, inv S n A = Some M -> inverse_of n A M) /\
  classes = [0; 1; 2]%Z /\
  (forall x, In x (predictions_of 1 tr) -> In x classes) /\
  (exists cm, AC_fit (labels_of tr) (predictions_of 1 tr) = Val cm) /\
  (exists x, In x ptest /\ In x classes) /\
  length ytest = length ptest /\ (forall x, In x ytest -> In x classes) /\
  (forall c d, In c ytest -> In d classes -> rate c d ytest ptest = trained c d) /\
  (forall A, (forall i j, (i < 3)%nat -> (j < 3)%nat ->
        A i j = trained (nth j classes 0%Z) (nth i classes 0%Z)) -> inv S 3 A <> None).
Proof. exact three_class_witness. Qed.

(** C06: the order of the examples of the bag is irrelevant. *)
Theorem C06_bag_order : forall S dist classes cm s k (a b : list Z) (pa pb : list (list R)),
  Permutation a b -> Permutation pa pb ->
  CC_predict classes a = CC_predict classes b /\
  PCC_predict k pa = PCC_predict k pb /\
  AC_predict S dist classes cm a = AC_predict S dist classes cm b /\
  PAC_predict S dist classes cm pa = PAC_predict S dist classes cm pb /\
  PWKQ_predict S classes cm a = PWKQ_predict S classes cm b /\
  DeBias_predict s pa = DeBias_predict s pb.
Proof. exact bag_order. Qed.
Print Assumptions C06_bag_order.

Example C06_hypotheses : Permutation [1; 2; 2]%Z [2; 1; 2]%Z.
Proof. apply perm_swap. Qed.

(** C07: only the proportions of the bag matter. *)
Theorem C07_bag_replication : forall S dist classes cm s k m (a : list Z) (pa : list (list R)),
  (0 < m)%nat ->
  CC_predict classes (repeated m a) = CC_predict classes a /\
  PCC_predict k (repeated m pa) = PCC_predict k pa /\
  AC_predict S dist classes cm (repeated m a) = AC_predict S dist classes cm a /\
  PAC_predict S dist classes cm (repeated m pa) = PAC_predict S dist classes cm pa /\
  PWKQ_predict S classes cm (repeated m a) = PWKQ_predict S classes cm a /\
  DeBias_predict s (repeated m pa) = DeBias_predict s pa.
Proof. exact bag_replication. Qed.
Print Assumptions C07_bag_replication.

Example C07_hypotheses : repeated 2 [4; 5]%Z = [4; 4; 5; 5]%Z.
Proof. reflexivity. Qed.

(** C08: permuting the training examples (labels together with all their [r] predictions) does
    not change what fit stores, hence no later prediction. *)
Theorem C08_training_order_ac : forall r (tr tr' : list (Z * (nat -> Z))), Permutation tr tr' ->
  np_unique (labels_of tr) = np_unique (labels_of tr') /\
  AC_fit (labels_of tr) (predictions_of r tr) = AC_fit (labels_of tr') (predictions_of r tr').
Proof. exact train_order_AC. Qed.
Print Assumptions C08_training_order_ac.

Theorem C08_training_order_pac_debias : forall r (tr tr' : list (Z * (nat -> list R))), Permutation tr tr' ->
  PAC_fit (labels_of tr) (predictions_of r tr) = PAC_fit (labels_of tr') (predictions_of r tr') /\
  DeBias_fit (labels_of tr) (predictions_of r tr) = DeBias_fit (labels_of tr') (predictions_of r tr').
Proof. exact train_order_PAC_DeBias. Qed.
Print Assumptions C08_training_order_pac_debias.

Example C08_hypotheses :
  let tr := [(1, fun j => Z.of_nat j); (2, fun _ => 2)]%Z in
  labels_of tr = [1; 2]%Z /\ predictions_of 2 tr = [0; 2; 1; 2]%Z /\ repeated_labels 2 tr = [1; 2; 1; 2]%Z.
Proof. repeat split. Qed.

(** C09: DeBias. *)
Theorem C09_debias_binary_only : forall y p, length (np_unique y) <> 2%nat ->
  DeBias_fit y p = Err AttributeError.
Proof. exact DeBias_fit_binary. Qed.
Print Assumptions C09_debias_binary_only.

Theorem C09_debias_distribution : forall s preds, preds <> [] ->
  (db_Vt s <> 0 \/ rmean (col 1 preds) <> db_prev1 s) ->
  exists p, DeBias_predict s preds = Val p /\ distribution_over 2 p.
Proof. exact DeBias_predict_valid. Qed.
Print Assumptions C09_debias_distribution.

Theorem C09_debias_exact : forall r (tr : list (Z * (nat -> list R))) c0 c1 s preds p, (0 < r)%nat ->
  let score := fun q : list R => nth 1 q 0 in
  let ytr := repeated_labels r tr in let ptr := predictions_of r tr in
  let prev1 := fraction c1 (labels_of tr) in
  let m0 := rmean (map score (select c0 ytr ptr)) in
  let m1 := rmean (map score (select c1 ytr ptr)) in
  np_unique (labels_of tr) = [c0; c1] ->
  DeBias_fit (labels_of tr) ptr = Val s ->
  rmean (map score ptr) = prev1 ->
  rmean (map (fun q => (score q - prev1) ^ 2) ptr) = prev1 * (1 - prev1) * (m1 - m0) ->
  m1 <> m0 ->
  preds <> [] -> 0 <= p <= 1 -> rmean (map score preds) = (1 - p) * m0 + p * m1 ->
  DeBias_predict s preds = Val [1 - p; p].
Proof. exact DeBias_exact. Qed.
Print Assumptions C09_debias_exact.

Example C09_hypotheses :
  let score := fun q : list R => nth 1 q 0 in
  let tr := [(0%Z, fun _ : nat => [3/4; 1/4]); (0%Z, fun _ => [3/4; 1/4]); (0%Z, fun _ => [3/4; 1/4]); (0%Z, fun _ => [1/4; 3/4]);
             (1%Z, fun _ => [3/4; 1/4]); (1%Z, fun _ => [1/4; 3/4]); (1%Z, fun _ => [1/4; 3/4]); (1%Z, fun _ => [1/4; 3/4])] in
  let ytr := repeated_labels 1 tr in let ptr := predictions_of 1 tr in
  let prev1 := fraction 1%Z (labels_of tr) in
  let m0 := rmean (map score (select 0%Z ytr ptr)) in
  let m1 := rmean (map score (select 1%Z ytr ptr)) in
  np_unique (labels_of tr) = [0; 1]%Z /\ rmean (map score ptr) = prev1 /\
  rmean (map (fun q => (score q - prev1) ^ 2) ptr) = prev1 * (1 - prev1) * (m1 - m0) /\ m1 <> m0.
Proof. exact debias_witness. Qed.

(** C70: training predictions whose number is not a multiple of the number of labels are refused. *)
Theorem C70_misaligned_training_rejected : forall y, y <> [] ->
  (forall preds, Nat.modulo (length preds) (length y) <> O -> AC_fit y preds = Err ValueError) /\
  (forall preds, Nat.modulo (length preds) (length y) <> O -> PAC_fit y preds = Err IndexError).
Proof. exact (fun y H => conj (fun p => AC_fit_misaligned y p H) (fun p => PAC_fit_misaligned y p H)). Qed.
Print Assumptions C70_misaligned_training_rejected.

Example C70_hypotheses : Nat.modulo (length [1; 2; 2; 1; 1]%Z) (length [1; 2]%Z) <> O.
Proof. simpl. congruence. Qed.
