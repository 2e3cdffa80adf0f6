(** * C117: the distances between prevalences computed with doubles. *)

From Coq Require Import Reals ZArith List Bool Lia Lra.
From Flocq Require Import Core BinarySingleNaN.
From Verif Require Import Num Spec M_Metrics M_Float M_Float2 M_Float3 M_Float4 Spec_Float L_Float L_Float5 L_Float8 L_Float13 L_Float14 L_Float15 L_Float16 L_Float17.
Import ListNotations.
Open Scope R_scope.

(** ** C117 *)

(** Symmetry to the last bit, for all doubles (infinities and NaN included) and whatever np.sum does. *)
Theorem C117_symmetric : forall np_sum epsilon p q,
  l1_float np_sum p q = l1_float np_sum q p /\ mae_float np_sum p q = mae_float np_sum q p /\
  mse_float np_sum p q = mse_float np_sum q p /\ l2_float np_sum p q = l2_float np_sum q p /\
  hd_float np_sum p q = hd_float np_sum q p /\ bray_curtis_float np_sum p q = bray_curtis_float np_sum q p /\
  probsymmetric_float np_sum epsilon p q = probsymmetric_float np_sum epsilon q p.
Proof. exact distances_symmetric. Qed.
Print Assumptions C117_symmetric.

(** The distance of a vector to itself is exactly 0. *)
Theorem C117_self : forall np_sum p, adds_in_some_order np_sum -> p <> [] -> (Z.of_nat (length p) <= 2 ^ 53)%Z -> Forall in_unit p ->
  l1_float np_sum p p = f0 /\ mae_float np_sum p p = f0 /\ mse_float np_sum p p = f0 /\ l2_float np_sum p p = f0 /\ hd_float np_sum p p = f0.
Proof. exact distances_self. Qed.
Print Assumptions C117_self.

(** l1 tells any two different vectors apart... *)
Theorem C117_l1_identity : forall np_sum p q, adds_in_some_order np_sum -> length p = length q -> (Z.of_nat (length p) <= 2 ^ 53)%Z ->
  Forall in_unit p -> Forall in_unit q -> (val (l1_float np_sum p q) = 0 <-> map val p = map val q).
Proof. exact l1_zero_iff. Qed.
Print Assumptions C117_l1_identity.

(** ...but the others do not: the mean absolute error underflows, and so do squares; hd rounds two square roots alike. *)
Theorem C117_identity_refuted : exists p1 q1 p2 q2 p3 q3,
  Forall in_unit p1 /\ Forall in_unit q1 /\ map val p1 <> map val q1 /\ length p1 = 2%nat /\ length q1 = 2%nat /\ mae_float numpy_sum p1 q1 = f0 /\
  Forall in_unit p2 /\ Forall in_unit q2 /\ map val p2 <> map val q2 /\ length p2 = 2%nat /\ length q2 = 2%nat /\ mse_float numpy_sum p2 q2 = f0 /\ l2_float numpy_sum p2 q2 = f0 /\
  Forall in_unit p3 /\ Forall in_unit q3 /\ map val p3 <> map val q3 /\ length p3 = 2%nat /\ length q3 = 2%nat /\ hd_float numpy_sum p3 q3 = f0.
Proof. exact identity_refuted. Qed.
Print Assumptions C117_identity_refuted.

(** Accuracy: the errors are relative to the exact distance, apart from underflow (for hd, from the square roots). *)
Theorem C117_l1_accuracy : forall np_sum p q, adds_in_some_order np_sum -> p <> [] -> length p = length q -> (Z.of_nat (length p) <= 2 ^ 50)%Z ->
  Forall in_unit p -> Forall in_unit q ->
  finite (l1_float np_sum p q) /\ 0 <= val (l1_float np_sum p q) <= INR (length p) /\
  exists d, l1 (vec (map val p)) (vec (map val q)) = Val d /\ 0 <= d /\
    Rabs (val (l1_float np_sum p q) - d) <= INR (length p + 1) * bpow radix2 (-52) * d.
Proof. exact l1_accuracy. Qed.
Print Assumptions C117_l1_accuracy.

Theorem C117_mae_accuracy : forall np_sum p q, adds_in_some_order np_sum -> p <> [] -> length p = length q -> (Z.of_nat (length p) <= 2 ^ 50)%Z ->
  Forall in_unit p -> Forall in_unit q ->
  in_unit (mae_float np_sum p q) /\
  exists d, mean_absolute_error (vec (map val p)) (vec (map val q)) = Val d /\ 0 <= d /\
    Rabs (val (mae_float np_sum p q) - d) <= INR (length p + 2) * bpow radix2 (-52) * d + bpow radix2 (-1075).
Proof. exact mae_accuracy. Qed.
Print Assumptions C117_mae_accuracy.

Theorem C117_mse_accuracy : forall np_sum p q, adds_in_some_order np_sum -> p <> [] -> length p = length q -> (Z.of_nat (length p) <= 2 ^ 50)%Z ->
  Forall in_unit p -> Forall in_unit q ->
  in_unit (mse_float np_sum p q) /\
  exists d, mean_squared_error (vec (map val p)) (vec (map val q)) = Val d /\ 0 <= d /\
    Rabs (val (mse_float np_sum p q) - d) <= INR (length p + 4) * bpow radix2 (-52) * d + bpow radix2 (-1073).
Proof. exact mse_accuracy. Qed.
Print Assumptions C117_mse_accuracy.

Theorem C117_l2_accuracy : forall np_sum p q, adds_in_some_order np_sum -> p <> [] -> length p = length q -> (Z.of_nat (length p) <= 2 ^ 49)%Z ->
  Forall in_unit p -> Forall in_unit q ->
  finite (l2_float np_sum p q) /\ 0 <= val (l2_float np_sum p q) /\
  exists d, l2 (vec (map val p)) (vec (map val q)) = Val d /\ 0 <= d /\
    Rabs (val (l2_float np_sum p q) - d) <= INR (2 * length p + 7) * bpow radix2 (-52) * d + bpow radix2 (-500).
Proof. exact l2_accuracy. Qed.
Print Assumptions C117_l2_accuracy.

Theorem C117_hd_accuracy : forall np_sum p q, adds_in_some_order np_sum -> p <> [] -> length p = length q -> (Z.of_nat (length p) <= 2 ^ 49)%Z ->
  Forall in_unit p -> Forall in_unit q ->
  finite (hd_float np_sum p q) /\ 0 <= val (hd_float np_sum p q) /\
  exists d, hdist (vec (map val p)) (vec (map val q)) = Val d /\ 0 <= d /\
    Rabs (val (hd_float np_sum p q) - d) <= INR (2 * length p + 7) * bpow radix2 (-52) * d + INR (length p + 1) * bpow radix2 (-52).
Proof. exact hd_accuracy. Qed.
Print Assumptions C117_hd_accuracy.

(** bray_curtis is defined in doubles exactly when it is defined in exact arithmetic (some prevalence is positive). *)
Theorem C117_bray_curtis_nan : forall np_sum p q, adds_in_some_order np_sum -> length p = length q -> (Z.of_nat (length p) <= 2 ^ 48)%Z ->
  Forall in_unit p -> Forall in_unit q -> p <> [] ->
  (bray_curtis (vec (map val p)) (vec (map val q)) = NotANumber <-> is_nan (bray_curtis_float np_sum p q) = true).
Proof. exact bray_curtis_zeros. Qed.
Print Assumptions C117_bray_curtis_nan.

Theorem C117_bray_curtis_accuracy : forall np_sum p q d, adds_in_some_order np_sum -> length p = length q -> (Z.of_nat (length p) <= 2 ^ 48)%Z ->
  Forall in_unit p -> Forall in_unit q -> p <> [] -> bray_curtis (vec (map val p)) (vec (map val q)) = Val d ->
  finite (bray_curtis_float np_sum p q) /\ 0 <= d <= 1 /\ 0 <= val (bray_curtis_float np_sum p q) /\
    Rabs (val (bray_curtis_float np_sum p q) - d) <= INR (3 * length p + 5) * bpow radix2 (-52) * d + bpow radix2 (-1075).
Proof. exact bray_curtis_accuracy. Qed.
Print Assumptions C117_bray_curtis_accuracy.

Theorem C117_probsymmetric_accuracy : forall epsilon, in_unit epsilon -> bpow radix2 (-70) <= val epsilon ->
  forall np_sum p q, adds_in_some_order np_sum -> p <> [] -> length p = length q -> (Z.of_nat (length p) <= 2 ^ 49)%Z ->
  Forall in_unit p -> Forall in_unit q ->
  finite (probsymmetric_float np_sum epsilon p q) /\ 0 <= val (probsymmetric_float np_sum epsilon p q) /\
  exists d, probsymmetric (val epsilon) (vec (map val p)) (vec (map val q)) = Val d /\ 0 <= d /\
    Rabs (val (probsymmetric_float np_sum epsilon p q) - d) <= INR (length p + 6) * bpow radix2 (-52) * d + INR (length p) * bpow radix2 (-1001).
Proof. exact probsymmetric_accuracy. Qed.
Print Assumptions C117_probsymmetric_accuracy.

(** The default epsilon, 1e-20. *)
Example C117_hypotheses_epsilon : in_unit (fdiv f1 (of_Z (10 ^ 20))) /\ bpow radix2 (-70) <= val (fdiv f1 (of_Z (10 ^ 20))).
Proof. exact eps20_ok. Qed.

(** The triangle inequality fails by a rounding error, even for two classes whose prevalences add up to 1. *)
Theorem C117_triangle_refuted : exists p q r, Forall in_unit p /\ Forall in_unit q /\ Forall in_unit r /\
  (exists a b, p = [a; b] /\ complementary a b) /\ (exists a b, q = [a; b] /\ complementary a b) /\ (exists a b, r = [a; b] /\ complementary a b) /\
  val (fadd (l1_float numpy_sum p q) (l1_float numpy_sum q r)) < val (l1_float numpy_sum p r).
Proof. exact triangle_refuted. Qed.
Print Assumptions C117_triangle_refuted.

(** Hypotheses: (1/4, 3/4) and (1/10, 9/10), added by numpy. *)
Example C117_hypotheses : adds_in_some_order numpy_sum /\ Forall in_unit [ratio 1 4; ratio 3 4] /\ Forall in_unit [ratio 1 10; ratio 9 10] /\
  map val [ratio 1 4; ratio 3 4] <> map val [ratio 1 10; ratio 9 10].
Proof.
  split; [exact numpy_sum_ok|].
  split; [repeat (apply Forall_cons; [apply ratio_unit; lia|]); constructor|].
  split; [repeat (apply Forall_cons; [apply ratio_unit; lia|]); constructor|].
  intros H. apply (f_equal (fun l => hd 0 l)) in H. change (val (ratio 1 4) = val (ratio 1 10)) in H. assert (val (ratio 1 10) < val (ratio 1 4)) by (apply flt_val; vm_compute; reflexivity). rewrite H in H0. exact (Rlt_irrefl _ H0).
Qed.
