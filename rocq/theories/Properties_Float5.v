(** * C124: earth mover's distances computed with doubles. *)

From Coq Require Import Reals ZArith List Bool Lia Lra.
From Flocq Require Import Core BinarySingleNaN.
From Verif Require Import Num Spec M_Metrics M_Float M_Float2 M_Float3 M_Float6 Spec_Float L_Float L_Float5 L_Float8 L_Float15 L_Float22 L_Float23 L_Float24 L_Float25.
Import ListNotations.
Open Scope R_scope.

(** ** C124 *)

(** Exchanging the arguments gives the same double, for all doubles (infinities and NaN included). *)
Theorem C124_symmetric : forall np_sum p q, emd_float np_sum p q = emd_float np_sum q p.
Proof. exact emd_float_symmetric. Qed.
Print Assumptions C124_symmetric.

Theorem C124_distances_symmetric : forall A B i j, (i < length A)%nat -> (j < length B)%nat -> length (nth i A []) = length (nth j B []) ->
  nth j (nth i (emd_distances_float A B) []) f0 = nth i (nth j (emd_distances_float B A) []) f0.
Proof. exact emd_distances_symmetric. Qed.
Print Assumptions C124_distances_symmetric.

(** A vector is at distance exactly 0 from itself. *)
Theorem C124_self : forall np_sum p, adds_in_some_order np_sum -> (Z.of_nat (length p) <= 2 ^ 53)%Z -> Forall in_unit p ->
  emd_float np_sum p p = f0 /\ emd_pair_float p p = f0.
Proof. exact (fun np_sum p A N U => conj (nonneg_zero_f0 np_sum p A N U) (emd_pair_self p U N)). Qed.
Print Assumptions C124_self.

(** emd is finite, not negative, and 0 only for equal vectors... *)
Theorem C124_identity : forall np_sum p q, adds_in_some_order np_sum -> length p = length q -> (Z.of_nat (length p) <= 2 ^ 53)%Z ->
  Forall in_unit p -> Forall in_unit q ->
  finite (emd_float np_sum p q) /\ 0 <= val (emd_float np_sum p q) /\ (val (emd_float np_sum p q) = 0 <-> map val p = map val q).
Proof.
  exact (fun np_sum p q A L N Up Uq => conj (proj1 (emd_float_nonneg np_sum p q A L N Up Uq))
    (conj (proj2 (emd_float_nonneg np_sum p q A L N Up Uq)) (emd_float_zero np_sum p q A L N Up Uq))).
Qed.
Print Assumptions C124_identity.

(** ...but emd_distances gives 0, and emd_score gives 1, for some vectors that differ (and that the machine adds up to 1). *)
Theorem C124_identity_refuted : exists a b, Forall in_unit a /\ Forall in_unit b /\ length a = 3%nat /\ length b = 3%nat /\ map val a <> map val b /\
  left_to_right a = f1 /\ left_to_right b = f1 /\
  emd_pair_float a b = f0 /\ 0 < val (emd_float numpy_sum a b) /\ emd_score_float numpy_sum a b = f1.
Proof. exact tiny_difference. Qed.
Print Assumptions C124_identity_refuted.

(** Accuracy, for vectors that add up to about 1 (2 at most). *)
Theorem C124_accuracy : forall np_sum p q, adds_in_some_order np_sum -> p <> [] -> length p = length q -> (Z.of_nat (length p) <= 2 ^ 40)%Z ->
  Forall in_unit p -> Forall in_unit q -> exact_sum p <= 2 -> exact_sum q <= 2 ->
  finite (emd_float np_sum p q) /\ 0 <= val (emd_float np_sum p q) /\
  exists d, emd (vec (map val p)) (vec (map val q)) = Val d /\ 0 <= d <= 2 * INR (length p) /\
    Rabs (val (emd_float np_sum p q) - d) <= 5 * INR (length p) ^ 2 * bpow radix2 (-52).
Proof. exact emd_accuracy. Qed.
Print Assumptions C124_accuracy.

Theorem C124_distances_accuracy : forall n A B, (0 < n)%nat -> (Z.of_nat n <= 2 ^ 40)%Z -> A <> [] -> B <> [] ->
  Forall (fun row => length row = n /\ Forall in_unit row /\ exact_sum row <= 2) (A ++ B) ->
  Forall (Forall (fun x => finite x /\ 0 <= val x)) (emd_distances_float A B) /\
  exists D, emd_distances (map (map val) A) (map (map val) B) = Val D /\
    Forall2 (within (8 * INR n ^ 2 * bpow radix2 (-52))) (emd_distances_float A B) D.
Proof. exact emd_distances_accuracy. Qed.
Print Assumptions C124_distances_accuracy.

(** emd_score is at most 1, exactly 1 for the truth itself, and close to the score of exact arithmetic. *)
Theorem C124_score : forall np_sum p q, adds_in_some_order np_sum -> length p = length q -> (2 <= length p)%nat -> (Z.of_nat (length p) <= 2 ^ 40)%Z ->
  Forall in_unit p -> Forall in_unit q -> exact_sum p <= 2 -> exact_sum q <= 2 ->
  emd_score_float np_sum p p = f1 /\ finite (emd_score_float np_sum p q) /\ val (emd_score_float np_sum p q) <= 1 /\
  exists s, emd_score (map val p) (map val q) = Val s /\ Rabs (val (emd_score_float np_sum p q) - s) <= INR (length p) * bpow radix2 (-42).
Proof.
  exact (fun np_sum p q A L N2 N Up Uq Sp Sq => conj (score_of_truth np_sum p A N2 N Up Sp) (score_bits np_sum p q A L N2 N Up Uq Sp Sq)).
Qed.
Print Assumptions C124_score.

(** Hypotheses: (1/4, 3/4) and (1/2, 1/2), at distance 1/4 and with score 2/3. *)
Example C124_hypotheses : Forall in_unit [ratio 1 4; ratio 3 4] /\ Forall in_unit [ratio 1 2; ratio 1 2] /\
  exact_sum [ratio 1 4; ratio 3 4] <= 2 /\ exact_sum [ratio 1 2; ratio 1 2] <= 2 /\
  emd_float numpy_sum [ratio 1 4; ratio 3 4] [ratio 1 2; ratio 1 2] = ratio 1 4 /\
  emd_score_float numpy_sum [ratio 1 4; ratio 3 4] [ratio 1 2; ratio 1 2] = ratio 2 3.
Proof.
  assert (U1 : Forall in_unit [ratio 1 4; ratio 3 4]) by (repeat (apply Forall_cons; [apply ratio_unit; lia|]); constructor).
  assert (U2 : Forall in_unit [ratio 1 2; ratio 1 2]) by (repeat (apply Forall_cons; [apply ratio_unit; lia|]); constructor).
  assert (S : forall a b, Forall in_unit [a; b] -> exact_sum [a; b] <= 2).
  { intros a b H. inversion_clear H as [|? ? (_ & Ba) H']. inversion_clear H' as [|? ? (_ & Bb) _]. unfold exact_sum. cbn. lra. }
  split; [exact U1|]. split; [exact U2|]. split; [apply S, U1|]. split; [apply S, U2|].
  split; apply B2SF_inj; vm_compute; reflexivity.
Qed.
