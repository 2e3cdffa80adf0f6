(** * C115-C116: dividing by a sum, and EM, computed with doubles. *)

From Coq Require Import Reals ZArith List Bool Lia Lra.
From Flocq Require Import Core BinarySingleNaN.
From Verif Require Import Num Spec M_Baselines M_EM M_Float M_Float2 M_Float3 Spec_Float L_Float L_Float2 L_Float3 L_Float4 L_Float5 L_Float8 L_Float9 L_Float10 L_Float12.
Import ListNotations.
Open Scope R_scope.

(** ** C115: the methods that end by dividing by the sum give numbers in [0, 1] that add up to 1 and are the exact shares,
    up to 2^-50 per class. *)

(** OneVsRestQuantifier: from the estimates of its quantifiers, unless they are all 0. *)
Theorem C115_one_vs_rest_double : forall np_sum l, adds_in_some_order np_sum -> Forall in_unit l -> (Z.of_nat (length l) <= 2 ^ 50)%Z ->
  Exists (fun x => 0 < val x) l ->
  shares (INR (length l) * bpow radix2 (-50)) (map val l) (OneVsRest_float np_sum l).
Proof. exact normalise_shares. Qed.
Print Assumptions C115_one_vs_rest_double.

(** If they are all 0 it returns them as they are. *)
Theorem C115_one_vs_rest_zero : forall np_sum l, adds_in_some_order np_sum -> Forall in_unit l -> (Z.of_nat (length l) <= 2 ^ 53)%Z ->
  Forall (fun x => val x = 0) l -> OneVsRest_float np_sum l = l.
Proof. exact normalise_zero. Qed.
Print Assumptions C115_one_vs_rest_zero.

(** PDF with EMD, whatever finite numbers the solver gives, if one is positive. *)
Theorem C115_pdf_double : forall np_sum l, adds_in_some_order np_sum -> Forall finite l -> (Z.of_nat (length l) <= 2 ^ 50)%Z ->
  Exists (fun x => 0 < val x) l ->
  shares (INR (length l) * bpow radix2 (-50)) (map clip01 (map val l)) (PDF_float np_sum l).
Proof. exact PDF_float_shares. Qed.
Print Assumptions C115_pdf_double.

(** REG with several classes, whatever finite numbers the regressors give, if one is positive; else all NaN. *)
Theorem C115_regression_double : forall np_sum l, adds_in_some_order np_sum -> Forall finite l -> (Z.of_nat (length l) <= 2 ^ 50)%Z ->
  Exists (fun x => 0 < val x) l ->
  shares (INR (length l) * bpow radix2 (-50)) (map clip01 (map val l)) (REG_multi_float np_sum l).
Proof. exact REG_float_shares. Qed.
Print Assumptions C115_regression_double.

Theorem C115_regression_nan : forall np_sum l, adds_in_some_order np_sum -> Forall finite l -> (Z.of_nat (length l) <= 2 ^ 53)%Z ->
  Forall (fun x => val x <= 0) l -> Forall (fun x => is_nan x = true) (REG_multi_float np_sum l).
Proof. exact REG_float_nan. Qed.
Print Assumptions C115_regression_nan.

(** AC and PAC with several classes, whatever the product with the inverse matrix is, if it is finite and not huge and one
    entry is positive. *)
Theorem C115_inverse_double : forall v, Forall finite v -> Forall (fun x => val x <= bpow radix2 900) v -> (Z.of_nat (length v) <= 2 ^ 50)%Z ->
  Exists (fun x => 0 < val x) v ->
  shares (INR (length v) * bpow radix2 (-50)) (map (Rmax 0) (map val v)) (AC_inverse_float v).
Proof. exact AC_inverse_shares. Qed.
Print Assumptions C115_inverse_double.

(** EoQ with 'mean': the exact means of the members, rescaled, up to rounding. *)
Theorem C115_ensemble_mean_double : forall axis_sum np_sum k rows, adds_in_some_order axis_sum -> adds_in_some_order np_sum -> rows <> [] ->
  Forall (fun r => length r = k) rows -> Forall (Forall in_unit) rows -> Forall (fun r => 1/2 <= exact_sum r) rows ->
  (Z.of_nat k <= 2 ^ 50)%Z -> (Z.of_nat (length rows) <= 2 ^ 50)%Z -> INR k * INR (length rows + 1) <= bpow radix2 50 ->
  shares (INR (k + 1) * INR (length rows + 3) * bpow radix2 (-50)) (map (fun j => exact_mean (fcol j rows)) (seq 0 k))
    (EoQ_mean_float axis_sum np_sum k rows).
Proof. exact EoQ_shares. Qed.
Print Assumptions C115_ensemble_mean_double.

(** In doubles the mean of members that all agree need not be what they agree on. *)
Theorem C115_unanimous_refuted : exists p q, complementary p q /\
  val (nth 0 (EoQ_mean_float M_Float.left_to_right numpy_sum 2 [[p; q]; [p; q]; [p; q]]) f0) <> val p.
Proof. exact EoQ_unanimous_refuted. Qed.
Print Assumptions C115_unanimous_refuted.

(** Hypotheses: estimates 1/2, 0 and 1; an ensemble of two members. *)
Example C115_hypotheses : Forall in_unit [ratio 1 2; f0; f1] /\ Exists (fun x => 0 < val x) [ratio 1 2; f0; f1] /\
  Forall (fun r => length r = 2%nat) [[f0; f1]; [f1; f0]] /\ Forall (Forall in_unit) [[f0; f1]; [f1; f0]] /\
  Forall (fun r => 1/2 <= exact_sum r) [[f0; f1]; [f1; f0]] /\ INR 2 * INR 3 <= bpow radix2 50 /\
  Forall finite [ratio 1 2; fsub f0 f1] /\ val (nth 1 [ratio 1 2; fsub f0 f1] f0) < 0.
Proof.
  pose proof f0_unit as U0. pose proof f1_unit as U1. destruct f0_ok as (_ & V0). destruct f1_ok as (_ & V1).
  assert (Uh : in_unit (ratio 1 2)) by (apply ratio_unit; lia).
  split; [repeat (apply Forall_cons; [assumption|]); constructor|]. split; [right; right; left; rewrite V1; lra|].
  split; [repeat constructor|].
  split; [repeat (apply Forall_cons; [apply Forall_cons; [assumption|apply Forall_cons; [assumption|constructor]]|]); constructor|].
  split; [repeat (apply Forall_cons; [unfold exact_sum; cbn [map fold_right]; rewrite V0, V1; lra|]); constructor|].
  split; [cbn; lra|]. split; [apply Forall_cons; [apply Uh|apply Forall_cons; [reflexivity|constructor]]|].
  rewrite <- V0. apply flt_val; vm_compute; reflexivity.
Qed.

(** ** C116: EM never leaves [0, 1] nor meets a NaN, however many rounds it does. *)

(** Whatever the tolerance and the number of rounds, if in each row the posteriors are large or far smaller. *)
Theorem C116_EM_double : forall axis_sum np_sum epsilon max_iter y preds, adds_in_some_order axis_sum -> adds_in_some_order np_sum ->
  y <> [] -> (Z.of_nat (length y) <= 2 ^ 40)%Z -> preds <> [] -> (Z.of_nat (length preds) <= 2 ^ 50)%Z ->
  Forall (fun x => length x = length (np_unique y)) preds -> Forall (Forall in_unit) preds -> Forall separated preds ->
  length (EM_float axis_sum np_sum epsilon max_iter (EM_train_float (np_unique y) y) preds) = length (np_unique y) /\
  Forall in_unit (EM_float axis_sum np_sum epsilon max_iter (EM_train_float (np_unique y) y) preds) /\
  Rabs (exact_sum (EM_float axis_sum np_sum epsilon max_iter (EM_train_float (np_unique y) y) preds) - 1) <=
    INR (length (np_unique y)) * INR (length preds + 5) * bpow radix2 (-52).
Proof. exact EM_float_ok. Qed.
Print Assumptions C116_EM_double.

(** Every round is a round of exact arithmetic up to rounding errors: the answer is the last of the prevalences [it 0],
    [it 1], ..., which start from the fractions of the training labels, and each of which is close to what the exact round
    makes of the one before.  There are at least 10 rounds, or [max_iter], and the loop stops earlier than [max_iter] only
    when the last round changed little. *)
Theorem C116_EM_rounds_double : forall axis_sum np_sum epsilon max_iter y preds, adds_in_some_order axis_sum -> adds_in_some_order np_sum ->
  y <> [] -> (Z.of_nat (length y) <= 2 ^ 40)%Z -> (length (np_unique y) <= 1000)%nat -> preds <> [] -> (Z.of_nat (length preds) <= 2 ^ 50)%Z ->
  Forall (fun x => length x = length (np_unique y)) preds -> Forall (Forall in_unit) preds -> Forall separated preds ->
  exists (it : nat -> list float) (r : nat),
    it 0%nat = EM_train_float (np_unique y) y /\
    within (bpow radix2 (-54)) (it 0%nat) (map (fun c => INR (zcount c y) / INR (length y)) (np_unique y)) /\
    EM_float axis_sum np_sum epsilon max_iter (EM_train_float (np_unique y) y) preds = it r /\
    (Nat.min 10 max_iter <= r <= max_iter)%nat /\
    (forall i, (i < r)%nat -> exists q, em_step (map val (it 0%nat)) (map (map val) preds) (map val (it i)) = Val q /\
       within (INR (length preds + 4 * length (np_unique y) + 9) * bpow radix2 (-52)) (it (S i)) q) /\
    ((r < max_iter)%nat -> flt epsilon (mae_float np_sum (it r) (it (r - 1)%nat)) = false).
Proof. exact EM_rounds. Qed.
Print Assumptions C116_EM_rounds_double.

(** That is so when the posteriors that are not 0 are at least 2^-900... *)
Theorem C116_separated_positive : forall row, Exists (fun x => val x <> 0) row ->
  Forall (fun x => val x = 0 \/ bpow radix2 (-900) <= val x) row -> separated row.
Proof. exact separated_positive. Qed.
Print Assumptions C116_separated_positive.

(** ...and, for two classes, always: one of the two posteriors is at least 1/4. *)
Theorem C116_separated_two : forall a b, 1/4 <= val a \/ 1/4 <= val b -> separated [a; b].
Proof. exact separated_two. Qed.
Print Assumptions C116_separated_two.

(** A class that no example can belong to gets exactly 0. *)
Theorem C116_absent_class_double : forall axis_sum np_sum epsilon max_iter y preds j, adds_in_some_order axis_sum -> adds_in_some_order np_sum ->
  y <> [] -> (Z.of_nat (length y) <= 2 ^ 40)%Z -> preds <> [] -> (Z.of_nat (length preds) <= 2 ^ 50)%Z ->
  Forall (fun x => length x = length (np_unique y)) preds -> Forall (Forall in_unit) preds -> Forall separated preds ->
  (0 < max_iter)%nat -> (j < length (np_unique y))%nat -> Forall (fun x => val (nth j x f0) = 0) preds ->
  val (nth j (EM_float axis_sum np_sum epsilon max_iter (EM_train_float (np_unique y) y) preds) f0) = 0.
Proof. exact EM_absent. Qed.
Print Assumptions C116_absent_class_double.

(** Rows that are not probabilities can make a product vanish: every row has a positive entry, and the answer is NaN. *)
Theorem C116_positive_rows_refuted : exists y preds, y <> [] /\ preds <> [] /\ Forall (fun x => length x = length (np_unique y)) preds /\
  Forall (Forall in_unit) preds /\ Forall (Exists (fun x => 0 < val x)) preds /\
  forall j, (j < 2)%nat -> is_nan (nth j (EM_float numpy_sum numpy_sum (ratio 1 10000) 1000 (EM_train_float (np_unique y) y) preds) f0) = true.
Proof. exact EM_refuted. Qed.
Print Assumptions C116_positive_rows_refuted.

(** Hypotheses: three classes, the second impossible for both examples. *)
Example C116_hypotheses : np_unique [2; 0; 1; 0]%Z = [0; 1; 2]%Z /\
  Forall (fun x => length x = length (np_unique [2; 0; 1; 0]%Z)) [[ratio 1 2; f0; ratio 1 2]; [f0; f0; f1]] /\
  Forall (Forall in_unit) [[ratio 1 2; f0; ratio 1 2]; [f0; f0; f1]] /\
  Forall separated [[ratio 1 2; f0; ratio 1 2]; [f0; f0; f1]] /\
  Forall (fun x => val (nth 1 x f0) = 0) [[ratio 1 2; f0; ratio 1 2]; [f0; f0; f1]].
Proof.
  pose proof f0_unit as U0. pose proof f1_unit as U1. destruct f0_ok as (_ & V0). destruct f1_ok as (_ & V1).
  assert (Uh : in_unit (ratio 1 2)) by (apply ratio_unit; lia).
  assert (Vh : 1/4 <= val (ratio 1 2)).
  { apply Rlt_le. replace (1/4) with (val (ratio 1 4)).
    - apply flt_val; vm_compute; reflexivity.
    - destruct (ratio_unit 1 4 ltac:(lia) ltac:(lia)) as (_ & ->). replace (1/4) with (bpow radix2 (-2)) by (cbn; lra).
      apply nearest_id, format_bpow. lia. }
  assert (B9 : bpow radix2 (-900) <= 1/4). { replace (1/4) with (bpow radix2 (-2)) by (cbn; lra). apply bpow_le. lia. }
  split; [reflexivity|]. split; [repeat constructor|].
  split; [repeat (apply Forall_cons; [repeat (apply Forall_cons; [assumption|]); constructor|]); constructor|].
  split.
  - apply Forall_cons; [|apply Forall_cons; [|constructor]]; apply separated_positive.
    + left. lra.
    + apply Forall_cons; [right; lra|apply Forall_cons; [left; exact V0|apply Forall_cons; [right; lra|constructor]]].
    + right. right. left. lra.
    + apply Forall_cons; [left; exact V0|apply Forall_cons; [left; exact V0|apply Forall_cons; [right; lra|constructor]]].
  - apply Forall_cons; [exact V0|apply Forall_cons; [exact V0|constructor]].
Qed.
