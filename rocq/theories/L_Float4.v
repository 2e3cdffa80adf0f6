(** * CC, PCC, AC, PAC and DeBias in double precision. *)

From Coq Require Import Reals ZArith List Permutation Lia Lra Bool Psatz.
From Flocq Require Import Core BinarySingleNaN Relative Plus_error.
From Verif Require Import Num M_Baselines M_Float Spec_Float L_Float L_Float2 L_Float3.
Import ListNotations.
Open Scope R_scope.

(** ** AC *)

Lemma list_sum_in n l : In n l -> (n <= list_sum l)%nat.
Proof. unfold list_sum. induction l as [|a l IH]; [easy|]. cbn [fold_right In]. intros [->|H]; [lia|]. specialize (IH H). lia. Qed.

Lemma pair_count_two c c0 c1 y p : c0 <> c1 -> (pair_count c c0 y p + pair_count c c1 y p <= length y)%nat.
Proof.
  intros D. unfold pair_count. revert p. induction y as [|a y IH]; intros [|b p]; cbn; try lia.
  specialize (IH p). destruct (Z.eqb a c); cbn; [|lia].
  destruct (Z.eqb_spec b c0), (Z.eqb_spec b c1); subst; cbn; try congruence; lia.
Qed.

Lemma zero_div : is_nan (fdiv (of_nat 0) (of_nat 0)) = true.
Proof. vm_compute. reflexivity. Qed.

Lemma cm_float_rate c0 c1 y p c d : c0 <> c1 -> small (length y) -> In d [c0; c1] -> rate_or_nan (cm_float [c0; c1] y p c d).
Proof.
  intros D N I. unfold cm_float.
  set (k := pair_count c d y p). set (n := list_sum _).
  assert (K : (k <= n)%nat) by (apply list_sum_in, in_map_iff; exists d; split; [reflexivity|exact I]).
  assert (M : (n <= length y)%nat).
  { unfold n. cbn. pose proof (pair_count_two c c0 c1 y p D). lia. }
  destruct n as [|n'] eqn:E.
  - right. replace k with 0%nat by lia. apply zero_div.
  - left. apply frac_val; [lia|lia|]. apply small_le with (length y); [lia|exact N].
Qed.

Lemma AC_float_ok np_sum c0 c1 y preds_train preds : adds_in_some_order np_sum -> c0 <> c1 ->
  small (length y) -> small (length preds) -> preds <> [] -> (forall z, In z preds -> z = c0 \/ z = c1) ->
  exists p q, AC_float np_sum c0 c1 y preds_train preds = [p; q] /\ complementary p q.
Proof.
  intros A D N M E H. unfold AC_float. destruct (CC_float_two c0 c1 preds D H E M) as (a & b & -> & C).
  apply adjust_complementary; [exact A| | |exact C]; apply cm_float_rate; cbn; auto.
Qed.

(** ** PAC *)

Lemma fcol_unit j rows : Forall (Forall in_unit) rows -> Forall in_unit (fcol j rows).
Proof.
  intros H. unfold fcol. apply Forall_map. eapply Forall_impl; [|exact H]. intros r U.
  destruct (Nat.lt_ge_cases j (length r)) as [L|L].
  - rewrite Forall_forall in U. apply U, nth_In, L.
  - rewrite nth_overflow by exact L. apply f0_unit.
Qed.

Lemma fcol_length j rows : length (fcol j rows) = length rows.
Proof. apply map_length. Qed.

Lemma PCC_float_nth np_sum k rows j : adds_in_some_order np_sum -> rows <> [] -> Forall (Forall in_unit) rows -> small (length rows) ->
  (j < k)%nat ->
  in_unit (nth j (PCC_float np_sum k rows) f0) /\
  val (nth j (PCC_float np_sum k rows) f0) = nearest (val (np_sum (fcol j rows)) / INR (length rows)).
Proof.
  intros A E U N J. unfold PCC_float.
  rewrite (nth_indep _ f0 (fmean np_sum (fcol 0 rows))) by (rewrite map_length, seq_length; exact J).
  rewrite (map_nth (fun j => fmean np_sum (fcol j rows))), seq_nth by exact J. cbn [plus].
  rewrite <- (fcol_length j rows). apply fmean_unit; [exact A| |apply fcol_unit, U|rewrite fcol_length; exact N].
  intros H. apply E. apply length_zero_iff_nil. rewrite <- (fcol_length j), H. reflexivity.
Qed.

Lemma select_incl {A : Type} c y (rows : list A) : incl (select c y rows) rows.
Proof.
  intros x H. unfold select in H. apply in_map_iff in H. destruct H as ((a & b) & <- & H).
  apply filter_In in H. destruct H as (H & _). apply in_combine_r in H. exact H.
Qed.

Lemma select_length {A : Type} c y (rows : list A) : (length (select c y rows) <= length rows)%nat.
Proof.
  unfold select. rewrite map_length. revert rows. induction y as [|a y IH]; intros [|r rows]; cbn; try lia.
  specialize (IH rows). destruct (Z.eqb a c); cbn; lia.
Qed.

Lemma mean_rate np_sum c y rows : adds_in_some_order np_sum -> Forall (Forall in_unit) rows -> small (length rows) ->
  rate_or_nan (fmean np_sum (fcol 1 (select c y rows))) .
Proof.
  intros A U N. destruct (select c y rows) as [|r l] eqn:E.
  - right. unfold fmean, fcol. cbn [map length]. destruct (summed_range _ _ (A []) (Forall_nil _)) as (F & B); [unfold small; cbn; lia|].
    destruct (summed_few _ _ (A []) (Forall_nil _)) as (Z & _); [unfold small; cbn; lia|]. specialize (Z eq_refl).
    unfold val in Z. destruct (np_sum []) as [s|s| |s m e Bd]; try discriminate F.
    + destruct s; vm_compute; reflexivity.
    + exfalso. unfold B2R in Z. destruct s; revert Z; [apply Rlt_not_eq, F2R_lt_0; cbn; lia|apply Rgt_not_eq, F2R_gt_0; cbn; lia].
  - left. rewrite <- E. apply fmean_unit; [exact A| | |].
    + intros H. apply (f_equal (@length float)) in H. rewrite fcol_length, E in H. discriminate H.
    + apply fcol_unit. apply (incl_Forall (select_incl c y rows)), U.
    + rewrite fcol_length. revert N. apply small_le, select_length.
Qed.

Lemma PAC_float_ok np_sum c0 c1 y preds_train preds : adds_in_some_order np_sum ->
  Forall (Forall in_unit) preds_train -> Forall (Forall in_unit) preds -> preds <> [] ->
  small (length preds_train) -> small (length preds) ->
  exists p q, PAC_float np_sum c0 c1 y preds_train preds = [p; q] /\ in_unit p /\ in_unit q /\
    (0 < val (nth 0 (PCC_float np_sum 2 preds) f0) + val (nth 1 (PCC_float np_sum 2 preds) f0) ->
     Rabs (val p + val q - 1) <= bpow radix2 (-51)).
Proof.
  intros A U1 U2 E N1 N2. unfold PAC_float.
  destruct (PCC_float_nth np_sum 2 preds 0 A E U2 N2) as (V0 & _); [lia|].
  destruct (PCC_float_nth np_sum 2 preds 1 A E U2 N2) as (V1 & _); [lia|].
  unfold PCC_float in *. cbn [seq map nth] in *.
  apply adjust_unit; [exact A|apply mean_rate; assumption..|exact V0|exact V1].
Qed.

(** When the correction applies, the two prevalences are complementary. *)
Lemma PAC_float_corrected np_sum c0 c1 y preds_train preds : adds_in_some_order np_sum ->
  Forall (Forall in_unit) preds_train -> Forall (Forall in_unit) preds -> preds <> [] ->
  small (length preds_train) -> small (length preds) ->
  flt f_001 (fabs (fsub (fmean np_sum (fcol 1 (select c1 y preds_train))) (fmean np_sum (fcol 1 (select c0 y preds_train))))) = true ->
  exists p q, PAC_float np_sum c0 c1 y preds_train preds = [p; q] /\ complementary p q.
Proof.
  intros A U1 U2 E N1 N2 T. unfold PAC_float.
  destruct (PCC_float_nth np_sum 2 preds 1 A E U2 N2) as (V1 & _); [lia|].
  unfold PCC_float in *. cbn [seq map nth] in *.
  pose proof (mean_rate np_sum c0 y preds_train A U1 N1) as R0. pose proof (mean_rate np_sum c1 y preds_train A U1 N1) as R1.
  assert (X : forall z, is_nan z = true -> flt f_001 (fabs z) = true -> False).
  { intros z Hn Ht. rewrite nan_lt in Ht; [discriminate Ht|]. unfold fabs. rewrite is_nan_Babs. exact Hn. }
  destruct R0 as [R0|R0]; [|exfalso; apply (X _ (nan_sub_r _ _ R0) T)].
  destruct R1 as [R1|R1]; [|exfalso; apply (X _ (nan_sub_l _ _ R1) T)].
  destruct (adjust_value np_sum _ _ (fmean np_sum (fcol 0 preds)) _ A R0 R1 V1 T) as (p & q & E' & C & _).
  exists p, q. split; assumption.
Qed.

(** ** DeBias *)

Lemma fdiv_not_nan x y : finite x -> finite y -> val y <> 0 -> is_nan (fdiv x y) = false.
Proof.
  intros X Y Z. pose proof (Bdiv_correct 53 1024 prec_pos prec_small mode_NE x y Z) as C.
  destruct (Rlt_bool _ _) in C.
  - destruct C as (_ & C & _). apply finite_not_nan. unfold finite, fdiv. rewrite C. exact X.
  - unfold fdiv. rewrite <- is_nan_SF_B2SF. rewrite C. reflexivity.
Qed.

Lemma fadd_not_nan x y : finite x -> is_nan y = false -> is_nan (fadd x y) = false.
Proof.
  intros X Y. destruct (is_finite y) eqn:F.
  - pose proof (Bplus_correct 53 1024 prec_pos prec_small mode_NE x y X F) as C. destruct (Rlt_bool _ _) in C.
    + destruct C as (_ & C & _). apply finite_not_nan, C.
    + unfold fadd. rewrite <- is_nan_SF_B2SF. destruct C as (C & _). rewrite C. reflexivity.
  - destruct y as [s|s| |s m e B]; try discriminate. destruct x as [s'|s'| |s' m' e' B']; try discriminate; reflexivity.
Qed.

Lemma DeBias_float_ok np_sum p1 Vt preds : adds_in_some_order np_sum -> in_unit p1 -> finite Vt -> val Vt <> 0 ->
  preds <> [] -> Forall (Forall in_unit) preds -> small (length preds) ->
  exists p q, DeBias_float np_sum (p1, Vt) preds = [p; q] /\ complementary p q.
Proof.
  intros A U F Z E H N. unfold DeBias_float.
  assert (M : in_unit (fmean np_sum (fcol 1 preds))).
  { apply fmean_unit; [exact A| |apply fcol_unit, H|rewrite fcol_length; exact N].
    intros X. apply E, length_zero_iff_nil. rewrite <- (fcol_length 1), X. reflexivity. }
  destruct (fsub_ok (fmean np_sum (fcol 1 preds)) p1 (proj1 M) (proj1 U)) as (G & _).
  { destruct M as (_ & M), U as (_ & U). apply big4. apply Rabs_le. lra. }
  assert (NN : is_nan (fadd p1 (fdiv (fsub (fmean np_sum (fcol 1 preds)) p1) Vt)) = false).
  { apply fadd_not_nan; [apply U|]. apply fdiv_not_nan; assumption. }
  destruct (adjust_complement np_sum _ A NN) as (x & y & E' & C & _). exists x, y. split; assumption.
Qed.

(** ** How far a computed sum or mean is from the exact one *)

Definition ulp1 : R := bpow radix2 (-53).

Lemma bounded_sum e l : Forall (bounded e) l -> 0 <= exact_sum l.
Proof. unfold exact_sum. induction 1 as [|x m (F & B) _ IH]; cbn; lra. Qed.

Lemma exact_sum_perm l m : Permutation l m -> exact_sum l = exact_sum m.
Proof.
  intros P. unfold exact_sum. apply (Permutation_map val) in P. induction P; cbn; lra.
Qed.

Lemma exact_sum_app l m : exact_sum (l ++ m) = exact_sum l + exact_sum m.
Proof. unfold exact_sum. rewrite map_app. induction (map val l) as [|a t IH]; cbn; lra. Qed.

Lemma add_error x y : exists d, Rabs d <= ulp1 /\ nearest (val x + val y) = (val x + val y) * (1 + d).
Proof.
  assert (U0 : 0 < ulp1) by apply bpow_gt_0.
  destruct (FLT_plus_error_N_ex radix2 (-1074) 53 (fun z => negb (Z.even z)) (val x) (val y) (format_val x) (format_val y)) as (d & Hd & Ed).
  exists d. split; [|exact Ed].
  apply Rle_trans with (1 := Hd). unfold u_ro. change (- (53) + 1)%Z with (-52)%Z.
  assert (B : / 2 * bpow radix2 (-52) = ulp1).
  { unfold ulp1. change (bpow radix2 (-53)) with (bpow radix2 (-1 + -52)). rewrite bpow_plus. reflexivity. }
  rewrite B. apply Rmult_le_reg_r with (1 + ulp1); [lra|]. unfold Rdiv. rewrite Rmult_assoc, Rinv_l by lra. nra.
Qed.

Lemma summed_error_gen e l s : (-1074 <= e)%Z -> (e <= 900)%Z -> summed l s -> Forall (bounded e) l -> small (length l) ->
  Rabs (val s - exact_sum l) <= ((1 + ulp1) ^ length l - 1) * exact_sum l.
Proof.
  intros Elo Ehi. assert (U0 : 0 < ulp1) by apply bpow_gt_0.
  induction 1 as [|x|l1 l2 l x y S1 IH1 S2 IH2 P]; intros U N.
  - destruct f0_ok as (_ & ->). unfold exact_sum. cbn. rewrite Rminus_0_r, Rabs_R0. lra.
  - unfold exact_sum. cbn. inversion U as [|? ? (_ & B) _]; subst.
    replace (val x - (val x + 0)) with 0 by ring. rewrite Rabs_R0. nra.
  - destruct (summed_step e Elo Ehi _ _ _ _ _ S1 S2 P U N) as (U1 & U2 & N1 & N2 & E & X & Y & V).
    assert (ES : exact_sum l = exact_sum l1 + exact_sum l2) by (rewrite (exact_sum_perm _ _ P); apply exact_sum_app).
    specialize (IH1 U1 N1). specialize (IH2 U2 N2). pose proof (bounded_sum _ _ U1) as P1. pose proof (bounded_sum _ _ U2) as P2.
    assert (Pw : forall m n, (m <= n)%nat -> (1 + ulp1) ^ m <= (1 + ulp1) ^ n) by (intros; apply Rle_pow; [lra|lia]).
    rewrite V, ES.
    destruct (Nat.eq_dec (length l1) 0) as [Z1|Z1].
    { apply length_zero_iff_nil in Z1. subst l1. destruct (summed_few_gen e Elo Ehi _ _ S1 U1 N1) as (A0 & _). rewrite (A0 eq_refl) in *.
      rewrite Rplus_0_l, nearest_id by apply format_val. cbn in E. rewrite E. unfold exact_sum at 1 3. cbn. rewrite !Rplus_0_l. exact IH2. }
    destruct (Nat.eq_dec (length l2) 0) as [Z2|Z2].
    { apply length_zero_iff_nil in Z2. subst l2. destruct (summed_few_gen e Elo Ehi _ _ S2 U2 N2) as (A0 & _). rewrite (A0 eq_refl) in *.
      rewrite Rplus_0_r, nearest_id by apply format_val. cbn in E. rewrite Nat.add_0_r in E. rewrite E.
      unfold exact_sum at 2 4. cbn. rewrite !Rplus_0_r. exact IH1. }
    destruct (add_error x y) as (d & Ud & Ed). rewrite Ed.
    set (k := (length l - 1)%nat). assert (K : length l = S k) by (unfold k; lia).
    assert (G1 : Rabs (val x - exact_sum l1) <= ((1 + ulp1) ^ k - 1) * exact_sum l1).
    { apply Rle_trans with (1 := IH1). apply Rmult_le_compat_r; [exact P1|]. pose proof (Pw (length l1) k ltac:(lia)). lra. }
    assert (G2 : Rabs (val y - exact_sum l2) <= ((1 + ulp1) ^ k - 1) * exact_sum l2).
    { apply Rle_trans with (1 := IH2). apply Rmult_le_compat_r; [exact P2|]. pose proof (Pw (length l2) k ltac:(lia)). lra. }
    rewrite K. cbn [pow]. set (g := (1 + ulp1) ^ k) in *.
    assert (G : 1 <= g) by (apply pow_R1_Rle; lra).
    apply Rabs_le_inv in G1, G2, Ud.
    replace ((val x + val y) * (1 + d) - (exact_sum l1 + exact_sum l2))
      with ((val x + val y - (exact_sum l1 + exact_sum l2)) * (1 + d) + (exact_sum l1 + exact_sum l2) * d) by ring.
    apply Rle_trans with (1 := Rabs_triang _ _). rewrite !Rabs_mult.
    assert (T1 : Rabs (val x + val y - (exact_sum l1 + exact_sum l2)) <= (g - 1) * (exact_sum l1 + exact_sum l2)) by (apply Rabs_le; lra).
    assert (T2 : Rabs (1 + d) <= 1 + ulp1).
    { apply Rabs_le. assert (ulp1 <= 1) by (unfold ulp1; change 1 with (bpow radix2 0); apply bpow_le; lia). lra. }
    assert (T3 : Rabs d <= ulp1) by (apply Rabs_le; lra).
    rewrite (Rabs_pos_eq (exact_sum l1 + exact_sum l2)) by lra.
    apply Rle_trans with ((g - 1) * (exact_sum l1 + exact_sum l2) * (1 + ulp1) + (exact_sum l1 + exact_sum l2) * ulp1).
    + apply Rplus_le_compat; [apply Rmult_le_compat; try apply Rabs_pos; assumption|apply Rmult_le_compat_l; [lra|exact T3]].
    + nra.
Qed.

Lemma summed_error l s : summed l s -> Forall in_unit l -> small (length l) ->
  Rabs (val s - exact_sum l) <= ((1 + ulp1) ^ length l - 1) * exact_sum l.
Proof. intros H U N. apply (summed_error_gen 0); [lia|lia|exact H|apply Forall_unit_bounded, U|exact N]. Qed.

(** (1 + u)^n is about 1 + n u. *)
Lemma pow_near n : INR n * ulp1 <= 1/2 -> (1 + ulp1) ^ n <= 1 + 2 * (INR n * ulp1).
Proof.
  assert (U0 : 0 < ulp1) by apply bpow_gt_0.
  assert (H : forall m, INR m * ulp1 < 1 -> (1 + ulp1) ^ m * (1 - INR m * ulp1) <= 1).
  { induction m as [|m IH]; intros L; [cbn; lra|]. cbn [pow]. rewrite S_INR in *.
    assert (L' : INR m * ulp1 < 1) by nra. specialize (IH L'). pose proof (pos_INR m).
    assert (G : 0 < (1 + ulp1) ^ m) by (apply pow_lt; lra). set (g := (1 + ulp1) ^ m) in *.
    replace ((1 + ulp1) * g * (1 - (INR m + 1) * ulp1)) with (g * (1 - INR m * ulp1) - g * (INR m * ulp1 * ulp1 + ulp1 * ulp1)) by ring.
    assert (0 <= g * (INR m * ulp1 * ulp1 + ulp1 * ulp1)) by (apply Rmult_le_pos; [lra|]; assert (0 <= INR m * ulp1) by nra; nra). lra. }
  intros L. specialize (H n ltac:(lra)). set (g := (1 + ulp1) ^ n) in *. pose proof (pos_INR n).
  set (t := INR n * ulp1) in *. assert (0 <= t) by (unfold t; nra).
  apply Rmult_le_reg_r with (1 - t); [lra|]. apply Rle_trans with (1 := H). nra.
Qed.

Lemma fmean_error np_sum l : adds_in_some_order np_sum -> l <> [] -> Forall in_unit l -> (Z.of_nat (length l) <= 2 ^ 50)%Z ->
  Rabs (val (fmean np_sum l) - exact_mean l) <= INR (length l + 1) * bpow radix2 (-52).
Proof.
  intros A E U N. assert (N' : small (length l)) by (unfold small; lia).
  destruct (fmean_unit np_sum l A E U N') as (G & V). rewrite V.
  pose proof (summed_error _ _ (A l) U N') as D. destruct (summed_range _ _ (A l) U N') as (_ & B).
  assert (Np : 1 <= INR (length l)) by (change 1 with (INR 1); apply le_INR; destruct l; [congruence|cbn; lia]).
  assert (U0 : 0 < ulp1) by apply bpow_gt_0.
  assert (ES : 0 <= exact_sum l <= INR (length l)).
  { clear - U. unfold exact_sum. induction U as [|x m (F & B) _ IH]; [cbn; lra|]. cbn [length map fold_right]. rewrite S_INR. lra. }
  assert (Hn : INR (length l) * ulp1 <= 1/2).
  { apply Rle_trans with (bpow radix2 50 * ulp1).
    - apply Rmult_le_compat_r; [lra|]. rewrite INR_IZR_INZ. change (bpow radix2 50) with (IZR (2 ^ 50)). apply IZR_le, N.
    - unfold ulp1. rewrite <- bpow_plus. cbn. lra. }
  pose proof (pow_near (length l) Hn) as Pw.
  assert (D' : Rabs (val (np_sum l) - exact_sum l) <= 2 * (INR (length l) * ulp1) * INR (length l)).
  { apply Rle_trans with (1 := D). apply Rmult_le_compat; try lra. assert (1 <= (1 + ulp1) ^ length l) by (apply pow_R1_Rle; lra). lra. }
  set (n := INR (length l)) in *. set (s := val (np_sum l)) in *.
  assert (Q : 0 <= s / n <= 1).
  { split; [apply Rdiv_le_0_compat; lra|]. apply Rmult_le_reg_r with n; [lra|]. unfold Rdiv. rewrite Rmult_assoc, Rinv_l by lra. lra. }
  assert (R1 : Rabs (nearest (s / n) - s / n) <= bpow radix2 (-54)) by (apply nearest_error_unit; rewrite Rabs_pos_eq; lra).
  assert (R2 : Rabs (s / n - exact_mean l) <= 2 * (n * ulp1)).
  { unfold exact_mean. fold n. replace (s / n - exact_sum l / n) with ((s - exact_sum l) * / n) by (unfold Rdiv; ring).
    rewrite Rabs_mult, (Rabs_pos_eq (/ n)) by (left; apply Rinv_0_lt_compat; lra).
    apply Rmult_le_reg_r with n; [lra|]. rewrite Rmult_assoc, Rinv_l by lra. rewrite Rmult_1_r. exact D'. }
  replace (nearest (s / n) - exact_mean l) with ((nearest (s / n) - s / n) + (s / n - exact_mean l)) by ring.
  apply Rle_trans with (1 := Rabs_triang _ _). rewrite plus_INR. fold n. cbn [INR].
  assert (B1 : bpow radix2 (-52) = 2 * ulp1). { unfold ulp1. change (-52)%Z with (1 + -53)%Z. rewrite bpow_plus. reflexivity. }
  assert (B2 : ulp1 = 2 * bpow radix2 (-54)). { unfold ulp1. change (-53)%Z with (1 + -54)%Z. rewrite bpow_plus. reflexivity. }
  pose proof (bpow_gt_0 radix2 (-54)). rewrite B1. lra.
Qed.

(** ** Dividing by the sum *)

Lemma fdiv_le x s : finite x -> finite s -> 0 <= val x <= val s -> 0 < val s ->
  in_unit (fdiv x s) /\ Rabs (val (fdiv x s) - val x / val s) <= bpow radix2 (-54).
Proof.
  intros X S B P. destruct (fdiv_unit x s X S B P) as (U & V). split; [exact U|]. rewrite V. apply nearest_error_unit.
  assert (Q : 0 <= val x / val s <= 1).
  { split; [apply Rdiv_le_0_compat; lra|]. apply Rmult_le_reg_r with (1 := P). unfold Rdiv. rewrite Rmult_assoc, Rinv_l by lra. lra. }
  rewrite Rabs_pos_eq; lra.
Qed.

Lemma pow_mono n : 1 <= (1 + ulp1) ^ n.
Proof. assert (U0 : 0 < ulp1) by apply bpow_gt_0. apply pow_R1_Rle. lra. Qed.

Lemma divided_by_sum e np_sum l : (-1074 <= e)%Z -> (e <= 900)%Z -> adds_in_some_order np_sum -> Forall (bounded e) l ->
  (Z.of_nat (length l) <= 2 ^ 50)%Z -> 0 < exact_sum l ->
  0 < val (np_sum l) /\ Forall in_unit (map (fun x => fdiv x (np_sum l)) l) /\
  Rabs (exact_sum (map (fun x => fdiv x (np_sum l)) l) - 1) <= INR (length l) * bpow radix2 (-50).
Proof.
  intros Elo Ehi A U N P. assert (N' : small (length l)) by (unfold small; lia).
  destruct (summed_range_gen e Elo Ehi _ _ (A l) U N') as (F & B).
  pose proof (summed_error_gen e _ _ Elo Ehi (A l) U N') as D.
  assert (U0 : 0 < ulp1) by apply bpow_gt_0.
  assert (Lp : 1 <= INR (length l)).
  { change 1 with (INR 1). apply le_INR. destruct l; [unfold exact_sum in P; cbn in P; lra|cbn; lia]. }
  assert (Hn : INR (length l) * ulp1 <= 1/8).
  { apply Rle_trans with (bpow radix2 50 * ulp1).
    - apply Rmult_le_compat_r; [lra|]. rewrite INR_IZR_INZ. change (bpow radix2 50) with (IZR (2 ^ 50)). apply IZR_le, N.
    - unfold ulp1. rewrite <- bpow_plus. cbn. lra. }
  pose proof (pow_near (length l) ltac:(lra)) as Pw. pose proof (pow_mono (length l)) as Pm.
  set (g := (1 + ulp1) ^ length l) in *. set (n := INR (length l)) in *. set (t := exact_sum l) in *. set (s := val (np_sum l)) in *.
  apply Rabs_le_inv in D.
  assert (S0 : 3/4 * t <= s). { assert ((g - 1) * t <= 1/4 * t) by (apply Rmult_le_compat_r; lra). lra. }
  assert (Sp : 0 < s) by lra. split; [exact Sp|].
  assert (EL : forall x, In x l -> in_unit (fdiv x (np_sum l)) /\ Rabs (val (fdiv x (np_sum l)) - val x / s) <= bpow radix2 (-54)).
  { intros x I. pose proof U as U'. rewrite Forall_forall in U'. destruct (U' x I) as (Fx & Bx).
    apply fdiv_le; [exact Fx|exact F| |exact Sp]. split; [lra|]. apply (summed_ge_gen e Elo Ehi _ _ (A l) U N'), I. }
  split.
  { apply Forall_forall. intros x I. apply in_map_iff in I. destruct I as (z & <- & I). apply EL, I. }
  assert (T : Rabs (exact_sum (map (fun x => fdiv x (np_sum l)) l) - t / s) <= n * bpow radix2 (-54)).
  { unfold t, n. clear - EL. set (sm := np_sum l) in *. clearbody sm s. induction l as [|x l IH].
    - unfold exact_sum. cbn. unfold Rdiv. rewrite !Rmult_0_l, Rminus_0_r, Rabs_R0. lra.
    - specialize (IH (fun z I => EL z (or_intror I))). destruct (EL x (or_introl eq_refl)) as (_ & Ex).
      unfold exact_sum in *. cbn [map fold_right]. rewrite S_INR || change (length (x :: l)) with (S (length l)); rewrite ?S_INR.
      rewrite Rdiv_plus_distr. apply Rabs_le_inv in IH, Ex. apply Rabs_le. lra. }
  assert (Q : Rabs (t / s - 1) <= 4 * (n * ulp1)).
  { replace (t / s - 1) with ((t - s) * / s) by (field; lra). rewrite Rabs_mult, (Rabs_pos_eq (/ s)) by (left; apply Rinv_0_lt_compat, Sp).
    apply Rmult_le_reg_r with s; [exact Sp|]. rewrite Rmult_assoc, Rinv_l, Rmult_1_r by lra.
    apply Rle_trans with ((g - 1) * t); [apply Rabs_le; lra|]. apply Rle_trans with (2 * (n * ulp1) * t); [apply Rmult_le_compat_r; lra|].
    assert (0 <= n * ulp1) by (apply Rmult_le_pos; lra). nra. }
  replace (exact_sum (map (fun x => fdiv x (np_sum l)) l) - 1)
    with ((exact_sum (map (fun x => fdiv x (np_sum l)) l) - t / s) + (t / s - 1)) by ring.
  apply Rle_trans with (1 := Rabs_triang _ _).
  assert (B1 : bpow radix2 (-50) = 8 * ulp1). { unfold ulp1. change (-50)%Z with (3 + -53)%Z. rewrite bpow_plus. reflexivity. }
  assert (B2 : ulp1 = 2 * bpow radix2 (-54)). { unfold ulp1. change (-53)%Z with (1 + -54)%Z. rewrite bpow_plus. reflexivity. }
  rewrite B1. assert (0 <= n * ulp1) by (apply Rmult_le_pos; lra). nra.
Qed.
