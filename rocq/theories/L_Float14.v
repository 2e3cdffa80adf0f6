(** * Distances between prevalences in double precision: accuracy. *)

From Coq Require Import Reals ZArith List Permutation Lia Lra Bool Psatz.
From Flocq Require Import Core BinarySingleNaN Relative Plus_error.
From Verif Require Import Num Spec L_Num M_Baselines M_Metrics L_Metrics M_Float M_Float2 M_Float3 M_Float4 Spec_Float L_Float L_Float2 L_Float3 L_Float4 L_Float5 L_Float6 L_Float7 L_Float8 L_Float9 L_Float10 L_Float11 L_Float12 L_Float13.
Import ListNotations.
Open Scope R_scope.

Local Notation pow2 := (bpow radix2).

Lemma ulp1_bounds : 0 < ulp1 <= 1/1000000.
Proof.
  split; [apply bpow_gt_0|]. apply Rle_trans with (pow2 (-20)); [apply bpow_le; lia|]. change (pow2 (-20)) with (/ 1048576). lra.
Qed.

(** Subtraction has a relative error only. *)
Lemma sub_error x y : exists d, Rabs d <= ulp1 /\ nearest (val x - val y) = (val x - val y) * (1 + d).
Proof.
  pose proof ulp1_bounds as (U0 & _).
  destruct (FLT_plus_error_N_ex radix2 (-1074) 53 (fun z => negb (Z.even z)) (val x) (- val y) (format_val x)) as (d & Hd & Ed).
  { apply generic_format_opp, format_val. }
  exists d. split; [|exact Ed].
  apply Rle_trans with (1 := Hd). unfold u_ro. change (- (53) + 1)%Z with (-52)%Z.
  assert (B : / 2 * bpow radix2 (-52) = ulp1).
  { unfold ulp1. change (bpow radix2 (-53)) with (bpow radix2 (-1 + -52)). rewrite bpow_plus. reflexivity. }
  rewrite B. apply Rmult_le_reg_r with (1 + ulp1); [lra|]. unfold Rdiv. rewrite Rmult_assoc, Rinv_l by lra. nra.
Qed.

Definition term_close (g : float -> float -> float) (t : R -> R -> R) (c h : R) : Prop :=
  forall a b, in_unit a -> in_unit b -> in_unit (g a b) /\ 0 <= t (val a) (val b) /\
    Rabs (val (g a b) - t (val a) (val b)) <= c * t (val a) (val b) + h.

Lemma abs_term : term_close (fun a b => fabs (fsub a b)) (fun a b => Rabs (a - b)) ulp1 0.
Proof.
  intros a b Ua Ub. destruct (sub_unit a b Ua Ub) as (F & V). destruct Ua as (Fa & Ba), Ub as (Fb & Bb). destruct (fabs_ok _ F) as (F' & V').
  split; [split; [exact F'|]|split; [apply Rabs_pos|]].
  - rewrite V', V. split; [apply Rabs_pos|]. apply Rabs_le. split; [apply nearest_ge_format; [apply (format_Z (-1)); lia|lra]|apply nearest_le_format; [apply format_1|lra]].
  - rewrite V', V. destruct (sub_error a b) as (d & Hd & Ed). rewrite Ed, Rabs_mult.
    pose proof ulp1_bounds. apply Rabs_le_inv in Hd. rewrite (Rabs_pos_eq (1 + d)) by lra.
    replace (Rabs (val a - val b) * (1 + d) - Rabs (val a - val b)) with (Rabs (val a - val b) * d) by ring.
    rewrite Rabs_mult, Rabs_Rabsolu, Rplus_0_r, Rmult_comm. apply Rmult_le_compat_r; [apply Rabs_pos|apply Rabs_le; lra].
Qed.

Lemma square_close_unit d : finite d -> Rabs (val d) <= 1 ->
  in_unit (fsquare d) /\ Rabs (val (fsquare d) - val d ^ 2) <= ulp1 * val d ^ 2 + pow2 (-1075).
Proof.
  intros F B. apply Rabs_le_inv in B. assert (S : 0 <= val d * val d <= 1) by nra.
  destruct (fmul_ok d d F F) as (Fm & Vm); [apply big4; rewrite Rabs_pos_eq; lra|].
  unfold fsquare. rewrite Vm. split.
  - split; [exact Fm|]. rewrite Vm. split; [apply nearest_ge_format; [apply format_0|lra]|apply nearest_le_format; [apply format_1|lra]].
  - pose proof (nearest_mixed (val d * val d)) as M. rewrite (Rabs_pos_eq (val d * val d)) in M by lra. replace (val d ^ 2) with (val d * val d) by ring. exact M.
Qed.

Lemma square_term : term_close (fun a b => fsquare (fsub a b)) (fun a b => (a - b) ^ 2) (4 * ulp1) (pow2 (-1075)).
Proof.
  intros a b Ua Ub. destruct (sub_unit a b Ua Ub) as (F & V). destruct Ua as (Fa & Ba), Ub as (Fb & Bb).
  assert (B1 : Rabs (val (fsub a b)) <= 1).
  { rewrite V. apply Rabs_le. split; [apply nearest_ge_format; [apply (format_Z (-1)); lia|lra]|apply nearest_le_format; [apply format_1|lra]]. }
  destruct (square_close_unit _ F B1) as (U & C). split; [exact U|]. split; [apply pow2_ge_0|].
  destruct (sub_error a b) as (d & Hd & Ed). rewrite <- V in Ed. pose proof ulp1_bounds as (u0 & u1). apply Rabs_le_inv in Hd.
  set (x := val a - val b) in *. assert (X : 0 <= x ^ 2) by apply pow2_ge_0.
  assert (Q : Rabs (val (fsub a b) ^ 2 - x ^ 2) <= 2.1 * ulp1 * x ^ 2).
  { rewrite Ed. replace ((x * (1 + d)) ^ 2 - x ^ 2) with ((d * (2 + d)) * x ^ 2) by ring. rewrite Rabs_mult, (Rabs_pos_eq (x ^ 2)) by exact X.
    apply Rmult_le_compat_r; [exact X|]. rewrite Rabs_mult. rewrite Rmult_comm. apply Rmult_le_compat; try apply Rabs_pos; apply Rabs_le; lra. }
  assert (0 <= ulp1 * x ^ 2) by (apply Rmult_le_pos; lra). apply Rabs_le_inv in Q.
  assert (M : ulp1 * val (fsub a b) ^ 2 <= ulp1 * (1.1 * x ^ 2)).
  { apply Rmult_le_compat_l; [lra|]. assert (2.1 * ulp1 * x ^ 2 <= 0.1 * x ^ 2) by (apply Rmult_le_compat_r; lra). lra. }
  apply Rabs_le_inv in C. apply Rabs_le. lra.
Qed.

Lemma terms_close g t c h p q : term_close g t c h -> Forall in_unit p -> Forall in_unit q -> length p = length q ->
  Forall in_unit (fmap2 g p q) /\ 0 <= rsum (vmap2 t (map val p) (map val q)) /\
  Rabs (exact_sum (fmap2 g p q) - rsum (vmap2 t (map val p) (map val q))) <= c * rsum (vmap2 t (map val p) (map val q)) + INR (length p) * h.
Proof.
  intros T Up. revert q. induction Up as [|a p Ua Up IH]; intros q Uq L.
  - destruct q; [|discriminate L]. cbn. split; [constructor|]. rewrite Rminus_0_r, Rabs_R0. lra.
  - destruct q as [|b q]; [discriminate L|]. inversion Uq as [|b' q' Ub Uq']; subst. injection L as L. destruct (IH q Uq' L) as (U & N & C).
    destruct (T a b Ua Ub) as (Ug & Nt & Ct). cbn [map length fmap2]. rewrite S_INR.
    change (vmap2 t (val a :: map val p) (val b :: map val q)) with (t (val a) (val b) :: vmap2 t (map val p) (map val q)).
    change (rsum (t (val a) (val b) :: vmap2 t (map val p) (map val q))) with (t (val a) (val b) + rsum (vmap2 t (map val p) (map val q))).
    change (exact_sum (g a b :: fmap2 g p q)) with (val (g a b) + exact_sum (fmap2 g p q)).
    split; [constructor; assumption|]. split; [lra|]. apply Rabs_le_inv in C, Ct. apply Rabs_le. lra.
Qed.

Lemma term_sum np_sum g t c h p q : adds_in_some_order np_sum -> term_close g t c h -> Forall in_unit p -> Forall in_unit q -> length p = length q ->
  (Z.of_nat (length p) <= 2 ^ 50)%Z -> 0 <= c <= 4 * ulp1 -> 0 <= h ->
  finite (np_sum (fmap2 g p q)) /\ 0 <= val (np_sum (fmap2 g p q)) <= INR (length p) /\
  Rabs (val (np_sum (fmap2 g p q)) - rsum (vmap2 t (map val p) (map val q))) <=
    (INR (2 * length p + 1) * ulp1 + c) * rsum (vmap2 t (map val p) (map val q)) + 2 * INR (length p) * h.
Proof.
  intros A T Up Uq L N Hc Hh. destruct (terms_close g t c h p q T Up Uq L) as (U & S0 & C).
  assert (Lg : length (fmap2 g p q) = length p) by (apply fmap2_length, L).
  assert (N' : small (length (fmap2 g p q))) by (unfold small; lia).
  destruct (summed_range _ _ (A (fmap2 g p q)) U N') as (F & B). pose proof (summed_error _ _ (A (fmap2 g p q)) U N') as D.
  rewrite Lg in B, D. split; [exact F|]. split; [exact B|].
  pose proof ulp1_bounds as (u0 & u1). set (k := INR (length p)) in *. assert (k0 : 0 <= k) by apply pos_INR.
  assert (ku : k * ulp1 <= 1/8).
  { apply Rle_trans with (pow2 50 * ulp1).
    - apply Rmult_le_compat_r; [lra|]. unfold k. rewrite INR_IZR_INZ. change (pow2 50) with (IZR (2 ^ 50)). apply IZR_le, N.
    - unfold ulp1. rewrite <- bpow_plus. cbn. lra. }
  pose proof (pow_near (length p) ltac:(fold k; lra)) as Pw. fold k in Pw.
  set (X := exact_sum (fmap2 g p q)) in *. set (S := rsum (vmap2 t (map val p) (map val q))) in *. set (v := val (np_sum (fmap2 g p q))) in *.
  assert (X0 : 0 <= X) by (apply (exact_sum_range _ U)).
  assert (D' : Rabs (v - X) <= 2 * (k * ulp1) * X) by (apply Rle_trans with (1 := D); apply Rmult_le_compat_r; lra).
  rewrite plus_INR, mult_INR. fold k. change (INR 2) with 2. change (INR 1) with 1.
  assert (ku0 : 0 <= k * ulp1) by (apply Rmult_le_pos; lra). assert (kh : 0 <= k * h) by (apply Rmult_le_pos; lra).
  apply Rabs_le_inv in C. assert (M : 2 * (k * ulp1) * X <= 2 * (k * ulp1) * (S + c * S + k * h)) by (apply Rmult_le_compat_l; lra).
  assert (cS : 0 <= c * S <= 4 * ulp1 * S) by (split; [apply Rmult_le_pos; lra|apply Rmult_le_compat_r; lra]).
  assert (M2 : 2 * (k * ulp1) * (c * S) <= 1/4 * (4 * ulp1 * S)) by (apply Rmult_le_compat; lra).
  assert (M3 : 2 * (k * ulp1) * (k * h) <= 1/4 * (k * h)) by (apply Rmult_le_compat_r; lra).
  apply Rabs_le_inv in D'. apply Rabs_le. lra.
Qed.

Lemma fmap2_ext f g l m : (forall a b, f a b = g a b) -> fmap2 f l m = fmap2 g l m.
Proof. intros H. revert m. induction l as [|x l IH]; intros [|y m]; try reflexivity. cbn. rewrite H, IH. reflexivity. Qed.

Lemma vmap2_ext f g l m : (forall a b, f a b = g a b) -> vmap2 f l m = vmap2 g l m.
Proof. intros H. revert m. induction l as [|x l IH]; intros [|y m]; try reflexivity. cbn. rewrite H, IH. reflexivity. Qed.

Lemma map_val_nonempty p : p <> [] -> map val p <> [].
Proof. destruct p; [congruence|discriminate]. Qed.

Lemma ulp52 : pow2 (-52) = 2 * ulp1.
Proof. unfold ulp1. change (-52)%Z with (1 + -53)%Z. rewrite bpow_plus. reflexivity. Qed.

Lemma l1_accuracy np_sum p q : adds_in_some_order np_sum -> p <> [] -> length p = length q -> (Z.of_nat (length p) <= 2 ^ 50)%Z ->
  Forall in_unit p -> Forall in_unit q ->
  finite (l1_float np_sum p q) /\ 0 <= val (l1_float np_sum p q) <= INR (length p) /\
  exists d, l1 (vec (map val p)) (vec (map val q)) = Val d /\ 0 <= d /\
    Rabs (val (l1_float np_sum p q) - d) <= INR (length p + 1) * pow2 (-52) * d.
Proof.
  intros A E L N Up Uq. pose proof ulp1_bounds as (u0 & u1).
  destruct (term_sum np_sum _ _ ulp1 0 p q A abs_term Up Uq L N ltac:(lra) ltac:(lra)) as (F & B & C).
  split; [exact F|]. split; [exact B|]. exists (rsum (vmap2 (fun a b => Rabs (a - b)) (map val p) (map val q))). split; [|split].
  - unfold l1. rewrite checked_vec; [reflexivity|rewrite !map_length; exact L|apply map_val_nonempty, E].
  - apply (terms_close _ _ _ _ p q abs_term Up Uq L).
  - apply Rle_trans with (1 := C). rewrite ulp52, !plus_INR, mult_INR. change (INR 2) with 2. change (INR 1) with 1. lra.
Qed.

Lemma mean_term np_sum g t c h p q : adds_in_some_order np_sum -> p <> [] -> term_close g t c h -> Forall in_unit p -> Forall in_unit q -> length p = length q ->
  (Z.of_nat (length p) <= 2 ^ 50)%Z -> 0 <= c <= 4 * ulp1 -> 0 <= h ->
  in_unit (fmean np_sum (fmap2 g p q)) /\ 0 <= rmean (vmap2 t (map val p) (map val q)) /\
  Rabs (val (fmean np_sum (fmap2 g p q)) - rmean (vmap2 t (map val p) (map val q))) <=
    (INR (2 * length p + 3) * ulp1 + c) * rmean (vmap2 t (map val p) (map val q)) + 3 * h + pow2 (-1075).
Proof.
  intros A E T Up Uq L N Hc Hh. destruct (term_sum np_sum g t c h p q A T Up Uq L N Hc Hh) as (F & B & C).
  destruct (terms_close g t c h p q T Up Uq L) as (U & S0 & _).
  assert (Lg : length (fmap2 g p q) = length p) by (apply fmap2_length, L).
  assert (Eg : fmap2 g p q <> []) by (intros Z; rewrite Z in Lg; destruct p; [congruence|discriminate]).
  destruct (fmean_unit np_sum _ A Eg U) as (G & V); [unfold small; lia|]. split; [exact G|].
  rewrite V, Lg. unfold rmean. rewrite vmap2_len by (rewrite !map_length; exact L). rewrite map_length.
  set (k := INR (length p)) in *. assert (k1 : 1 <= k) by (change 1 with (INR 1); apply le_INR; destruct p; [congruence|cbn; lia]).
  set (S := rsum (vmap2 t (map val p) (map val q))) in *. set (v := val (np_sum (fmap2 g p q))) in *.
  split; [apply Rdiv_le_0_compat; lra|]. pose proof ulp1_bounds as (u0 & u1).
  pose proof (nearest_mixed (v / k)) as M. assert (vk : 0 <= v / k) by (apply Rdiv_le_0_compat; lra). rewrite (Rabs_pos_eq (v / k)) in M by exact vk.
  rewrite !plus_INR, mult_INR in *. fold k in C |- *. change (INR 2) with 2 in *. change (INR 1) with 1 in C. replace (INR 3) with 3 by (cbn; lra).
  assert (ku : k * ulp1 <= 1/8).
  { apply Rle_trans with (pow2 50 * ulp1).
    - apply Rmult_le_compat_r; [lra|]. unfold k. rewrite INR_IZR_INZ. change (pow2 50) with (IZR (2 ^ 50)). apply IZR_le, N.
    - unfold ulp1. rewrite <- bpow_plus. cbn. lra. }
  assert (D : Rabs (v / k - S / k) <= ((2 * k + 1) * ulp1 + c) * (S / k) + 2 * h).
  { replace (v / k - S / k) with ((v - S) * / k) by (field; lra). rewrite Rabs_mult, (Rabs_pos_eq (/ k)) by (left; apply Rinv_0_lt_compat; lra).
    apply Rmult_le_reg_r with k; [lra|]. rewrite Rmult_assoc, Rinv_l, Rmult_1_r by lra.
    replace ((((2 * k + 1) * ulp1 + c) * (S / k) + 2 * h) * k) with (((2 * k + 1) * ulp1 + c) * S + 2 * k * h) by (field; lra). exact C. }
  set (m := S / k) in *. assert (m0 : 0 <= m) by (apply Rdiv_le_0_compat; lra). set (w := v / k) in *.
  apply Rabs_le_inv in D.
  assert (X : ulp1 * w <= ulp1 * (m + (((2 * k + 1) * ulp1 + c) * m + 2 * h))) by (apply Rmult_le_compat_l; lra).
  assert (Y : ((2 * k + 1) * ulp1 + c) * m <= 1 * m) by (apply Rmult_le_compat_r; lra).
  assert (Z : ulp1 * (((2 * k + 1) * ulp1 + c) * m) <= ulp1 * (1 * m)) by (apply Rmult_le_compat_l; lra).
  assert (H : ulp1 * (2 * h) <= 1 * h) by (rewrite <- Rmult_assoc; apply Rmult_le_compat_r; lra).
  apply Rabs_le_inv in M. apply Rabs_le. lra.
Qed.

Lemma mae_accuracy np_sum p q : adds_in_some_order np_sum -> p <> [] -> length p = length q -> (Z.of_nat (length p) <= 2 ^ 50)%Z ->
  Forall in_unit p -> Forall in_unit q ->
  in_unit (mae_float np_sum p q) /\
  exists d, mean_absolute_error (vec (map val p)) (vec (map val q)) = Val d /\ 0 <= d /\
    Rabs (val (mae_float np_sum p q) - d) <= INR (length p + 2) * pow2 (-52) * d + pow2 (-1075).
Proof.
  intros A E L N Up Uq. pose proof ulp1_bounds as (u0 & u1).
  destruct (mean_term np_sum _ _ ulp1 0 p q A E abs_term Up Uq L N ltac:(lra) ltac:(lra)) as (U & B & C).
  unfold mae_float. rewrite (fmap2_ext (fun a b => fabs (fsub b a)) (fun a b => fabs (fsub a b)) p q) by (intros; apply fabs_sub_comm).
  split; [exact U|]. exists (rmean (vmap2 (fun a b => Rabs (a - b)) (map val p) (map val q))). split; [|split; [exact B|]].
  - unfold mean_absolute_error. rewrite checked_vec; [|rewrite !map_length; exact L|apply map_val_nonempty, E].
    rewrite (vmap2_ext (fun a b => Rabs (b - a)) (fun a b => Rabs (a - b))) by (intros; apply Rabs_minus_sym). reflexivity.
  - apply Rle_trans with (1 := C). rewrite ulp52, !plus_INR, mult_INR. change (INR 2) with 2. replace (INR 3) with 3 by (cbn; lra). lra.
Qed.

Lemma mse_accuracy np_sum p q : adds_in_some_order np_sum -> p <> [] -> length p = length q -> (Z.of_nat (length p) <= 2 ^ 50)%Z ->
  Forall in_unit p -> Forall in_unit q ->
  in_unit (mse_float np_sum p q) /\
  exists d, mean_squared_error (vec (map val p)) (vec (map val q)) = Val d /\ 0 <= d /\
    Rabs (val (mse_float np_sum p q) - d) <= INR (length p + 4) * pow2 (-52) * d + pow2 (-1073).
Proof.
  intros A E L N Up Uq. pose proof ulp1_bounds as (u0 & u1). assert (H0 : 0 < pow2 (-1075)) by apply bpow_gt_0.
  destruct (mean_term np_sum _ _ (4 * ulp1) (pow2 (-1075)) p q A E square_term Up Uq L N ltac:(lra) ltac:(lra)) as (U & B & C).
  unfold mse_float. rewrite (fmap2_ext (fun a b => fsquare (fsub b a)) (fun a b => fsquare (fsub a b)) p q) by (intros; apply fsquare_sub_comm).
  split; [exact U|]. exists (rmean (vmap2 (fun a b => (a - b) ^ 2) (map val p) (map val q))). split; [|split; [exact B|]].
  - unfold mean_squared_error. rewrite checked_vec; [|rewrite !map_length; exact L|apply map_val_nonempty, E].
    rewrite (vmap2_ext (fun a b => (b - a) ^ 2) (fun a b => (a - b) ^ 2)) by (intros; ring). reflexivity.
  - apply Rle_trans with (1 := C). rewrite ulp52, !plus_INR, mult_INR. change (INR 2) with 2. replace (INR 3) with 3 by (cbn; lra). replace (INR 4) with 4 by (cbn; lra).
    assert (pow2 (-1073) = 4 * pow2 (-1075)) by (change (-1073)%Z with (2 + -1075)%Z; rewrite bpow_plus; reflexivity).
    set (m := rmean _) in *. assert (0 <= ulp1 * m) by (apply Rmult_le_pos; lra). lra.
Qed.
