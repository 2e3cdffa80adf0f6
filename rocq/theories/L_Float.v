(** * Basic facts about double precision. *)

From Coq Require Import Reals ZArith List Permutation Lia Lra Bool Psatz.
From Flocq Require Import Core BinarySingleNaN Relative Plus_error.
From Verif Require Import Num M_Baselines M_Float Spec_Float.
Import ListNotations.
Open Scope R_scope.

Notation format := (generic_format radix2 (FLT_exp (-1074) 53)).

Global Instance p53 : Prec_gt_0 53 := eq_refl.

Lemma format_val x : format (val x).
Proof. exact (generic_format_B2R 53 1024 x). Qed.

Lemma format_scaled m e : (Z.abs m <= 2 ^ 53)%Z -> (-1074 <= e)%Z -> format (IZR m * bpow radix2 e).
Proof.
  intros Hm He. destruct (Z_lt_le_dec (Z.abs m) (2 ^ 53)) as [H|H].
  - apply generic_format_FLT. exists (Float radix2 m e); [reflexivity| |]; cbn; assumption.
  - assert (E : (m = 2 ^ 53 \/ m = - 2 ^ 53)%Z) by lia.
    assert (F : format (IZR (2 ^ 53) * bpow radix2 e)).
    { change (IZR (2 ^ 53)) with (bpow radix2 53). rewrite <- bpow_plus. apply generic_format_bpow. unfold FLT_exp. lia. }
    destruct E as [->| ->]; [exact F|]. rewrite opp_IZR. rewrite Ropp_mult_distr_l_reverse. apply generic_format_opp, F.
Qed.

Lemma format_Z m : (Z.abs m <= 2 ^ 53)%Z -> format (IZR m).
Proof. intros H. replace (IZR m) with (IZR m * bpow radix2 0) by (cbn; ring). apply format_scaled; [exact H|lia]. Qed.

Lemma format_0 : format 0. Proof. apply generic_format_0. Qed.
Lemma format_1 : format 1. Proof. apply (format_Z 1). lia. Qed.
Lemma format_bpow e : (-1074 <= e)%Z -> format (bpow radix2 e).
Proof. intros H. apply generic_format_bpow. unfold FLT_exp. lia. Qed.

Lemma nearest_format x : format (nearest x).
Proof. apply generic_format_round; typeclasses eauto. Qed.

Lemma nearest_le x y : x <= y -> nearest x <= nearest y.
Proof. apply round_le; typeclasses eauto. Qed.

Lemma nearest_id x : format x -> nearest x = x.
Proof. apply round_generic. typeclasses eauto. Qed.

Lemma nearest_ge_format x y : format x -> x <= y -> x <= nearest y.
Proof. intros; apply round_ge_generic; try typeclasses eauto; assumption. Qed.

Lemma nearest_le_format x y : format y -> x <= y -> nearest x <= y.
Proof. intros; apply round_le_generic; try typeclasses eauto; assumption. Qed.

Lemma nearest_opp x : nearest (- x) = - nearest x.
Proof. apply round_NE_opp. Qed.

Lemma nearest_0 : nearest 0 = 0. Proof. apply nearest_id, format_0. Qed.
Lemma nearest_1 : nearest 1 = 1. Proof. apply nearest_id, format_1. Qed.

(** ** The operations *)

Lemma no_overflow r : Rabs r <= bpow radix2 1000 ->
  Rlt_bool (Rabs (round radix2 (SpecFloat.fexp 53 1024) (round_mode mode_NE) r)) (bpow radix2 1024) = true.
Proof.
  intros H. apply Rlt_bool_true. apply Rle_lt_trans with (bpow radix2 1000).
  - apply abs_round_le_generic; [typeclasses eauto..| |exact H]. apply generic_format_bpow. unfold SpecFloat.fexp, SpecFloat.emin. lia.
  - apply bpow_lt. lia.
Qed.

Lemma fadd_ok x y : finite x -> finite y -> Rabs (val x + val y) <= bpow radix2 1000 ->
  finite (fadd x y) /\ val (fadd x y) = nearest (val x + val y).
Proof.
  intros Hx Hy H. pose proof (Bplus_correct 53 1024 prec_pos prec_small mode_NE x y Hx Hy) as C.
  rewrite no_overflow in C by exact H. destruct C as (C1 & C2 & _). split; [exact C2|exact C1].
Qed.

Lemma fsub_ok x y : finite x -> finite y -> Rabs (val x - val y) <= bpow radix2 1000 ->
  finite (fsub x y) /\ val (fsub x y) = nearest (val x - val y).
Proof.
  intros Hx Hy H. pose proof (Bminus_correct 53 1024 prec_pos prec_small mode_NE x y Hx Hy) as C.
  rewrite no_overflow in C by exact H. destruct C as (C1 & C2 & _). split; [exact C2|exact C1].
Qed.

Lemma fmul_ok x y : finite x -> finite y -> Rabs (val x * val y) <= bpow radix2 1000 ->
  finite (fmul x y) /\ val (fmul x y) = nearest (val x * val y).
Proof.
  intros Hx Hy H. pose proof (Bmult_correct 53 1024 prec_pos prec_small mode_NE x y) as C.
  rewrite no_overflow in C by exact H. destruct C as (C1 & C2 & _). split; [|exact C1].
  unfold finite, fmul. rewrite C2, Hx, Hy. reflexivity.
Qed.

Lemma fdiv_ok x y : finite x -> val y <> 0 -> Rabs (val x / val y) <= bpow radix2 1000 ->
  finite (fdiv x y) /\ val (fdiv x y) = nearest (val x / val y).
Proof.
  intros Hx Hy H. pose proof (Bdiv_correct 53 1024 prec_pos prec_small mode_NE x y Hy) as C.
  rewrite no_overflow in C by exact H. destruct C as (C1 & C2 & _). split; [|exact C1].
  unfold finite, fdiv. rewrite C2. exact Hx.
Qed.

Lemma fabs_ok x : finite x -> finite (fabs x) /\ val (fabs x) = Rabs (val x).
Proof. intros H. unfold finite, fabs, val. rewrite is_finite_Babs, B2R_Babs. split; [exact H|reflexivity]. Qed.

Lemma flt_ok x y : finite x -> finite y -> flt x y = true <-> val x < val y.
Proof.
  intros Hx Hy. unfold flt. rewrite Bltb_correct by assumption. unfold val.
  destruct (Rlt_bool_spec (B2R x) (B2R y)); split; intros; try assumption; try reflexivity; try discriminate; lra.
Qed.

Lemma flt_false x y : finite x -> finite y -> flt x y = false <-> val y <= val x.
Proof.
  intros Hx Hy. unfold flt. rewrite Bltb_correct by assumption. unfold val.
  destruct (Rlt_bool_spec (B2R x) (B2R y)); split; intros; try assumption; try reflexivity; try discriminate; lra.
Qed.

Lemma fle_ok x y : finite x -> finite y -> fle x y = true <-> val x <= val y.
Proof.
  intros Hx Hy. unfold fle. rewrite Bleb_correct by assumption. unfold val.
  destruct (Rle_bool_spec (B2R x) (B2R y)); split; intros; try assumption; try reflexivity; try discriminate; lra.
Qed.

Lemma of_Z_ok z : (Z.abs z <= 2 ^ 53)%Z -> finite (of_Z z) /\ val (of_Z z) = IZR z.
Proof.
  intros H. pose proof (binary_normalize_correct 53 1024 prec_pos prec_small mode_NE z 0 false) as C. cbv zeta in C.
  assert (E : F2R (Float radix2 z 0) = IZR z) by (unfold F2R; cbn; ring). rewrite E in C.
  rewrite no_overflow in C.
  - destruct C as (C1 & C2 & _). split; [exact C2|]. unfold val, of_Z. rewrite C1. apply (nearest_id (IZR z)), format_Z, H.
  - rewrite <- abs_IZR. apply Rle_trans with (bpow radix2 53); [|apply bpow_le; lia].
    change (bpow radix2 53) with (IZR (2 ^ 53)). apply IZR_le, H.
Qed.

Definition small (n : nat) : Prop := (Z.of_nat n <= 2 ^ 53)%Z.

Lemma of_nat_ok n : small n -> finite (of_nat n) /\ val (of_nat n) = INR n.
Proof. intros H. unfold small in H. unfold of_nat. rewrite INR_IZR_INZ. apply of_Z_ok. lia. Qed.

Lemma f0_ok : finite f0 /\ val f0 = 0. Proof. apply (of_Z_ok 0). lia. Qed.
Lemma f1_ok : finite f1 /\ val f1 = 1. Proof. apply (of_Z_ok 1). lia. Qed.
Lemma f2_ok : finite f2 /\ val f2 = 2. Proof. apply (of_Z_ok 2). lia. Qed.

Lemma big_1000 : IZR (2 ^ 60) <= bpow radix2 1000.
Proof. change (IZR (2 ^ 60)) with (bpow radix2 60). apply bpow_le. lia. Qed.

Lemma big x : Rabs x <= IZR (2 ^ 60) -> Rabs x <= bpow radix2 1000.
Proof. intros H. apply Rle_trans with (1 := H), big_1000. Qed.

Lemma big4 x : Rabs x <= 4 -> Rabs x <= bpow radix2 1000.
Proof. intros H. apply big. apply Rle_trans with (1 := H). apply IZR_le. lia. Qed.

(** ** Sums near one round to one *)

Lemma nearest_below_one : nearest (1 - bpow radix2 (-54)) = 1.
Proof.
  set (t := @B754_finite 53 1024 false (2 ^ 52) (-106) eq_refl : float).
  assert (T : val t = bpow radix2 (-54)).
  { unfold val, t, B2R. cbn [cond_Zopp]. unfold F2R. cbn [Fnum Fexp].
    change (IZR (Z.pos (2 ^ 52))) with (bpow radix2 52). rewrite <- bpow_plus. reflexivity. }
  destruct f1_ok as (A1 & A2). rewrite <- T, <- A2.
  destruct (fsub_ok f1 t) as (_ & E); [exact A1|reflexivity| |].
  - rewrite A2, T. apply big4. assert (0 < bpow radix2 (-54) <= 1).
    { split; [apply bpow_gt_0|]. change 1 with (bpow radix2 0). apply bpow_le. lia. }
    rewrite Rabs_pos_eq; lra.
  - rewrite <- E. apply f_equal with (f := val). apply B2SF_inj. vm_compute. reflexivity.
Qed.

Lemma nearest_above_one : nearest (1 + bpow radix2 (-54)) = 1.
Proof.
  set (t := @B754_finite 53 1024 false (2 ^ 52) (-106) eq_refl : float).
  assert (T : val t = bpow radix2 (-54)).
  { unfold val, t, B2R. cbn [cond_Zopp]. unfold F2R. cbn [Fnum Fexp].
    change (IZR (Z.pos (2 ^ 52))) with (bpow radix2 52). rewrite <- bpow_plus. reflexivity. }
  destruct f1_ok as (A1 & A2). rewrite <- T, <- A2.
  destruct (fadd_ok f1 t) as (_ & E); [exact A1|reflexivity| |].
  - rewrite A2, T. apply big4. assert (0 < bpow radix2 (-54) <= 1).
    { split; [apply bpow_gt_0|]. change 1 with (bpow radix2 0). apply bpow_le. lia. }
    rewrite Rabs_pos_eq; lra.
  - rewrite <- E. apply f_equal with (f := val). apply B2SF_inj. vm_compute. reflexivity.
Qed.

Lemma nearest_about_one x : Rabs (x - 1) <= bpow radix2 (-54) -> nearest x = 1.
Proof.
  intros H. apply Rabs_le_inv in H. apply Rle_antisym.
  - rewrite <- nearest_above_one. apply nearest_le. lra.
  - rewrite <- nearest_below_one. apply nearest_le. lra.
Qed.

(** ** Errors *)

Lemma nearest_error_unit x : Rabs x <= 1 -> Rabs (nearest x - x) <= bpow radix2 (-54).
Proof.
  intros H. destruct (Req_dec (Rabs x) 1) as [E|E].
  - replace (nearest x - x) with 0; [rewrite Rabs_R0; apply bpow_ge_0|].
    rewrite nearest_id; [ring|]. destruct (Rcase_abs x).
    + rewrite Rabs_left in E by assumption. replace x with (- 1) by lra. apply generic_format_opp, format_1.
    + rewrite Rabs_right in E by assumption. subst x. apply format_1.
  - destruct (Req_dec x 0) as [->|N].
    { rewrite nearest_0, Rminus_0_r, Rabs_R0. apply bpow_ge_0. }
    apply Rle_trans with (1 := error_le_half_ulp radix2 (FLT_exp (-1074) 53) (fun z => negb (Z.even z)) x).
    rewrite ulp_neq_0 by exact N. change (bpow radix2 (-54)) with (bpow radix2 (-1 + -53)). rewrite bpow_plus.
    apply Rmult_le_compat; [lra|apply bpow_ge_0|cbn; lra|]. apply bpow_le. unfold cexp, FLT_exp.
    assert (mag radix2 x <= 0)%Z. { apply mag_le_bpow; [exact N|]. cbn. lra. } lia.
Qed.

Lemma multiple_of_ulp x : format x -> 1/2 <= x <= 1 -> exists k, x = IZR k * bpow radix2 (-53) /\ (0 <= k <= 2 ^ 53)%Z.
Proof.
  intros F H. pose proof F as G. unfold generic_format in G. unfold F2R in G. cbn [Fnum Fexp] in G.
  set (m := Ztrunc (scaled_mantissa radix2 (FLT_exp (-1074) 53) x)) in G. set (c := cexp radix2 (FLT_exp (-1074) 53) x) in G.
  assert (C : (-53 <= c)%Z).
  { unfold c, cexp, FLT_exp. assert (0 <= mag radix2 x)%Z; [|lia].
    replace 0%Z with (mag radix2 (1/2) : Z).
    - apply mag_le; lra.
    - replace (1/2) with (bpow radix2 (-1)) by (cbn; lra). rewrite mag_bpow. reflexivity. }
  exists (m * 2 ^ (c + 53))%Z.
  assert (E : x = IZR (m * 2 ^ (c + 53)) * bpow radix2 (-53)).
  { rewrite G at 1. rewrite mult_IZR, Rmult_assoc. f_equal.
    change (2 ^ (c + 53))%Z with (radix2 ^ (c + 53))%Z. rewrite IZR_Zpower by lia. rewrite <- bpow_plus. f_equal. lia. }
  split; [exact E|].
  assert (B : IZR (2 ^ 53) * bpow radix2 (-53) = 1).
  { change (IZR (2 ^ 53)) with (bpow radix2 53). rewrite <- bpow_plus. reflexivity. }
  pose proof (bpow_gt_0 radix2 (-53)) as P.
  split; apply le_IZR; apply Rmult_le_reg_r with (1 := P); [rewrite <- E|rewrite <- E, B]; lra.
Qed.

(** Rounding a number and its complement: the machine's sum of the two is exactly 1. *)
Lemma complement_half x : 0 <= x <= 1/2 -> nearest (nearest x + nearest (1 - x)) = 1.
Proof.
  intros H.
  assert (Fh : format (1/2)). { replace (1/2) with (bpow radix2 (-1)) by (cbn; lra). apply format_bpow. lia. }
  assert (P : 1/2 <= nearest (1 - x) <= 1).
  { split; [apply nearest_ge_format; [exact Fh|lra]|apply nearest_le_format; [apply format_1|lra]]. }
  destruct (multiple_of_ulp _ (nearest_format (1 - x)) P) as (k & Ek & Hk).
  assert (D : Rabs (nearest (1 - x) - (1 - x)) <= bpow radix2 (-54)). { apply nearest_error_unit. rewrite Rabs_pos_eq; lra. }
  set (g := 1 - nearest (1 - x)). apply Rabs_le_inv in D.
  assert (B : bpow radix2 (-53) = 2 * bpow radix2 (-54)).
  { change (bpow radix2 (-53)) with (bpow radix2 (1 + -54)). rewrite bpow_plus. reflexivity. }
  assert (B1 : IZR (2 ^ 53) * bpow radix2 (-53) = 1).
  { change (IZR (2 ^ 53)) with (bpow radix2 53). rewrite <- bpow_plus. reflexivity. }
  assert (Eg : g = IZR (2 * (2 ^ 53 - k)) * bpow radix2 (-54)).
  { unfold g. rewrite Ek. rewrite mult_IZR, minus_IZR. rewrite <- B1. rewrite B. ring. }
  assert (Kb : (2 ^ 52 <= k)%Z).
  { apply le_IZR. apply Rmult_le_reg_r with (bpow radix2 (-53)); [apply bpow_gt_0|]. rewrite <- Ek.
    change (IZR (2 ^ 52)) with (bpow radix2 52). rewrite <- bpow_plus. cbn. lra. }
  apply nearest_about_one. replace (nearest x + nearest (1 - x) - 1) with (nearest x - g) by (unfold g; ring).
  apply Rabs_le. split.
  - apply Rle_trans with (g - bpow radix2 (-54) - g); [lra|]. apply Rplus_le_compat_r. apply nearest_ge_format; [|unfold g; lra].
    rewrite Eg. replace (IZR (2 * (2 ^ 53 - k)) * bpow radix2 (-54) - bpow radix2 (-54)) with (IZR (2 * (2 ^ 53 - k) - 1) * bpow radix2 (-54)).
    + apply format_scaled; lia.
    + rewrite minus_IZR. ring.
  - destruct (Z.eq_dec k (2 ^ 52)) as [->|N].
    + assert (g = 1/2). { unfold g. rewrite Ek. change (IZR (2 ^ 52)) with (bpow radix2 52). rewrite <- bpow_plus. cbn. lra. }
      pose proof (bpow_gt_0 radix2 (-54)). assert (nearest x <= 1/2) by (apply nearest_le_format; [exact Fh|lra]). lra.
    + apply Rle_trans with (g + bpow radix2 (-54) - g); [|lra]. apply Rplus_le_compat_r. apply nearest_le_format; [|unfold g; lra].
      rewrite Eg. replace (IZR (2 * (2 ^ 53 - k)) * bpow radix2 (-54) + bpow radix2 (-54)) with (IZR (2 * (2 ^ 53 - k) + 1) * bpow radix2 (-54)).
      * apply format_scaled; lia.
      * rewrite plus_IZR. ring.
Qed.

Lemma complement x : 0 <= x <= 1 -> nearest (nearest x + nearest (1 - x)) = 1.
Proof.
  intros H. destruct (Rle_dec x (1/2)) as [L|L]; [apply complement_half; lra|].
  rewrite Rplus_comm. replace x with (1 - (1 - x)) at 2 by ring. apply complement_half. lra.
Qed.
