(** * DeBias in double precision: accuracy. *)

From Coq Require Import Reals ZArith List Permutation Lia Lra Bool Psatz.
From Flocq Require Import Core BinarySingleNaN Relative Plus_error.
From Verif Require Import Num Spec L_Num M_Baselines L_Baselines M_Float M_Float2 M_Float3 Spec_Float L_Float L_Float2 L_Float3 L_Float4 L_Float5 L_Float6 L_Float7 L_Float8 L_Float9 L_Float10.
Import ListNotations.
Open Scope R_scope.

Local Notation pow2 := (bpow radix2).

Lemma nearest_mixed x : Rabs (nearest x - x) <= ulp1 * Rabs x + pow2 (-1075).
Proof.
  pose proof (bpow_gt_0 radix2 (-1075)) as P. assert (U0 : 0 < ulp1) by apply bpow_gt_0. pose proof (Rabs_pos x) as Px.
  assert (Q : 0 <= ulp1 * Rabs x) by (apply Rmult_le_pos; lra).
  destruct (Rle_dec (pow2 (-1022)) (Rabs x)) as [L|L].
  - pose proof (relative_error_N_FLT radix2 (-1074) 53 ltac:(reflexivity) (fun z => negb (Z.even z)) x L) as E.
    change (round radix2 (FLT_exp (-1074) 53) (Znearest (fun z => negb (Z.even z))) x) with (nearest x) in E.
    replace (/ 2 * bpow radix2 (- (53) + 1)) with ulp1 in E; [lra|].
    unfold ulp1. change (- (53) + 1)%Z with (-52)%Z. change (-53)%Z with (-1 + -52)%Z. rewrite bpow_plus. reflexivity.
  - pose proof (error_le_half_ulp radix2 (FLT_exp (-1074) 53) (fun z => negb (Z.even z)) x) as E.
    change (round radix2 (FLT_exp (-1074) 53) (Znearest (fun z => negb (Z.even z))) x) with (nearest x) in E.
    rewrite ulp_FLT_small in E; [|reflexivity|change (-1074 + 53)%Z with (-1021)%Z; apply Rlt_le_trans with (pow2 (-1022)); [lra|apply bpow_le; lia]].
    replace (/ 2 * bpow radix2 (-1074)) with (pow2 (-1075)) in E; [lra|].
    change (-1075)%Z with (-1 + -1074)%Z. rewrite bpow_plus. reflexivity.
Qed.

Lemma nearest_rel x : pow2 (-1000) <= Rabs x -> Rabs (nearest x - x) <= 2 * ulp1 * Rabs x.
Proof.
  intros H. pose proof (nearest_mixed x) as M. assert (K : pow2 (-1075) <= ulp1 * Rabs x).
  { apply Rle_trans with (ulp1 * pow2 (-1000)).
    - unfold ulp1. rewrite <- bpow_plus. apply bpow_le. lia.
    - apply Rmult_le_compat_l; [apply bpow_ge_0|exact H]. }
  lra.
Qed.

(** The quotient when it is added to a prevalence and clipped. *)
Lemma shifted_close e a a0 n d n0 d0 : 0 < e -> 0 <= a <= 1 -> 0 <= a0 <= 1 -> Rabs (a - a0) <= e ->
  Rabs (n - n0) <= 3 * e -> Rabs (d - d0) <= e -> 16 * e <= d0 ->
  (Rabs (n / d) <= 3 /\ Rabs ((a + n / d) - (a0 + n0 / d0)) <= 6 * e / d0 + e) \/
  (3/2 < n / d /\ 2 < n0 / d0) \/ (n / d < - (3/2) /\ n0 / d0 < -2).
Proof.
  intros E Ba Ba0 Ha Hn Hd H0. apply Rabs_le_inv in Hd. assert (D : 0 < d) by lra.
  set (q := n0 / d0). assert (Q : n0 = q * d0) by (unfold q; field; lra).
  assert (Id : / d <= 16/15 * / d0).
  { replace (16/15 * / d0) with (/ (15/16 * d0)) by (field; lra). apply Rinv_le_contravar; lra. }
  assert (Id0 : 0 < / d0) by (apply Rinv_0_lt_compat; lra). assert (Id1 : 0 < / d) by (apply Rinv_0_lt_compat; lra).
  assert (K : e * / d0 <= 1/16). { apply Rmult_le_reg_r with d0; [lra|]. rewrite Rmult_assoc, Rinv_l by lra. lra. }
  destruct (Rle_dec (Rabs q) 2) as [B|B].
  - left. assert (C : Rabs (n / d - q) <= 16/3 * (e * / d0)).
    { replace (n / d - q) with (((n - n0) + q * (d0 - d)) * / d) by (rewrite Q; field; lra).
      rewrite Rabs_mult, (Rabs_pos_eq (/ d)) by lra.
      assert (N : Rabs (n - n0 + q * (d0 - d)) <= 5 * e).
      { apply Rle_trans with (1 := Rabs_triang _ _). rewrite Rabs_mult.
        assert (Rabs q * Rabs (d0 - d) <= 2 * e) by (apply Rmult_le_compat; try apply Rabs_pos; [exact B|apply Rabs_le; lra]). lra. }
      apply Rle_trans with (5 * e * (16/15 * / d0)); [apply Rmult_le_compat; try lra; apply Rabs_pos|]. lra. }
    split.
    + replace (n / d) with (q + (n / d - q)) by ring. apply Rle_trans with (1 := Rabs_triang _ _). lra.
    + replace (a + n / d - (a0 + q)) with ((a - a0) + (n / d - q)) by ring. apply Rle_trans with (1 := Rabs_triang _ _).
      unfold Rdiv at 2. assert (0 <= e * / d0) by (apply Rmult_le_pos; lra). lra.
  - right. apply Rabs_le_inv in Hn. destruct (Rle_dec 0 q) as [P|P].
    + left. rewrite Rabs_pos_eq in B by exact P. split; [|lra]. assert (2 * d0 < n0) by (rewrite Q; apply Rmult_lt_compat_r; lra).
      apply Rmult_lt_reg_r with d; [exact D|]. unfold Rdiv at 2. rewrite Rmult_assoc, Rinv_l, Rmult_1_r by lra. lra.
    + right. rewrite Rabs_left in B by lra. split; [|lra]. assert (n0 < -2 * d0) by (rewrite Q; apply Rmult_lt_compat_r; lra).
      apply Rmult_lt_reg_r with d; [exact D|]. unfold Rdiv at 1. rewrite Rmult_assoc, Rinv_l, Rmult_1_r by lra. lra.
Qed.

Lemma DeBias_predict_value s preds : preds <> [] -> 0 < db_Vt s ->
  DeBias_predict s preds = Val [1 - clip01 (db_prev1 s + (rmean (col 1 preds) - db_prev1 s) / db_Vt s);
                                clip01 (db_prev1 s + (rmean (col 1 preds) - db_prev1 s) / db_Vt s)].
Proof.
  intros E P. unfold DeBias_predict. destruct preds as [|r t]; [congruence|].
  destruct (Req_EM_T (db_Vt s) 0) as [Z|_]; [lra|]. cbv zeta. set (p := db_prev1 s + _). cbn [map].
  pose proof (clip01_compl p) as C.
  assert (RS : rsum [clip01 (1 - p); clip01 p] = 1) by (cbn; lra). rewrite RS. destruct (Rlt_dec 0 1) as [_|N]; [|lra].
  unfold vdiv. cbn [map]. f_equal. f_equal; [lra|]. f_equal. lra.
Qed.

Lemma DeBias_float_close np_sum e p1 Vt s preds : adds_in_some_order np_sum -> in_unit p1 -> finite Vt ->
  preds <> [] -> Forall (Forall in_unit) preds -> (Z.of_nat (length preds) <= 2 ^ 40)%Z ->
  pow2 (-52) * INR (length preds + 1) <= e -> 0 <= db_prev1 s <= 1 ->
  Rabs (val p1 - db_prev1 s) <= e -> Rabs (val Vt - db_Vt s) <= e -> 16 * e <= db_Vt s ->
  exists p, DeBias_predict s (map (map val) preds) = Val p /\
    within ((6 / db_Vt s + 14) * e) (DeBias_float np_sum (p1, Vt) preds) p.
Proof.
  intros A U F E H N He1 Bs Hp HV HVe. pose proof (bpow_gt_0 radix2 (-54)) as P54.
  assert (N1 : 1 <= INR (length preds + 1)) by (change 1 with (INR 1); apply le_INR; lia).
  assert (B52 : pow2 (-52) = 4 * pow2 (-54)) by (change (-52)%Z with (2 + -54)%Z; rewrite bpow_plus; reflexivity).
  assert (E0 : 4 * pow2 (-54) <= e) by (rewrite <- B52; apply Rle_trans with (2 := He1); rewrite <- (Rmult_1_r (pow2 (-52))) at 1; apply Rmult_le_compat_l; [apply bpow_ge_0|exact N1]).
  assert (Ev : map (map val) preds <> []) by (destruct preds; [congruence|discriminate]).
  rewrite DeBias_predict_value by (try exact Ev; lra). eexists. split; [reflexivity|].
  destruct (mean_close np_sum 1 preds (length preds) A E H (Nat.le_refl _) N) as (Um & Hm).
  set (mf := fmean np_sum (fcol 1 preds)) in *. set (m := rmean (col 1 (map (map val) preds))) in *.
  rewrite Rmult_comm in Hm.
  destruct (sub_close e mf p1 m (db_prev1 s) ltac:(lra) Um U ltac:(lra) Hp) as (Fn & Vn & Cn).
  destruct U as (Fp & Bp). destruct Um as (Fm & Bm).
  set (num := fsub mf p1) in *. set (V := db_Vt s) in *. set (P1 := db_prev1 s) in *.
  apply Rabs_le_inv in HV. assert (Vp : 15 * e <= val Vt) by lra.
  assert (Bn : Rabs (val num) <= 1).
  { rewrite Vn. apply Rabs_le. split; [apply nearest_ge_format; [apply (format_Z (-1)); lia|lra]|apply nearest_le_format; [apply format_1|lra]]. }
  assert (Bq : Rabs (val num / val Vt) <= pow2 54).
  { unfold Rdiv. rewrite Rabs_mult, Rabs_inv, (Rabs_pos_eq (val Vt)) by lra. rewrite <- (Rmult_1_l (pow2 54)).
    apply Rmult_le_compat; [apply Rabs_pos|left; apply Rinv_0_lt_compat; lra|exact Bn|].
    change 54%Z with (- (-54))%Z. rewrite bpow_opp. apply Rinv_le_contravar; lra. }
  destruct (fdiv_ok num Vt Fn ltac:(lra)) as (Fq & Vq); [apply Rle_trans with (1 := Bq); apply bpow_le; lia|].
  set (q := fdiv num Vt) in *.
  assert (Bq' : Rabs (val q) <= pow2 54).
  { rewrite Vq. apply Rabs_le_inv in Bq. apply Rabs_le. split; [apply nearest_ge_format; [apply generic_format_opp, format_bpow; lia|lra]|apply nearest_le_format; [apply format_bpow; lia|lra]]. }
  destruct (fadd_ok p1 q Fp Fq) as (Fs & Vs).
  { apply Rle_trans with (1 + pow2 54); [apply Rle_trans with (1 := Rabs_triang _ _); rewrite (Rabs_pos_eq (val p1)) by lra; lra|].
    apply Rle_trans with (pow2 55); [change 55%Z with (1 + 54)%Z; rewrite bpow_plus|apply bpow_le; lia].
    assert (1 <= pow2 54) by (apply (bpow_le radix2 0 54); lia). change (bpow radix2 1) with 2. lra. }
  destruct (adjust_complement np_sum (fadd p1 q) A (finite_not_nan _ Fs)) as (x & y & Exy & C & _ & Vy). specialize (Vy Fs).
  assert (DF : DeBias_float np_sum (p1, Vt) preds = [x; y]) by exact Exy. rewrite DF. rewrite Vs in Vy.
  assert (Y : Rabs (val y - clip01 (P1 + (m - P1) / V)) <= (6 / V + 10) * e).
  { rewrite Vy. pose proof (clip_nearest (val p1 + val q)) as CN.
    assert (Iv : 0 <= 6 / V * e) by (apply Rmult_le_pos; [apply Rdiv_le_0_compat; lra|lra]).
    assert (Main : Rabs (clip01 (val p1 + val q) - clip01 (P1 + (m - P1) / V)) <= 6 / V * e + 9 * e).
    { assert (HV' : Rabs (val Vt - V) <= e) by (apply Rabs_le; lra).
      destruct (shifted_close e (val p1) P1 (val num) (val Vt) (m - P1) V ltac:(lra) Bp Bs Hp Cn HV' HVe) as [(S1 & S2)|[(S1 & S2)|(S1 & S2)]].
      - apply Rle_trans with (1 := clip01_lip _ _).
        assert (Rq : Rabs (val q - val num / val Vt) <= 8 * e).
        { rewrite Vq. apply Rle_trans with (1 := nearest_mixed _).
          assert (ulp1 * Rabs (val num / val Vt) <= ulp1 * 3) by (apply Rmult_le_compat_l; [apply bpow_ge_0|exact S1]).
          assert (pow2 (-1075) <= pow2 (-54)) by (apply bpow_le; lia).
          assert (B2 : ulp1 = 2 * pow2 (-54)). { unfold ulp1. change (-53)%Z with (1 + -54)%Z. rewrite bpow_plus. reflexivity. } lra. }
        apply Rabs_le_inv in Rq, S2. apply Rabs_le. replace (6 * e / V) with (6 / V * e) in S2 by (field; lra). lra.
      - assert (1 <= val q). { rewrite Vq. apply nearest_ge_format; [apply format_1|lra]. }
        rewrite !clip01_high by lra. unfold Rminus. rewrite Rplus_opp_r, Rabs_R0. lra.
      - assert (val q <= -1). { rewrite Vq. apply nearest_le_format; [apply (format_Z (-1)); lia|lra]. }
        rewrite !clip01_low by lra. rewrite Rminus_0_r, Rabs_R0. lra. }
    apply Rabs_le_inv in CN, Main. apply Rabs_le. lra. }
  pose proof (complementary_close x y C) as X.
  constructor; [|constructor; [|constructor]].
  - apply Rabs_le_inv in X, Y. apply Rabs_le. lra.
  - apply Rle_trans with (1 := Y). apply Rmult_le_compat_r; lra.
Qed.

(** ** Fitting *)

Lemma square_close x p P : in_unit x -> in_unit p -> Rabs (val p - P) <= pow2 (-54) -> 0 <= P <= 1 ->
  in_unit (let d := fsub x p in fmul d d) /\
  Rabs (val (let d := fsub x p in fmul d d) - (val x - P) ^ 2) <= 4 * ulp1.
Proof.
  intros Ux Up Hp BP. cbv zeta. destruct (sub_unit x p Ux Up) as (F & V). destruct Ux as (Fx & Bx), Up as (Fp & Bp).
  assert (B2 : ulp1 = 2 * pow2 (-54)). { unfold ulp1. change (-53)%Z with (1 + -54)%Z. rewrite bpow_plus. reflexivity. }
  assert (U0 : 0 < ulp1) by apply bpow_gt_0.
  assert (Bd : -1 <= val (fsub x p) <= 1).
  { rewrite V. split; [apply nearest_ge_format; [apply (format_Z (-1)); lia|lra]|apply nearest_le_format; [apply format_1|lra]]. }
  assert (Cd : Rabs (val (fsub x p) - (val x - P)) <= ulp1).
  { rewrite V. pose proof (nearest_error_unit (val x - val p) ltac:(apply Rabs_le; lra)) as N. apply Rabs_le_inv in N, Hp. apply Rabs_le. lra. }
  set (d := fsub x p) in *. assert (S : 0 <= val d * val d <= 1) by nra.
  destruct (fmul_ok d d F F) as (Fm & Vm); [apply big4; rewrite Rabs_pos_eq; lra|].
  split.
  - split; [exact Fm|]. rewrite Vm. split; [apply nearest_ge_format; [apply format_0|lra]|apply nearest_le_format; [apply format_1|lra]].
  - rewrite Vm. pose proof (nearest_error_unit (val d * val d) ltac:(rewrite Rabs_pos_eq; lra)) as N.
    assert (Q : Rabs (val d * val d - (val x - P) ^ 2) <= 2 * ulp1).
    { replace (val d * val d - (val x - P) ^ 2) with ((val d - (val x - P)) * (val d + (val x - P))) by ring.
      rewrite Rabs_mult. rewrite (Rmult_comm 2). apply Rmult_le_compat; try apply Rabs_pos; [exact Cd|]. apply Rabs_le. lra. }
    apply Rabs_le_inv in N, Q. apply Rabs_le. lra.
Qed.

Lemma exact_sum_range l : Forall in_unit l -> 0 <= exact_sum l <= INR (length l).
Proof.
  induction 1 as [|x l (F & B) H IH]; [cbn; lra|]. cbn [length]. rewrite S_INR.
  change (exact_sum (x :: l)) with (val x + exact_sum l). lra.
Qed.

Lemma rsum_pointwise {A} (f g : A -> R) e l : (forall x, In x l -> Rabs (f x - g x) <= e) ->
  Rabs (rsum (map f l) - rsum (map g l)) <= INR (length l) * e.
Proof.
  induction l as [|x l IH]; intros H.
  - cbn. rewrite Rminus_0_r, Rabs_R0. lra.
  - cbn [map length]. rewrite S_INR. change (rsum (f x :: map f l)) with (f x + rsum (map f l)). change (rsum (g x :: map g l)) with (g x + rsum (map g l)).
    replace (f x + rsum (map f l) - (g x + rsum (map g l))) with ((f x - g x) + (rsum (map f l) - rsum (map g l))) by ring.
    apply Rle_trans with (1 := Rabs_triang _ _). pose proof (H x (or_introl eq_refl)). pose proof (IH (fun y Hy => H y (or_intror Hy))). lra.
Qed.

Lemma rmean_pointwise {A} (f g : A -> R) e l : l <> [] -> (forall x, In x l -> Rabs (f x - g x) <= e) ->
  Rabs (rmean (map f l) - rmean (map g l)) <= e.
Proof.
  intros E H. unfold rmean. rewrite !map_length.
  assert (P : 0 < INR (length l)) by (apply lt_0_INR; destruct l; [congruence|cbn; lia]).
  replace (rsum (map f l) / INR (length l) - rsum (map g l) / INR (length l)) with ((rsum (map f l) - rsum (map g l)) * / INR (length l)) by (field; lra).
  rewrite Rabs_mult, (Rabs_pos_eq (/ _)) by (left; apply Rinv_0_lt_compat, P).
  apply Rmult_le_reg_r with (INR (length l)); [exact P|]. rewrite Rmult_assoc, Rinv_l by lra.
  pose proof (rsum_pointwise f g e l H). lra.
Qed.

Lemma share_rel k n : (0 < k)%nat -> (k <= n)%nat -> (Z.of_nat n <= 2 ^ 40)%Z ->
  pow2 (-40) <= INR k / INR n /\ Rabs (nearest (INR k / INR n) - INR k / INR n) <= 2 * ulp1 * (INR k / INR n).
Proof.
  intros K L N. assert (Pn : 0 < INR n) by (apply lt_0_INR; lia).
  assert (B : pow2 (-40) <= INR k / INR n).
  { apply Rmult_le_reg_r with (INR n); [exact Pn|]. unfold Rdiv. rewrite Rmult_assoc, Rinv_l, Rmult_1_r by lra.
    apply Rle_trans with 1; [|change 1 with (INR 1); apply le_INR; lia].
    apply Rle_trans with (pow2 (-40) * pow2 40); [apply Rmult_le_compat_l; [apply bpow_ge_0|]|rewrite <- bpow_plus; cbn; lra].
    rewrite INR_IZR_INZ. apply IZR_le in N. exact N. }
  split; [exact B|]. pose proof (bpow_gt_0 radix2 (-40)).
  pose proof (nearest_rel (INR k / INR n)) as R. rewrite Rabs_pos_eq with (x := INR k / INR n) in R by lra. apply R.
  apply Rle_trans with (2 := B). apply bpow_le. lia.
Qed.

Lemma DeBias_fit_close np_sum c0 c1 y rows : adds_in_some_order np_sum -> np_unique y = [c0; c1] ->
  rows <> [] -> Forall (Forall in_unit) rows ->
  (Z.of_nat (length y) <= 2 ^ 40)%Z -> (Z.of_nat (length rows) <= 2 ^ 40)%Z ->
  let D := INR (zcount c1 y) / INR (length y) * (INR (zcount c0 y) / INR (length y)) in
  exists p1 Vt s, DeBias_fit_float np_sum c0 c1 y rows = (p1, Vt) /\ DeBias_fit y (map (map val) rows) = Val s /\
    in_unit p1 /\ finite Vt /\ 0 < D <= 1 /\
    db_prev1 s = INR (zcount c1 y) / INR (length y) /\ 0 <= db_prev1 s <= 1 /\
    Rabs (val p1 - db_prev1 s) <= pow2 (-54) /\ Rabs (val Vt - db_Vt s) <= INR (length rows + 7) * pow2 (-51) / D.
Proof.
  intros A U E H Ny Nr D.
  assert (In0 : In c0 y /\ In c1 y).
  { split; apply np_unique_in; rewrite U; cbn; auto. }
  destruct In0 as (I0 & I1). apply (count_occ_In Z.eq_dec) in I0, I1. fold (zcount c0 y) in I0. fold (zcount c1 y) in I1.
  pose proof (zcount_le c0 y) as L0. pose proof (zcount_le c1 y) as L1. set (n := length y) in *.
  assert (Sn : small n) by (unfold small; lia).
  destruct (share_rel _ n I0 L0 Ny) as (S0 & R0'). destruct (share_rel _ n I1 L1 Ny) as (S1 & R1').
  destruct (frac_val _ n L0 ltac:(lia) Sn) as (U0 & V0). destruct (frac_val _ n L1 ltac:(lia) Sn) as (U1 & V1).
  pose proof (frac_error _ n L1 ltac:(lia)) as E1. pose proof (frac_range _ n L0 ltac:(lia)) as B0. pose proof (frac_range _ n L1 ltac:(lia)) as B1.
  rewrite <- V1 in E1, R1'. rewrite <- V0 in R0'.
  unfold DeBias_fit_float, DeBias_fit. rewrite U. cbv zeta. fold n.
  destruct (map (map val) rows) as [|r0 t0] eqn:Er; [destruct rows; [congruence|discriminate]|]. rewrite <- Er. clear Er r0 t0.
  set (p0 := fdiv (of_nat (zcount c0 y)) (of_nat n)) in *. set (p1 := fdiv (of_nat (zcount c1 y)) (of_nat n)) in *.
  set (P0 := INR (zcount c0 y) / INR n) in *. set (P1 := INR (zcount c1 y) / INR n) in *.
  set (sq := map _ (fcol 1 rows)). set (At := rmean _).
  assert (P40 : 0 < pow2 (-40)) by apply bpow_gt_0.
  assert (HD : pow2 (-80) <= D). { unfold D. change (-80)%Z with (-40 + -40)%Z. rewrite bpow_plus. apply Rmult_le_compat; lra. }
  assert (D0 : 0 < D) by (apply Rlt_le_trans with (2 := HD); apply bpow_gt_0).
  assert (D1 : D <= 1). { unfold D. rewrite <- (Rmult_1_l 1). apply Rmult_le_compat; lra. }
  assert (Usq : Forall in_unit sq).
  { unfold sq. apply Forall_map. pose proof (fcol_unit 1 rows H) as Uc. eapply Forall_impl; [|exact Uc].
    intros x Ux. apply (square_close x p1 P1 Ux U1 E1 B1). }
  assert (Lsq : length sq = length rows) by (unfold sq; rewrite map_length; apply fcol_length).
  assert (Nsq : sq <> []) by (intros Z; rewrite Z in Lsq; destruct rows; [congruence|discriminate]).
  assert (U0' : 0 < ulp1) by apply bpow_gt_0.
  assert (B52 : pow2 (-52) = 2 * ulp1) by (unfold ulp1; change (-52)%Z with (1 + -53)%Z; rewrite bpow_plus; reflexivity).
  assert (B51 : pow2 (-51) = 4 * ulp1) by (unfold ulp1; change (-51)%Z with (2 + -53)%Z; rewrite bpow_plus; reflexivity).
  assert (UL : ulp1 <= 1/1000) by (apply Rle_trans with (pow2 (-10)); [apply bpow_le; lia|cbn; lra]).
  destruct (fmean_unit np_sum sq A Nsq Usq) as ((FA & BA) & _); [unfold small; rewrite Lsq; lia|].
  pose proof (fmean_error np_sum sq A Nsq Usq ltac:(rewrite Lsq; lia)) as EA. rewrite Lsq in EA.
  set (Af := fmean np_sum sq) in *.
  assert (CA : Rabs (exact_mean sq - At) <= 4 * ulp1).
  { rewrite exact_mean_rmean. unfold sq, At. rewrite map_map. 
    replace (map (fun r => (nth 1 r 0 - P1) ^ 2) (map (map val) rows)) with (map (fun x => (val x - P1) ^ 2) (fcol 1 rows)).
    - apply rmean_pointwise; [unfold fcol; destruct rows; [congruence|discriminate]|]. intros x Hx.
      pose proof (fcol_unit 1 rows H) as Uc. rewrite Forall_forall in Uc. apply (square_close x p1 P1 (Uc x Hx) U1 E1 B1).
    - unfold fcol. rewrite !map_map. apply map_ext. intros r. f_equal. f_equal. destruct f0_ok as (_ & V). rewrite <- V. symmetry. apply map_nth. }
  assert (BAt : 0 <= At <= 1.01).
  { assert (-1 <= - (4 * ulp1)) by lra. assert (EM : 0 <= exact_mean sq <= 1).
    { unfold exact_mean. assert (Ps : 0 < INR (length sq)) by (apply lt_0_INR; destruct sq; [congruence|cbn; lia]).
      pose proof (exact_sum_range sq Usq) as R. split; [apply Rdiv_le_0_compat; lra|].
      apply Rmult_le_reg_r with (INR (length sq)); [lra|]. unfold Rdiv. rewrite Rmult_assoc, Rinv_l by lra. lra. }
    split; [|apply Rabs_le_inv in CA; lra]. unfold At, rmean. apply Rdiv_le_0_compat; [|apply lt_0_INR; rewrite !map_length; destruct rows; [congruence|cbn; lia]].
    apply rsum_nonneg. apply Forall_map, Forall_forall. intros r _. apply pow2_ge_0. }
  exists p1, (fdiv Af (fmul p1 p0)), {| db_prev1 := P1; db_Vt := At / (P1 * P0) |}. split; [reflexivity|]. split; [reflexivity|].
  split; [exact U1|]. cbn [db_prev1 db_Vt].
  destruct U0 as (F0 & Bp0), U1 as (F1 & Bp1).
  destruct (fmul_ok p1 p0 F1 F0) as (Ff & Vf). { apply big4. rewrite Rabs_pos_eq; [|apply Rmult_le_pos; lra]. assert (val p1 * val p0 <= 1 * 1) by (apply Rmult_le_compat; lra). lra. }
  set (f := fmul p1 p0) in *.
  assert (Cf : Rabs (val f - D) <= 8 * ulp1 * D).
  { assert (Cp : Rabs (val p1 * val p0 - D) <= 5 * ulp1 * D).
    { unfold D. replace (val p1 * val p0 - P1 * P0) with ((val p1 - P1) * P0 + (val p0 - P0) * val p1) by ring.
      apply Rle_trans with (1 := Rabs_triang _ _). rewrite !Rabs_mult, (Rabs_pos_eq P0), (Rabs_pos_eq (val p1)) by lra.
      assert (Rabs (val p1 - P1) * P0 <= 2 * ulp1 * P1 * P0) by (apply Rmult_le_compat_r; lra).
      assert (V2 : val p1 <= 1.01 * P1). { apply Rabs_le_inv in R1'. assert (2 * ulp1 * P1 <= 0.01 * P1) by (apply Rmult_le_compat_r; lra). lra. }
      assert (Rabs (val p0 - P0) * val p1 <= 2 * ulp1 * P0 * (1.01 * P1)) by (apply Rmult_le_compat; try lra; apply Rabs_pos).
      assert (0 <= ulp1 * (P1 * P0)) by (apply Rmult_le_pos; [lra|]; apply Rmult_le_pos; lra). lra. }
    rewrite Vf. apply Rabs_le_inv in Cp. assert (5 * ulp1 * D <= 5/1000 * D) by (apply Rmult_le_compat_r; lra).
    pose proof (nearest_rel (val p1 * val p0)) as NR. rewrite Rabs_pos_eq with (x := val p1 * val p0) in NR by lra.
    assert (pow2 (-1000) <= val p1 * val p0). { apply Rle_trans with (pow2 (-81)); [apply bpow_le; lia|]. change (-81)%Z with (-1 + -80)%Z. rewrite bpow_plus. change (bpow radix2 (-1)) with (/ 2). lra. }
    specialize (NR H1). apply Rabs_le_inv in NR.
    assert (2 * ulp1 * (val p1 * val p0) <= 2 * ulp1 * (1.005 * D)) by (apply Rmult_le_compat_l; lra).
    assert (0 <= ulp1 * D) by (apply Rmult_le_pos; lra).
    assert (K : 2 * ulp1 * (val p1 * val p0) <= 2 * ulp1 * D + 0.01 * (ulp1 * D)) by lra.
    apply Rabs_le. lra. }
  apply Rabs_le_inv in Cf. assert (UD : 8 * ulp1 * D <= 0.008 * D) by (apply Rmult_le_compat_r; lra).
  assert (f0 : 0.99 * D <= val f) by lra. assert (fp : 0 < val f) by lra.
  assert (If : / val f <= 1.02 * / D).
  { apply Rmult_le_reg_r with (val f); [exact fp|]. rewrite Rinv_l by lra. apply Rle_trans with (1.02 * / D * (0.99 * D)).
    - replace (1.02 * / D * (0.99 * D)) with (1.02 * 0.99) by (field; lra). lra.
    - apply Rmult_le_compat_l; [|exact f0]. assert (0 < / D) by (apply Rinv_0_lt_compat; lra). lra. }
  assert (If0 : 0 < / val f) by (apply Rinv_0_lt_compat, fp). assert (ID0 : 1 <= / D) by (rewrite <- Rinv_1; apply Rinv_le_contravar; lra).
  assert (Q1 : 0 <= val Af / val f <= 1.02 * / D).
  { split; [apply Rdiv_le_0_compat; lra|]. unfold Rdiv. rewrite <- (Rmult_1_l (1.02 * / D)). apply Rmult_le_compat; lra. }
  destruct (fdiv_ok Af f FA ltac:(lra)) as (FV & VV).
  { rewrite Rabs_pos_eq by lra. apply Rle_trans with (1 := proj2 Q1). apply Rle_trans with (pow2 81); [|apply bpow_le; lia].
    change 81%Z with (1 + 80)%Z. rewrite bpow_plus. change (bpow radix2 1) with 2. assert (/ D <= pow2 80). { change 80%Z with (- (-80))%Z. rewrite bpow_opp. apply Rinv_le_contravar; [apply bpow_gt_0|exact HD]. } lra. }
  split; [exact FV|]. split; [lra|]. split; [reflexivity|]. split; [exact B1|]. split; [exact E1|].
  rewrite VV. fold D. pose proof (nearest_mixed (val Af / val f)) as NM. rewrite Rabs_pos_eq with (x := val Af / val f) in NM by lra.
  set (r := INR (length rows)). assert (r0 : 0 <= r) by apply pos_INR. rewrite plus_INR in EA |- *. fold r in EA |- *. rewrite B52 in EA. rewrite B51.
  change (INR 1) with 1 in EA. replace (INR 7) with 7 by (cbn; lra).
  assert (M1 : ulp1 * (val Af / val f) <= 1.02 * (ulp1 * / D)).
  { apply Rle_trans with (ulp1 * (1.02 * / D)); [apply Rmult_le_compat_l; lra|lra]. }
  assert (M2 : pow2 (-1075) <= ulp1 * / D).
  { apply Rle_trans with (ulp1 * 1); [rewrite Rmult_1_r; apply bpow_le; lia|apply Rmult_le_compat_l; lra]. }
  assert (C : Rabs (val Af / val f - At / D) <= ((2 * r + 6) * ulp1 + 8.1 * ulp1) * (1.02 * / D)).
  { replace (val Af / val f - At / D) with (((val Af - At) + At * ((D - val f) * / D)) * / val f) by (field; lra).
    rewrite Rabs_mult, (Rabs_pos_eq (/ val f)) by lra. apply Rmult_le_compat; [apply Rabs_pos|lra| |exact If].
    apply Rle_trans with (1 := Rabs_triang _ _). apply Rplus_le_compat.
    - apply Rabs_le_inv in EA, CA. apply Rabs_le. lra.
    - rewrite Rabs_mult, (Rabs_pos_eq At) by lra. assert (Rabs ((D - val f) * / D) <= 8 * ulp1).
      { rewrite Rabs_mult, (Rabs_pos_eq (/ D)) by lra. apply Rmult_le_reg_r with D; [lra|]. rewrite Rmult_assoc, Rinv_l by lra. rewrite Rmult_1_r. apply Rabs_le. lra. }
      apply Rle_trans with (1.01 * (8 * ulp1)); [apply Rmult_le_compat; try lra; apply Rabs_pos|lra]. }
  set (w := ulp1 * / D) in *. assert (w0 : 0 < w) by (apply Rmult_lt_0_compat; lra).
  replace ((r + 7) * (4 * ulp1) / D) with (4 * (r * w) + 28 * w) by (unfold w; field; lra).
  replace (((2 * r + 6) * ulp1 + 8.1 * ulp1) * (1.02 * / D)) with (2.04 * (r * w) + 14.1 * 1.02 * w) in C by (unfold w; generalize (/ D); intros; lra).
  assert (0 <= r * w) by (apply Rmult_le_pos; lra). apply Rabs_le_inv in C, NM. apply Rabs_le. lra.
Qed.

Lemma DeBias_float_accuracy np_sum c0 c1 y rows preds n : adds_in_some_order np_sum -> np_unique y = [c0; c1] ->
  rows <> [] -> preds <> [] -> Forall (Forall in_unit) rows -> Forall (Forall in_unit) preds ->
  (length y <= n)%nat -> (length rows <= n)%nat -> (length preds <= n)%nat -> (Z.of_nat n <= 2 ^ 40)%Z ->
  let D := INR (zcount c1 y) / INR (length y) * (INR (zcount c0 y) / INR (length y)) in
  let e := INR (n + 7) * pow2 (-51) / D in
  exists s, DeBias_fit y (map (map val) rows) = Val s /\
    Rabs (val (fst (DeBias_fit_float np_sum c0 c1 y rows)) - db_prev1 s) <= e /\
    Rabs (val (snd (DeBias_fit_float np_sum c0 c1 y rows)) - db_Vt s) <= e /\
    (16 * e <= db_Vt s ->
     exists p, DeBias_predict s (map (map val) preds) = Val p /\
       within ((6 / db_Vt s + 14) * e) (DeBias_float np_sum (DeBias_fit_float np_sum c0 c1 y rows) preds) p).
Proof.
  intros A U E E' H H' Ly Lr Lp N D e.
  destruct (DeBias_fit_close np_sum c0 c1 y rows A U E H ltac:(lia) ltac:(lia)) as (p1 & Vt & s & Ef & Es & Up & FV & HD & _ & Bs & Cp & CV).
  fold D in HD, CV. rewrite Ef. cbn [fst snd]. exists s. split; [exact Es|].
  assert (B54 : 0 < pow2 (-54)) by apply bpow_gt_0.
  assert (B51 : pow2 (-51) = 8 * pow2 (-54)) by (change (-51)%Z with (3 + -54)%Z; rewrite bpow_plus; reflexivity).
  assert (B52 : pow2 (-52) = 4 * pow2 (-54)) by (change (-52)%Z with (2 + -54)%Z; rewrite bpow_plus; reflexivity).
  assert (ID : 1 <= / D) by (rewrite <- Rinv_1; apply Rinv_le_contravar; lra).
  assert (Nn : 0 <= INR n) by apply pos_INR.
  assert (e7 : INR (n + 7) * pow2 (-51) <= e).
  { unfold e, Rdiv. rewrite <- (Rmult_1_r (INR (n + 7) * pow2 (-51))) at 1. apply Rmult_le_compat_l; [|exact ID]. apply Rmult_le_pos; [apply pos_INR|lra]. }
  assert (I7 : INR (n + 7) = INR n + 7) by (rewrite plus_INR; cbn; lra).
  assert (e1 : pow2 (-54) <= e). { apply Rle_trans with (2 := e7). rewrite I7, B51. assert (0 <= INR n * pow2 (-54)) by (apply Rmult_le_pos; lra). lra. }
  assert (C1 : Rabs (val p1 - db_prev1 s) <= e) by lra.
  assert (C2 : Rabs (val Vt - db_Vt s) <= e).
  { apply Rle_trans with (1 := CV). unfold e, Rdiv. apply Rmult_le_compat_r; [lra|]. apply Rmult_le_compat_r; [lra|]. apply le_INR. lia. }
  split; [exact C1|]. split; [exact C2|]. intros HV.
  apply DeBias_float_close; try assumption; [lia|].
  apply Rle_trans with (2 := e7). rewrite I7, B51, B52, plus_INR. change (INR 1) with 1.
  assert (INR (length preds) <= INR n) by (apply le_INR; lia).
  assert (INR (length preds) * pow2 (-54) <= INR n * pow2 (-54)) by (apply Rmult_le_compat_r; lra). assert (0 <= INR n * pow2 (-54)) by (apply Rmult_le_pos; lra). lra.
Qed.
