(** * Dividing by the sum, in double precision. *)

From Coq Require Import Reals ZArith List Permutation Lia Lra Bool Psatz.
From Flocq Require Import Core BinarySingleNaN Relative Plus_error.
From Verif Require Import Num Spec L_Num M_Baselines M_Float M_Float2 M_Float3 Spec_Float L_Float L_Float2 L_Float3 L_Float4 L_Float5 L_Float6 L_Float7 L_Float8.
Import ListNotations.
Open Scope R_scope.

Lemma exact_entry e l x : Forall (bounded e) l -> In x l -> 0 <= val x <= exact_sum l.
Proof.
  induction 1 as [|y l Hy Hl IH]; [intros []|]. pose proof (bounded_sum e l Hl) as P. destruct Hy as (_ & B).
  unfold exact_sum in *. cbn [map fold_right]. intros [->|I]; [lra|]. specialize (IH I). lra.
Qed.

Lemma exact_pos e l x : Forall (bounded e) l -> In x l -> 0 < val x -> 0 < exact_sum l.
Proof. intros U I P. pose proof (exact_entry e l x U I). lra. Qed.

Lemma divided_entries e np_sum l : (-1074 <= e)%Z -> (e <= 900)%Z -> adds_in_some_order np_sum -> Forall (bounded e) l ->
  (Z.of_nat (length l) <= 2 ^ 50)%Z -> 0 < exact_sum l -> forall x, In x l ->
  Rabs (val (fdiv x (np_sum l)) - val x / exact_sum l) <= INR (length l) * bpow radix2 (-50).
Proof.
  intros Elo Ehi A U N P x I. assert (N' : small (length l)) by (unfold small; lia).
  destruct (summed_range_gen e Elo Ehi _ _ (A l) U N') as (F & B).
  pose proof (summed_error_gen e _ _ Elo Ehi (A l) U N') as D.
  destruct (divided_by_sum e np_sum l Elo Ehi A U N P) as (Sp & _ & _).
  assert (U0 : 0 < ulp1) by apply bpow_gt_0.
  assert (Lp : 1 <= INR (length l)).
  { change 1 with (INR 1). apply le_INR. destruct l; [destruct I|cbn; lia]. }
  assert (Hn : INR (length l) * ulp1 <= 1/8).
  { apply Rle_trans with (bpow radix2 50 * ulp1).
    - apply Rmult_le_compat_r; [lra|]. rewrite INR_IZR_INZ. change (bpow radix2 50) with (IZR (2 ^ 50)). apply IZR_le, N.
    - unfold ulp1. rewrite <- bpow_plus. cbn. lra. }
  pose proof (pow_near (length l) ltac:(lra)) as Pw. pose proof (pow_mono (length l)) as Pm.
  pose proof (exact_entry e l x U I) as Bx. pose proof U as U'. rewrite Forall_forall in U'. destruct (U' x I) as (Fx & _).
  destruct (fdiv_le x (np_sum l) Fx F) as (_ & Ex).
  { split; [lra|]. apply (summed_ge_gen e Elo Ehi _ _ (A l) U N'), I. }
  { exact Sp. }
  set (g := (1 + ulp1) ^ length l) in *. set (n := INR (length l)) in *. set (t := exact_sum l) in *. set (s := val (np_sum l)) in *.
  assert (S0 : 3/4 * t <= s). { apply Rabs_le_inv in D. assert ((g - 1) * t <= 1/4 * t) by (apply Rmult_le_compat_r; lra). lra. }
  assert (Q : Rabs (val x / s - val x / t) <= 4 * (n * ulp1)).
  { replace (val x / s - val x / t) with ((val x / t) * ((t - s) * / s)) by (field; lra).
    rewrite Rabs_mult. rewrite <- (Rmult_1_l (4 * (n * ulp1))). apply Rmult_le_compat; try apply Rabs_pos.
    - rewrite Rabs_pos_eq; [|apply Rdiv_le_0_compat; lra]. apply Rmult_le_reg_r with t; [exact P|]. unfold Rdiv. rewrite Rmult_assoc, Rinv_l by lra. lra.
    - rewrite Rabs_mult, (Rabs_pos_eq (/ s)) by (left; apply Rinv_0_lt_compat, Sp).
      apply Rmult_le_reg_r with s; [exact Sp|]. rewrite Rmult_assoc, Rinv_l, Rmult_1_r by lra.
      apply Rle_trans with ((g - 1) * t); [rewrite Rabs_minus_sym; exact D|].
      apply Rle_trans with (2 * (n * ulp1) * t); [apply Rmult_le_compat_r; lra|].
      assert (0 <= n * ulp1) by (apply Rmult_le_pos; lra). nra. }
  replace (val (fdiv x (np_sum l)) - val x / t) with ((val (fdiv x (np_sum l)) - val x / s) + (val x / s - val x / t)) by ring.
  apply Rle_trans with (1 := Rabs_triang _ _).
  assert (B1 : bpow radix2 (-50) = 8 * ulp1). { unfold ulp1. change (-50)%Z with (3 + -53)%Z. rewrite bpow_plus. reflexivity. }
  assert (B2 : ulp1 = 2 * bpow radix2 (-54)). { unfold ulp1. change (-53)%Z with (1 + -54)%Z. rewrite bpow_plus. reflexivity. }
  rewrite B1. assert (1 * ulp1 <= n * ulp1) by (apply Rmult_le_compat_r; lra). lra.
Qed.

Lemma within_map d (f : float -> float) (g : float -> R) l : (forall x, In x l -> Rabs (val (f x) - g x) <= d) -> within d (map f l) (map g l).
Proof.
  intros H. induction l as [|x l IH]; [constructor|]. constructor; [apply H; left; reflexivity|]. apply IH. intros z I. apply H. right. exact I.
Qed.

Lemma divided_shares e np_sum l : (-1074 <= e)%Z -> (e <= 900)%Z -> adds_in_some_order np_sum -> Forall (bounded e) l ->
  (Z.of_nat (length l) <= 2 ^ 50)%Z -> 0 < exact_sum l ->
  shares (INR (length l) * bpow radix2 (-50)) (map val l) (map (fun x => fdiv x (np_sum l)) l).
Proof.
  intros Elo Ehi A U N P. destruct (divided_by_sum e np_sum l Elo Ehi A U N P) as (_ & F & D). split; [exact F|]. split; [exact D|].
  rewrite map_map. apply within_map. intros x I. apply (divided_entries e); assumption.
Qed.

Lemma normalise_shares np_sum l : adds_in_some_order np_sum -> Forall in_unit l -> (Z.of_nat (length l) <= 2 ^ 50)%Z -> Exists (fun x => 0 < val x) l ->
  shares (INR (length l) * bpow radix2 (-50)) (map val l) (normalise_float np_sum l).
Proof.
  intros A U N X. apply Exists_exists in X. destruct X as (x & I & P). rewrite Forall_unit_bounded in U.
  pose proof (exact_pos 0 l x U I P) as T. destruct (divided_by_sum 0 np_sum l ltac:(lia) ltac:(lia) A U N T) as (Sp & _ & _).
  destruct (summed_range_gen 0 ltac:(lia) ltac:(lia) _ _ (A l) U ltac:(unfold small; lia)) as (F & B).
  destruct f0_ok as (F0 & V0). unfold normalise_float.
  replace (flt f0 (np_sum l)) with true by (symmetry; apply flt_ok; [exact F0|exact F|lra]).
  apply (divided_shares 0); try assumption; lia.
Qed.

Lemma exact_zero l : Forall (fun x => val x = 0) l -> exact_sum l = 0.
Proof. unfold exact_sum. induction 1 as [|x l V _ IH]; [reflexivity|]. cbn [map fold_right]. rewrite V, IH. ring. Qed.

Lemma zero_sum np_sum l : adds_in_some_order np_sum -> Forall in_unit l -> small (length l) -> Forall (fun x => val x = 0) l ->
  finite (np_sum l) /\ val (np_sum l) = 0.
Proof.
  intros A U N Z. destruct (summed_range _ _ (A l) U N) as (F & B). split; [exact F|].
  pose proof (summed_error _ _ (A l) U N) as D. rewrite exact_zero, Rminus_0_r, Rmult_0_r in D by exact Z.
  apply Rabs_le_inv in D. lra.
Qed.

Lemma normalise_zero np_sum l : adds_in_some_order np_sum -> Forall in_unit l -> small (length l) -> Forall (fun x => val x = 0) l ->
  normalise_float np_sum l = l.
Proof.
  intros A U N Z. destruct (zero_sum np_sum l A U N Z) as (F & V). destruct f0_ok as (F0 & V0). unfold normalise_float.
  replace (flt f0 (np_sum l)) with false; [reflexivity|]. symmetry. apply flt_false; [exact F0|exact F|lra].
Qed.

Lemma clip_map_val l : Forall finite l -> map val (map fclip l) = map clip01 (map val l).
Proof. induction 1 as [|x l F _ IH]; [reflexivity|]. cbn [map]. rewrite IH. destruct (fclip_ok x F) as (_ & ->). reflexivity. Qed.

Lemma clip_map_unit l : Forall finite l -> Forall in_unit (map fclip l).
Proof. intros H. apply Forall_forall. intros x I. apply in_map_iff in I. destruct I as (z & <- & I). rewrite Forall_forall in H. apply fclip_in_unit, H, I. Qed.

Lemma clip01_pos x : 0 < x -> 0 < clip01 x.
Proof. intros H. unfold clip01. unfold Rmin, Rmax. destruct (Rle_dec _ _); destruct (Rle_dec _ _); lra. Qed.

Lemma clip01_nonpos x : x <= 0 -> clip01 x = 0.
Proof. intros H. unfold clip01. unfold Rmin, Rmax. repeat destruct (Rle_dec _ _); lra. Qed.

Lemma clip_exists l : Forall finite l -> Exists (fun x => 0 < val x) l -> Exists (fun x => 0 < val x) (map fclip l).
Proof.
  intros F X. apply Exists_exists in X. destruct X as (x & I & P). apply Exists_exists. exists (fclip x). split; [apply in_map, I|].
  rewrite Forall_forall in F. destruct (fclip_ok x (F x I)) as (_ & ->). apply clip01_pos, P.
Qed.

Lemma PDF_float_shares np_sum l : adds_in_some_order np_sum -> Forall finite l -> (Z.of_nat (length l) <= 2 ^ 50)%Z -> Exists (fun x => 0 < val x) l ->
  shares (INR (length l) * bpow radix2 (-50)) (map clip01 (map val l)) (PDF_float np_sum l).
Proof.
  intros A F N X. unfold PDF_float. rewrite <- clip_map_val by exact F. rewrite <- (map_length fclip l).
  apply normalise_shares; [exact A|apply clip_map_unit, F|rewrite map_length; exact N|apply clip_exists; assumption].
Qed.

Lemma REG_float_shares np_sum l : adds_in_some_order np_sum -> Forall finite l -> (Z.of_nat (length l) <= 2 ^ 50)%Z -> Exists (fun x => 0 < val x) l ->
  shares (INR (length l) * bpow radix2 (-50)) (map clip01 (map val l)) (REG_multi_float np_sum l).
Proof.
  intros A F N X. unfold REG_multi_float. cbv zeta. rewrite <- clip_map_val by exact F. rewrite <- (map_length fclip l).
  pose proof (clip_exists l F X) as X'. apply Exists_exists in X'. destruct X' as (x & I & P).
  pose proof (clip_map_unit l F) as U. rewrite Forall_unit_bounded in U.
  apply (divided_shares 0); [lia|lia|exact A|exact U|rewrite map_length; exact N|]. apply (exact_pos 0 _ x); assumption.
Qed.

Lemma div_zero_nan x y : finite x -> finite y -> val x = 0 -> val y = 0 -> is_nan (fdiv x y) = true.
Proof.
  assert (Z : forall z : float, finite z -> val z = 0 -> exists s, z = B754_zero s).
  { intros z F V. destruct z as [s|s| |s m e' b]; try discriminate F; [exists s; reflexivity|].
    exfalso. unfold val, B2R in V. apply (F2R_neq_0 radix2 (Float radix2 (cond_Zopp s (Zpos m)) e')); [|exact V]. destruct s; discriminate. }
  intros Fx Fy Vx Vy. destruct (Z x Fx Vx) as (s & ->). destruct (Z y Fy Vy) as (s' & ->). reflexivity.
Qed.

Lemma REG_float_nan np_sum l : adds_in_some_order np_sum -> Forall finite l -> small (length l) -> Forall (fun x => val x <= 0) l ->
  Forall (fun x => is_nan x = true) (REG_multi_float np_sum l).
Proof.
  intros A F N Z. pose proof (clip_map_unit l F) as U.
  assert (Z' : Forall (fun x => val x = 0) (map fclip l)).
  { apply Forall_forall. intros x I. apply in_map_iff in I. destruct I as (z & <- & I). rewrite Forall_forall in F, Z.
    destruct (fclip_ok z (F z I)) as (_ & ->). apply clip01_nonpos, Z, I. }
  destruct (zero_sum np_sum _ A U ltac:(rewrite map_length; exact N) Z') as (Fs & Vs).
  unfold REG_multi_float. cbv zeta. apply Forall_forall. intros x I. apply in_map_iff in I. destruct I as (z & <- & I).
  rewrite Forall_forall in U, Z'. apply div_zero_nan; [apply U, I|exact Fs|apply Z', I|exact Vs].
Qed.

(** ** The inverse of the confusion matrix *)

Lemma positive_part x : finite x -> finite (if flt x f0 then f0 else x) /\ val (if flt x f0 then f0 else x) = Rmax 0 (val x).
Proof.
  intros F. destruct f0_ok as (F0 & V0). destruct (flt x f0) eqn:Q.
  - apply flt_ok in Q; [|assumption..]. split; [exact F0|]. rewrite Rmax_left; lra.
  - apply flt_false in Q; [|assumption..]. split; [exact F|]. rewrite Rmax_right; lra.
Qed.

Lemma AC_inverse_shares v : Forall finite v -> Forall (fun x => val x <= bpow radix2 900) v -> (Z.of_nat (length v) <= 2 ^ 50)%Z ->
  Exists (fun x => 0 < val x) v ->
  shares (INR (length v) * bpow radix2 (-50)) (map (Rmax 0) (map val v)) (AC_inverse_float v).
Proof.
  intros F B N X. unfold AC_inverse_float. cbv zeta. set (g := fun x => if flt x f0 then f0 else x).
  assert (V : map (Rmax 0) (map val v) = map val (map g v)).
  { rewrite !map_map. apply map_ext_in. intros x I. rewrite Forall_forall in F. symmetry. apply (positive_part x), F, I. }
  rewrite V, <- (map_length g v).
  assert (U : Forall (bounded 900) (map g v)).
  { apply Forall_forall. intros x I. apply in_map_iff in I. destruct I as (z & <- & I). rewrite Forall_forall in F, B.
    destruct (positive_part z (F z I)) as (Fg & Vg). fold (g z) in Fg, Vg. split; [exact Fg|]. rewrite Vg.
    pose proof (bpow_gt_0 radix2 900). specialize (B z I). unfold Rmax. destruct (Rle_dec _ _); lra. }
  apply (divided_shares 900); [lia|lia|exact left_to_right_summed|exact U|rewrite map_length; exact N|].
  apply Exists_exists in X. destruct X as (x & I & P). apply (exact_pos 900 _ (g x)); [exact U|apply in_map, I|].
  rewrite Forall_forall in F. destruct (positive_part x (F x I)) as (_ & Vg). fold (g x) in Vg. rewrite Vg, Rmax_right; lra.
Qed.

(** ** The mean of an ensemble *)

Lemma PCC_unit np_sum k rows : adds_in_some_order np_sum -> rows <> [] -> Forall (Forall in_unit) rows ->
  (Z.of_nat (length rows) <= 2 ^ 50)%Z -> Forall in_unit (PCC_float np_sum k rows).
Proof.
  intros A E U N. apply Forall_forall. intros x I. unfold PCC_float in I. apply in_map_iff in I. destruct I as (j & <- & I). apply in_seq in I.
  apply fmean_unit; [exact A|destruct rows; [congruence|discriminate]|apply fcol_unit, U|rewrite fcol_length; unfold small; lia].
Qed.

Lemma PCC_close np_sum k rows : adds_in_some_order np_sum -> rows <> [] -> Forall (Forall in_unit) rows ->
  (Z.of_nat (length rows) <= 2 ^ 50)%Z ->
  within (INR (length rows + 1) * bpow radix2 (-52)) (PCC_float np_sum k rows) (map (fun j => exact_mean (fcol j rows)) (seq 0 k)).
Proof.
  intros A E U N. unfold PCC_float, within. induction (seq 0 k) as [|j l IH]; [constructor|]. constructor; [|exact IH].
  rewrite <- (fcol_length j rows). apply fmean_error; [exact A|destruct rows; [congruence|discriminate]|apply fcol_unit, U|rewrite fcol_length; exact N].
Qed.

Lemma within_sum d l m : within d l m -> Rabs (exact_sum l - fold_right Rplus 0 m) <= INR (length l) * d.
Proof.
  unfold exact_sum. induction 1 as [|x r l m H _ IH]; [cbn; rewrite Rminus_0_r, Rabs_R0; lra|]. cbn [map fold_right length].
  rewrite S_INR. replace (val x + fold_right Rplus 0 (map val l) - (r + fold_right Rplus 0 m)) with ((val x - r) + (fold_right Rplus 0 (map val l) - fold_right Rplus 0 m)) by ring.
  apply Rle_trans with (1 := Rabs_triang _ _). lra.
Qed.

Lemma sum_of_means k rows : rows <> [] -> Forall (fun r => length r = k) rows ->
  fold_right Rplus 0 (map (fun j => exact_mean (fcol j rows)) (seq 0 k)) = fold_right Rplus 0 (map exact_sum rows) / INR (length rows).
Proof.
  intros E L. assert (Np : 1 <= INR (length rows)) by (change 1 with (INR 1); apply le_INR; destruct rows; [congruence|cbn; lia]).
  assert (G : forall rows' : list (list float), Forall (fun r => length r = k) rows' ->
    fold_right Rplus 0 (map (fun j => exact_sum (fcol j rows')) (seq 0 k)) = fold_right Rplus 0 (map exact_sum rows')).
  { induction 1 as [|r m Lr _ IH].
    - cbn. clear. induction (seq 0 k) as [|j l IH]; [reflexivity|]. cbn [map fold_right]. rewrite IH. unfold exact_sum. cbn. ring.
    - cbn [map fold_right]. rewrite <- IH.
      assert (R1 : exact_sum r = fold_right Rplus 0 (map (fun j => val (nth j r f0)) (seq 0 k))).
      { rewrite <- Lr. clear. unfold exact_sum. induction r as [|x r IH]; [reflexivity|]. cbn [length seq map fold_right nth]. rewrite IH.
        rewrite <- seq_shift, map_map. reflexivity. }
      rewrite R1. clear. induction (seq 0 k) as [|j l IH]; [cbn; ring|]. cbn [map fold_right]. rewrite IH.
      change (exact_sum (fcol j (r :: m))) with (val (nth j r f0) + exact_sum (fcol j m)). ring. }
  rewrite <- (G rows L). clear G L. unfold exact_mean.
  induction (seq 0 k) as [|j l IH]; [cbn; field; lra|]. cbn [map fold_right]. rewrite IH, fcol_length. field. lra.
Qed.

Lemma sum_ge (a : R) l : Forall (fun x => a <= x) l -> a * INR (length l) <= fold_right Rplus 0 l.
Proof. induction 1 as [|x l H _ IH]; [cbn; lra|]. cbn [length fold_right]. rewrite S_INR. lra. Qed.

Lemma within_chain d1 d2 (f : float -> R) (g : R -> R) l1 l2 l3 : within d1 l1 (map f l2) ->
  Forall2 (fun x r => Rabs (f x - g r) <= d2) l2 l3 -> within (d1 + d2) l1 (map g l3).
Proof.
  intros H1 H2. revert l1 H1. induction H2 as [|x r l2 l3 H _ IH]; intros l1 H1; inversion H1 as [|y z l1' l2' Hy Ht]; [constructor|].
  cbn [map]. constructor; [|apply IH; assumption]. replace (val y - g r) with ((val y - f x) + (f x - g r)) by ring.
  apply Rle_trans with (1 := Rabs_triang _ _). lra.
Qed.

Lemma EoQ_shares axis_sum np_sum k rows : adds_in_some_order axis_sum -> adds_in_some_order np_sum -> rows <> [] ->
  Forall (fun r => length r = k) rows -> Forall (Forall in_unit) rows -> Forall (fun r => 1/2 <= exact_sum r) rows ->
  (Z.of_nat k <= 2 ^ 50)%Z -> (Z.of_nat (length rows) <= 2 ^ 50)%Z -> INR k * INR (length rows + 1) <= bpow radix2 50 ->
  shares (INR (k + 1) * INR (length rows + 3) * bpow radix2 (-50)) (map (fun j => exact_mean (fcol j rows)) (seq 0 k))
    (EoQ_mean_float axis_sum np_sum k rows).
Proof.
  intros A1 A2 E L U T Nk Nr Nkr.
  pose proof (PCC_unit axis_sum k rows A1 E U Nr) as Um. pose proof (PCC_close axis_sum k rows A1 E U Nr) as Cm.
  set (m := PCC_float axis_sum k rows) in *. set (w := map (fun j => exact_mean (fcol j rows)) (seq 0 k)) in *.
  set (d := INR (length rows + 1) * bpow radix2 (-52)) in *.
  assert (Lm : length m = k) by (unfold m, PCC_float; rewrite map_length, seq_length; reflexivity).
  pose proof (within_sum d m w Cm) as Ds. rewrite Lm in Ds.
  assert (Np : 1 <= INR (length rows)) by (change 1 with (INR 1); apply le_INR; destruct rows; [congruence|cbn; lia]).
  set (W := fold_right Rplus 0 w) in *.
  assert (HW : 1/2 <= W).
  { unfold W, w. rewrite sum_of_means by assumption. pose proof (sum_ge (1/2) (map exact_sum rows)) as G. rewrite map_length in G.
    apply Rmult_le_reg_r with (INR (length rows)); [lra|]. unfold Rdiv at 2. rewrite Rmult_assoc, Rinv_l, Rmult_1_r by lra. apply G.
    apply Forall_forall. intros x I. apply in_map_iff in I. destruct I as (r & <- & I). rewrite Forall_forall in T. apply T, I. }
  assert (D0 : 0 < d) by (unfold d; apply Rmult_lt_0_compat; [rewrite plus_INR; cbn [INR]; lra|apply bpow_gt_0]).
  assert (Kd : INR k * d <= 1/4).
  { unfold d. rewrite <- Rmult_assoc. apply Rle_trans with (bpow radix2 50 * bpow radix2 (-52)).
    - apply Rmult_le_compat_r; [apply bpow_ge_0|exact Nkr].
    - rewrite <- bpow_plus. cbn. lra. }
  apply Rabs_le_inv in Ds.
  assert (P : 0 < exact_sum m) by lra.
  rewrite Forall_unit_bounded in Um.
  pose proof (divided_shares 0 np_sum m ltac:(lia) ltac:(lia) A2 Um ltac:(rewrite Lm; exact Nk) P) as (S1 & S2 & S3).
  rewrite Lm in S2, S3. change (EoQ_mean_float axis_sum np_sum k rows) with (map (fun x => fdiv x (np_sum m)) m).
  set (D := INR (k + 1) * INR (length rows + 3) * bpow radix2 (-50)).
  assert (P50 := bpow_gt_0 radix2 (-50)).
  assert (B1 : bpow radix2 (-50) = 4 * bpow radix2 (-52)). { change (-50)%Z with (2 + -52)%Z. rewrite bpow_plus. reflexivity. }
  assert (Kp : 0 <= INR k) by apply pos_INR.
  assert (KD : 2 * d + 2 * (INR k * d) + INR k * bpow radix2 (-50) <= D).
  { unfold D, d. rewrite B1, !plus_INR. cbn [INR]. set (b := bpow radix2 (-52)) in *. assert (0 < b) by apply bpow_gt_0.
    set (r := INR (length rows)) in *. set (kk := INR k) in *.
    assert (0 <= kk * r) by (apply Rmult_le_pos; lra). nra. }
  assert (Kd0 : 0 <= INR k * d) by (apply Rmult_le_pos; lra).
  assert (Kb0 : 0 <= INR k * bpow radix2 (-50)) by (apply Rmult_le_pos; lra).
  split; [exact S1|]. split; [lra|].
  assert (G : forall l v, within d l v -> incl l m -> Forall2 (fun x r => Rabs (val x / exact_sum m - r / W) <= 2 * d + 2 * (INR k * d)) l v).
  { induction 1 as [|x r l v H _ IH]; intros I; [constructor|]. constructor; [|apply IH; intros z Iz; apply I; right; exact Iz].
    pose proof (exact_entry 0 m x Um (I x (or_introl eq_refl))) as Bx.
    replace (val x / exact_sum m - r / W) with ((val x - r) * / W + (val x / exact_sum m) * ((W - exact_sum m) * / W)) by (field; lra).
    assert (IW : 0 < / W <= 2). { split; [apply Rinv_0_lt_compat; lra|]. replace 2 with (/ (1/2)) by field. apply Rinv_le_contravar; lra. }
    assert (Q1 : 0 <= val x / exact_sum m <= 1).
    { split; [apply Rdiv_le_0_compat; lra|]. apply Rmult_le_reg_r with (exact_sum m); [exact P|]. unfold Rdiv. rewrite Rmult_assoc, Rinv_l by lra. lra. }
    apply Rle_trans with (1 := Rabs_triang _ _). apply Rplus_le_compat.
    - rewrite Rabs_mult, (Rabs_pos_eq (/ W)) by lra. rewrite Rmult_comm. apply Rmult_le_compat; try lra. apply Rabs_pos.
    - rewrite Rabs_mult, (Rabs_pos_eq (val x / exact_sum m)) by lra. rewrite Rabs_mult, (Rabs_pos_eq (/ W)) by lra.
      assert (Z : Rabs (W - exact_sum m) <= INR k * d) by (apply Rabs_le; lra).
      assert (Z0 := Rabs_pos (W - exact_sum m)).
      assert (Rabs (W - exact_sum m) * / W <= INR k * d * 2) by (apply Rmult_le_compat; lra).
      assert (0 <= Rabs (W - exact_sum m) * / W) by (apply Rmult_le_pos; lra). nra. }
  specialize (G m w Cm (incl_refl m)). fold W.
  rewrite map_map in S3. pose proof (within_chain _ _ (fun x => val x / exact_sum m) (fun x => x / W) _ m w S3 G) as H.
  eapply within_le; [|exact H]. lra.
Qed.

Lemma EoQ_unanimous_refuted : exists p q, complementary p q /\
  val (nth 0 (EoQ_mean_float M_Float.left_to_right numpy_sum 2 [[p; q]; [p; q]; [p; q]]) f0) <> val p.
Proof.
  exists (ratio 1 10), (fsub f1 (ratio 1 10)). split.
  - assert (U : in_unit (ratio 1 10)) by (apply ratio_unit; lia). destruct U as (F & B).
    destruct f1_ok as (F1 & V1).
    destruct (fsub_ok f1 (ratio 1 10) F1 F) as (Fs & Vs); [rewrite V1; apply big4; rewrite Rabs_pos_eq; lra|].
    assert (U' : in_unit (fsub f1 (ratio 1 10))).
    { split; [exact Fs|]. rewrite Vs, V1. split; [apply nearest_ge_format; [apply format_0|lra]|apply nearest_le_format; [apply format_1|lra]]. }
    split; [split; assumption|]. split; [exact U'|].
    assert (K : val (fadd (ratio 1 10) (fsub f1 (ratio 1 10))) = val f1) by (unfold val; apply f_equal, B2SF_inj; vm_compute; reflexivity).
    rewrite K. exact V1.
  - apply Rgt_not_eq. apply flt_val; vm_compute; reflexivity.
Qed.
